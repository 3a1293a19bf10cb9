(** Design lift digit, argument validation and degenerate sizes. *)
From Coq Require Import Reals List ZArith String Ascii Lra Lia.
From Coquelicot Require Import Coquelicot.
From Verif Require Import Base SolveProofs ProfileModel ProfileSpec ProfileProofs ProfileProofs2 CustomSpec CustomProofs2 CustomProofs3
  NacaModel NacaBounds NacaSpec NacaProofs NacaProofs2 NacaProofs3.
Import ListNotations.
Open Scope R_scope.

Section A.
Variable american : profile -> R -> list R -> R -> list R -> res (list R).
Notation build s n cosine := (naca_profile american (DStr s) (NInt (Z.of_nat n)) cosine).

Lemma linear_ignores_lift : forall a a' b s c d na, is_digit a -> is_digit a' -> is_digit b -> is_digit s -> is_digit c -> is_digit d ->
  naca_profile american (DStr (code [a; b; s; c; d])) na false = naca_profile american (DStr (code [a'; b; s; c; d])) na false.
Proof.
  intros a a' b s c d na H1 H2 H3 H4 H5 H6. unfold naca_profile, naca_check.
  destruct na as [z|x|]; cbn [bind]; auto.
  - destruct (z <? 0)%Z; cbn [bind fst snd]; auto. rewrite !coords5 by auto. auto.
  - destruct (py_int x <? 0)%Z; cbn [bind fst snd]; auto. rewrite !coords5 by auto. auto.
Qed.

Lemma cosine_scales_lift : forall a a' b (reflex : bool) c d n, let s := (if reflex then 1 else 0)%nat in
  is_digit a -> is_digit a' -> is_digit b -> is_digit c -> is_digit d -> (2 <= n)%nat ->
  exists p q p' q', build (code [a; b; s; c; d]) n true = Ok (p, q) /\ build (code [a'; b; s; c; d]) n true = Ok (p', q') /\
    forall i, (i < n)%nat ->
      psub (up_i p i) (down_i p i) = psub (up_i p' i) (down_i p' i) /\ fst (mid_i p i) = fst (mid_i p' i) /\
      INR a' * snd (mid_i p i) = INR a * snd (mid_i p' i).
Proof.
  intros a a' b reflex c d n s Ha Ha' Hb Hc Hd N.
  destruct (foil5 american a b reflex c d true n Ha Hb Hc Hd N) as (p & q & E & _ & L).
  destruct (foil5 american a' b reflex c d true n Ha' Hb Hc Hd N) as (p' & q' & E' & _ & L').
  exists p, q, p', q'. split; auto. split; auto. intros i Hi.
  destruct (L i Hi) as [A B]. destruct (L' i Hi) as [A' B']. rewrite A, A', B, B'. cbn [fst snd].
  split; auto. split; auto. unfold mean5. destruct (Nat.eqb b 0); [ring|]. cbv zeta. field.
Qed.

Lemma orthogonal_iff_lift_two : forall a b (reflex : bool) c d n p q i s,
  is_digit a -> is_digit b -> is_digit c -> is_digit d -> (2 <= n)%nat -> (0 < i < n - 1)%nat -> (b <> 0)%nat -> (0 < c + d)%nat ->
  build (code [a; b; (if reflex then 1 else 0)%nat; c; d]) n true = Ok (p, q) ->
  let m := naca5_m reflex (5 * INR b / 100) in let k := naca5_k reflex m in
  is_derive (fun x => INR a / 2 * camber_line5 k m x) (station n i) s ->
  (pdot (psub (up_i p i) (down_i p i)) (1, s) = 0 <-> a = 2%nat \/ is_derive (camber_line5 k m) (station n i) 0).
Proof.
  intros a b reflex c d n p q i s Ha Hb Hc Hd N Hi Zb Ht E m k D.
  destruct (foil5 american a b reflex c d true n Ha Hb Hc Hd N) as (p0 & q0 & E0 & _ & L).
  rewrite E in E0. injection E0 as <- <-. destruct (L i ltac:(lia)) as [_ B]. rewrite B. clear B.
  set (x := station n i) in *.
  assert (X : 0 < x < 1).
  { unfold x. rewrite <- (station_0 n). split; [apply station_lt; lia|]. rewrite <- (station_last n N). apply station_lt; lia. }
  assert (T : 0 < tfrac c d).
  { unfold tfrac. assert (1 <= 10 * INR c + INR d); [|lra]. pose proof (pos_INR c). pose proof (pos_INR d).
    destruct (INR_pos_or_0 c); destruct (INR_pos_or_0 d); try lra.
    exfalso. apply (INR_eq c 0) in H1. apply (INR_eq d 0) in H2. lia. }
  pose proof (half_strict _ _ T X) as HP.
  pose proof (d5_slope k m x) as D5.
  assert (S : s = INR a / 2 * d5 k m x).
  { assert (DD : is_derive (fun x => INR a / 2 * camber_line5 k m x) x (INR a / 2 * d5 k m x)) by (apply is_derive_scal; auto).
    apply is_derive_unique in D. apply is_derive_unique in DD. congruence. }
  unfold slope5. destruct (Nat.eqb_spec b 0); [contradiction|]. cbv zeta. fold m k.
  unfold pdot, pscale. cbn [fst snd]. pose proof (cos_atan_pos (d5 k m x)) as CP.
  assert (F : 2 * half_thickness (tfrac c d) x * cos (atan (d5 k m x)) * - d5 k m x * 1 +
    2 * half_thickness (tfrac c d) x * cos (atan (d5 k m x)) * 1 * s =
    half_thickness (tfrac c d) x * cos (atan (d5 k m x)) * ((INR a - 2) * d5 k m x)) by (rewrite S; field).
  rewrite F. split.
  - intros Z. apply Rmult_integral in Z. destruct Z as [Z|Z].
    + exfalso. assert (0 < half_thickness (tfrac c d) x * cos (atan (d5 k m x))) by (apply Rmult_lt_0_compat; auto). lra.
    + apply Rmult_integral in Z. destruct Z as [Z|Z].
      * left. apply INR_eq. simpl. lra.
      * right. rewrite <- Z. auto.
  - intros [->|Z].
    + simpl. ring.
    + apply is_derive_unique in Z. apply is_derive_unique in D5. assert (d5 k m x = 0) as -> by congruence. ring.
Qed.

(** ** Validation *)
Lemma npoints_float : forall s x n cosine, INR n <= x < INR n + 1 ->
  naca_profile american (DStr s) (NFloat x) cosine = build s n cosine.
Proof.
  intros s x n cosine H. unfold naca_profile, naca_check. cbn [bind].
  assert (E : py_int x = Z.of_nat n).
  { unfold py_int. pose proof (pos_INR n). destruct (Rlt_dec x 0); [lra|].
    destruct (base_Int_part x) as [B1 B2]. rewrite INR_IZR_INZ in H.
    assert (IZR (Int_part x) < IZR (Z.of_nat n + 1)) by (rewrite plus_IZR; lra). apply lt_IZR in H1.
    assert (IZR (Z.of_nat n) < IZR (Int_part x + 1)) by (rewrite plus_IZR; lra). apply lt_IZR in H2. lia. }
  rewrite E. auto.
Qed.
Lemma npoints_float_small : forall s x cosine, -1 < x < 0 ->
  naca_profile american (DStr s) (NFloat x) cosine = build s 0 cosine.
Proof.
  intros s x cosine H. unfold naca_profile, naca_check. cbn [bind].
  assert (E : py_int x = 0%Z).
  { unfold py_int. destruct (Rlt_dec x 0); [|lra]. destruct (base_Int_part (-x)) as [B1 B2].
    assert (IZR (Int_part (-x)) < IZR 1) by lra. apply lt_IZR in H0.
    assert (IZR (-1) < IZR (Int_part (-x))) by lra. apply lt_IZR in H1. lia. }
  rewrite E. auto.
Qed.
Lemma npoints_negative : forall s cosine, (forall z, (z < 0)%Z -> naca_profile american (DStr s) (NInt z) cosine = Err ValueError) /\
  (forall x, x <= -1 -> naca_profile american (DStr s) (NFloat x) cosine = Err ValueError).
Proof.
  intros s cosine. split.
  - intros z H. unfold naca_profile, naca_check. cbn [bind]. apply Z.ltb_lt in H. rewrite H. auto.
  - intros x H. unfold naca_profile, naca_check. cbn [bind].
    assert (E : (py_int x < 0)%Z).
    { unfold py_int. destruct (Rlt_dec x 0); [|lra]. destruct (base_Int_part (-x)) as [B1 B2].
      assert (IZR 0 < IZR (Int_part (-x))) by lra. apply lt_IZR in H0. lia. }
    apply Z.ltb_lt in E. rewrite E. auto.
Qed.
Lemma types_rejected : forall na cosine s, naca_profile american DOther na cosine = Err TypeError /\
  naca_profile american (DStr s) NOther cosine = Err TypeError.
Proof. intros. split; reflexivity. Qed.
Lemma other_length : forall s n cosine, (String.length s <> 4)%nat -> (String.length s <> 5)%nat -> build s n cosine = Err OtherException.
Proof.
  intros s n cosine H4 H5. unfold naca_profile, naca_check. cbn [bind].
  replace (Z.of_nat n <? 0)%Z with false by (symmetry; apply Z.ltb_ge; lia). cbn [bind fst snd]. rewrite Nat2Z.id.
  unfold naca_coordinates.
  destruct s as [|a [|b [|c [|d [|e [|f s]]]]]]; simpl in *; auto; congruence.
Qed.
Lemma bad_digit : forall s c n cosine i, (String.length s = 4 \/ String.length s = 5)%nat ->
  String.get i s = Some c -> (i <= 1)%nat -> (forall d, is_digit d -> c <> digit_char d) -> build s n cosine = Err ValueError.
Proof.
  intros s c n cosine i H G I D'.
  assert (D : digit_of c = None).
  { destruct (digit_of c) as [x|] eqn:Q; auto. apply digit_of_iff in Q as (d & Hd & E & _). exfalso. exact (D' d Hd E). }
  clear D'. unfold naca_profile, naca_check. cbn [bind].
  replace (Z.of_nat n <? 0)%Z with false by (symmetry; apply Z.ltb_ge; lia). cbn [bind fst snd]. rewrite Nat2Z.id.
  unfold naca_coordinates.
  destruct s as [|c0 [|c1 [|c2 [|c3 [|c4 [|c5 s]]]]]]; simpl in H; try (exfalso; lia).
  - cbn [list_ascii_of_string]. unfold float1. destruct i as [|[|i]]; [| |lia]; simpl in G; injection G as ->.
    + rewrite D. auto.
    + rewrite D. destruct (digit_of c0); auto.
  - cbn [list_ascii_of_string]. unfold float1. destruct i as [|[|i]]; [| |lia]; simpl in G; injection G as ->.
    + rewrite D. auto.
    + rewrite D. destruct (digit_of c0); auto.
Qed.
Lemma build_unfold : forall s n cosine, build s n cosine =
  (let* p := naca_coordinates s cosine n in let* q := generate_parameters american "british" p in Ok (p, q)).
Proof.
  intros. unfold naca_profile, naca_check. cbn [bind].
  replace (Z.of_nat n <? 0)%Z with false by (symmetry; apply Z.ltb_ge; lia). cbn [bind fst snd]. rewrite Nat2Z.id. auto.
Qed.
(** The code up to the thickness, and two characters for it. *)
Lemma thickness_spelled : forall pre a b a' b' x n cosine, (List.length pre = 2 \/ List.length pre = 3)%nat -> two_chars a b x -> two_chars a' b' x ->
  build (string_of_list_ascii (pre ++ [a; b])) n cosine = build (string_of_list_ascii (pre ++ [a'; b'])) n cosine.
Proof.
  intros pre a b a' b' x n cosine L A B. apply float2_iff in A, B. rewrite !build_unfold. unfold naca_coordinates. rewrite !list_ascii_of_string_of_list_ascii.
  destruct pre as [|c0 [|c1 [|c2 [|c3 pre]]]]; simpl in L; try lia; cbn [app]; rewrite A, B; reflexivity.
Qed.
Lemma thickness_unreadable : forall pre a b n cosine, (List.length pre = 2 \/ List.length pre = 3)%nat -> (forall x, ~ two_chars a b x) ->
  build (string_of_list_ascii (pre ++ [a; b])) n cosine = Err ValueError.
Proof.
  intros pre a b n cosine L A. rewrite build_unfold. unfold naca_coordinates. rewrite list_ascii_of_string_of_list_ascii.
  assert (F : float2 a b = Err ValueError).
  { destruct (float2 a b) as [x|e] eqn:Q; [apply float2_iff in Q; exfalso; exact (A x Q)|]. f_equal.
    unfold float2 in Q. destruct (digit_of a), (digit_of b); repeat match type of Q with context[if ?c then _ else _] => destruct c end; congruence. }
  destruct pre as [|c0 [|c1 [|c2 [|c3 pre]]]]; simpl in L; try lia; cbn [app]; rewrite F; unfold float1;
    destruct (digit_of c0); cbn [bind]; auto; destruct (digit_of c1); cbn [bind]; auto; destruct (digit_of c2); auto.
Qed.
Lemma bad_s : forall a b s c d n cosine, is_digit a -> is_digit b -> is_digit s -> is_digit c -> is_digit d -> (2 <= s)%nat ->
  build (code [a; b; s; c; d]) n cosine = Err ValueError.
Proof.
  intros a b s c d n cosine H1 H2 H3 H4 H5 S2. unfold naca_profile, naca_check. cbn [bind].
  replace (Z.of_nat n <? 0)%Z with false by (symmetry; apply Z.ltb_ge; lia). cbn [bind fst snd]. rewrite Nat2Z.id.
  rewrite coords5 by auto. unfold naca5.
  assert (2 <= INR s). { replace 2 with (INR 2) by (simpl; lra). apply le_INR; auto. }
  destruct (Req_EM_T (INR s) 1); [lra|]. destruct (Req_EM_T (INR s) 0); [lra|]. auto.
Qed.

(** One or no point. *)
Lemma valid4_size : forall m p t cosine, (0 <= p < 1) ->
  (exists f, naca4 m p t cosine 0 = Ok f /\ generate_parameters american "british" f = Err IndexError) /\
  (exists f, naca4 m p t cosine 1 = Ok f /\ generate_parameters american "british" f = Err NonFinite).
Proof.
  assert (Z : forall X U D V f, traced 0 X U D V f -> generate_parameters american "british" f = Err IndexError) by (intros X U D V f ->; reflexivity).
  assert (O : forall X U D V f, traced 1 X U D V f -> X 0 = 0 -> D 0 = 0 -> U 0 = 0 -> V 0 = 0 -> generate_parameters american "british" f = Err NonFinite).
  { intros X U D V f -> E1 E2 E3 E4. unfold linspace. simpl. replace (0 + 0 * ((1 - 0) / 0)) with 0 by ring.
    rewrite E1, E2, E3, E4. unfold generate_parameters, update_edges, edge_tol; simpl.
    destruct (Rlt_dec (1/10000) (Rabs (0 - 0))) as [H|H]; [rewrite Rminus_0_r, Rabs_R0 in H; lra|]. simpl.
    destruct (Rlt_dec (1/10000) (Rabs (0 - 0))); [contradiction|]. simpl. rewrite te_mid. simpl.
    unfold vdiv; simpl. unfold fdiv at 1, norm2.
    replace ((0 - 0) * (0 - 0) + (0 - (0 + 0) / 2) * (0 - (0 + 0) / 2)) with 0 by field. rewrite sqrt_0.
    destruct (Req_EM_T 0 0); [auto|congruence]. }
  intros m p t cosine P. destruct (half_ends t) as [H0 _].
  assert (C : p <> 0 -> c4 m p 0 = 0).
  { intros N. rewrite c4_textbook by lra. apply camber4_ends. lra. }
  destruct (naca4_traced m p t cosine 0) as (f & E & T0 & T1 & T2).
  destruct (naca4_traced m p t cosine 1) as (g & F & S0 & S1 & S2).
  destruct (Req_EM_T p 0) as [EZ|NZ]; [|destruct cosine].
  - split; [exists f; split; auto; eapply Z; apply T0; auto|]. exists g. split; auto.
    eapply O; [apply S0; auto| | | |]; cbv beta; rewrite ?H0; lra.
  - split; [exists f; split; auto; eapply Z; apply T1; auto|]. exists g. split; auto.
    eapply O; [apply S1; auto| | | |]; cbv beta; rewrite ?H0, ?C by auto; lra.
  - split; [exists f; split; auto; eapply Z; apply T2; auto|]. exists g. split; auto.
    eapply O; [apply S2; auto| | | |]; cbv beta; rewrite ?H0, ?C by auto; lra.
Qed.
Lemma small_sizes : forall a b c d cosine, is_digit a -> is_digit b -> is_digit c -> is_digit d ->
  build (code [a; b; c; d]) 0 cosine = Err IndexError /\ build (code [a; b; c; d]) 1 cosine = Err NonFinite.
Proof.
  intros a b c d cosine Ha Hb Hc Hd. pose proof (digit_INR b Hb).
  destruct (valid4_size (INR a / 100) (INR b / 10) (tfrac c d) cosine) as [(f & E & G) (g & F & K)]; [lra|].
  rewrite !build_unfold, !coords4 by auto. unfold tfrac in E, F. rewrite E, F. cbn [bind]. rewrite G, K. auto.
Qed.

(** A sign passes for a thickness digit. *)
Lemma negative_thickness : exists p q, build "00-5" 3 false = Ok (p, q) /\ snd (up_i p 1) < snd (down_i p 1).
Proof.
  destruct (naca4_traced (0/100) (0/10) (-5/100) false 3) as (p & E & T0 & _).
  specialize (T0 ltac:(lra)). destruct (half_ends (-5/100)) as [H0 H1].
  destruct (traced_params american _ _ _ _ _ _ T0 ltac:(lia)) as (q & Eq & _); try lra.
  exists p, q. split.
  - eapply naca_ok; [|reflexivity|exact Eq]. unfold naca_coordinates. cbn [list_ascii_of_string].
    unfold float1, float2, digit_of, is_char, is_space. simpl.
    replace (1 + 1 + 1 + 1 + 1) with 5 by lra. replace (- (5)) with (-5) by lra. exact E.
  - destruct (traced_nth _ _ _ _ _ _ 1%nat T0 ltac:(lia) ltac:(lia)) as [-> ->]. cbn [snd].
    rewrite half_shape by (apply station_bounds; lia).
    assert (0 < shape (sqrt (station 3 1))).
    { apply shape_strict. unfold station. simpl. replace (1 / (1 + 1)) with (1/2) by lra. split; [apply sqrt_lt_R0; lra|].
      pose proof (sqrt_lt_1 (1/2) 1 ltac:(lra) ltac:(lra) ltac:(lra)) as S. rewrite sqrt_1 in S. exact S. }
    lra.
Qed.

(** Second digits beyond the table: camber larger than the chord. *)
Lemma extrapolated_camber : exists p q, build (code [2; 6; 0; 1; 2]%nat) 3 true = Ok (p, q) /\ 1 < snd (mid_i p 1).
Proof.
  destruct (foil5 american 2 6 false 1 2 true 3) as (p & q & E & _ & L); try (unfold is_digit; lia); try lia.
  exists p, q. split; [exact E|]. destruct (L 1%nat ltac:(lia)) as [-> _]. cbn [snd].
  unfold mean5. cbn [Nat.eqb]. cbv zeta. rewrite k_std, m_std by lia. cbn [nth Nat.sub].
  unfold station. simpl INR. replace (1 / (1 + 1)) with (1/2) by lra. unfold camber_line5.
  destruct (Rle_dec (1/2) (508/1000)); [|lra]. lra.
Qed.
End A.
