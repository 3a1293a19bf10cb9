(** Section parameters in binary64: success, NaN, a chord of length 0. *)
From Coq Require Import Reals ZArith List Lra Lia Bool.
From Flocq Require Import Core BinarySingleNaN.
From Verif Require Import Base PpgFloatModel PpgFloatProofs ProfileModel ProfileSpec ProfileProofs2 FloatModel FloatSpec FloatProofs FloatProofs2 ShapeFloatModel ShapeFloatSpec ShapeFloatProofs ShapeFloatProofs2 ShapeFloatProofs4 ShapeFloatProofs6 SectionFloatModel SectionFloatSpec SectionFloatProofs SectionFloatProofs2 SectionFloatProofs3 SectionFloatProofs4 SectionFloatProofs5 SectionFloatProofs6.
Import ListNotations.
Open Scope R_scope.

Lemma minimum_nan : forall a b, is_nan64 a \/ is_nan64 b -> is_nan64 (minimum64 a b).
Proof.
  intros a b [H|H]; unfold minimum64.
  - unfold is_nan64 in H. rewrite H, orb_true_r. exact H.
  - destruct (Bleb a b) eqn:E; [exfalso; apply (bleb_not_nan a b E); exact H|]. cbn [orb]. destruct (@is_nan 53 1024 a) eqn:F; auto.
Qed.
Lemma vmin64_nan : forall l x, In x l -> is_nan64 x -> exists t, vmin64 l = Ok t /\ is_nan64 t.
Proof.
  intros [|y l] x I N; [destruct I|]. cbn [vmin64]. eexists. split; [reflexivity|].
  assert (K : forall l y, is_nan64 y -> is_nan64 (fold_left minimum64 l y)).
  { clear. induction l as [|z l IH]; intros y H; cbn [fold_left]; auto. apply IH. apply minimum_nan. auto. }
  revert y I. induction l as [|z l IH]; intros y I; cbn [fold_left].
  - destruct I as [<-|[]]. exact N.
  - destruct I as [<-|[<-|I]]; [apply K, minimum_nan; auto|apply K, minimum_nan; auto|]. apply IH. right. exact I.
Qed.
Lemma self_difference : forall x, Bltb tol64 (fabs64 (fsub x x)) = false.
Proof.
  intros x. destruct (finite x) eqn:F.
  - pose proof huge_big. apply close_enough; auto; rewrite (Rminus_diag_eq _ _ eq_refl), Rabs_R0; lra.
  - destruct x as [s|s| |s m e H]; try discriminate F; destruct s || idtac; reflexivity.
Qed.

Lemma always : forall o p, same_sizes p -> fxdown p = fxup p -> (fxup p <> [] -> exists s, parameters_british64 o p = Ok s /\ same_lengths s /\ length (pchord s) = length (fxup p)) /\
  (fxup p = [] -> parameters_british64 o p = Err IndexError).
Proof.
  intros o p S X. pose proof S as (S1 & S2 & S3). split.
  - intros NE. assert (Y : fyup p <> []) by (apply (not_nil _ _ (fxup p)); auto; congruence). assert (Z : fydown p <> []) by (apply (not_nil _ _ (fxup p)); auto; congruence).
    assert (E : exists e, update_edges64 p = Ok e).
    { unfold update_edges64. rewrite X, !first_hd, !final_last by auto. cbn [bind]. rewrite !self_difference. eexists. reflexivity. }
    destruct E as (e & E). unfold parameters_british64. rewrite E. cbn [bind]. destruct (fxup p) as [|x l] eqn:Ex; [congruence|]. cbn [vmin64 bind]. rewrite <- Ex in *.
    unfold vzip. rewrite (proj2 (Nat.eqb_eq _ _) (eq_trans S2 (eq_sym S3))). cbn [bind].
    assert (L : forall f : b64 -> b64 -> b64, length (map2 f (fyup p) (fydown p)) = length (fxup p)) by (intros f; rewrite map2_size; congruence).
    assert (V : forall l : list b64, length l = length (fxup p) -> exists t, vmax64 l = Ok t). { intros [|z l'] H; [rewrite Ex in H; discriminate|]. eexists. reflexivity. }
    destruct (V _ (L (fun u d => fdiv64 (fadd u d) two64))) as (c & ->). cbn [bind]. destruct (V _ (L (fun u d => fabs64 (fsub u d)))) as (t & ->). cbn [bind].
    eexists. split; [reflexivity|]. unfold same_lengths. cbn [pchord pcamber pthick]. rewrite map_length.
    assert (F : forall l m, length l = length (fxup p) -> length (fractions64 (length (fxup p)) l m) = length (fxup p)). { intros l0 m H. unfold fractions64. destruct (Beqb m zero64); [apply repeat_length|rewrite map_length; exact H]. }
    rewrite !F by apply L. auto.
  - intros E. unfold parameters_british64, update_edges64. rewrite E. reflexivity.
Qed.

Lemma nan_list : forall (f : b64 -> b64 -> b64), (forall u d, is_nan64 u \/ is_nan64 d -> is_nan64 (f u d)) -> forall a b, length a = length b ->
  Exists is_nan64 a \/ Exists is_nan64 b -> exists x, In x (map2 f a b) /\ is_nan64 x.
Proof.
  intros f K. induction a as [|u l IH]; intros [|d l'] L X; try discriminate L.
  - destruct X as [X|X]; inversion X.
  - cbn [map2]. assert (Y : (is_nan64 u \/ is_nan64 d) \/ (Exists is_nan64 l \/ Exists is_nan64 l')) by (destruct X as [X|X]; inversion X; subst; auto).
    destruct Y as [Y|Y].
    + eexists. split; [left; reflexivity|]. apply K. exact Y.
    + destruct (IH l') as (x & I & Q); auto. exists x. split; [right; exact I|exact Q].
Qed.
Lemma nan_fractions : forall n l m, is_nan64 m -> Forall is_nan64 (fractions64 n l m).
Proof.
  intros n l m H. unfold fractions64. replace (Beqb m zero64) with false by (destruct m; try discriminate H; reflexivity).
  apply Forall_forall. intros x I. apply in_map_iff in I as (y & <- & _). apply nan_div, H.
Qed.
Lemma nan_parameters : forall o p s, same_sizes p -> parameters_british64 o p = Ok s ->
  (Exists is_nan64 (fxup p) -> Forall is_nan64 (pchord s)) /\
  (Exists is_nan64 (fyup p) \/ Exists is_nan64 (fydown p) -> is_nan64 (pcmax s) /\ is_nan64 (ptmax s) /\ Forall is_nan64 (pcamber s) /\ Forall is_nan64 (pthick s)).
Proof.
  intros o p s S H. destruct (parameters_inv o p s S H) as (e & x0 & c & t & _ & X0 & C & T & ->). cbn [pchord pcamber pthick pcmax ptmax]. destruct S as (S1 & S2 & S3). split.
  - intros X. apply Exists_exists in X as (x & I & N). destruct (vmin64_nan _ _ I N) as (t' & E & Nt). assert (t' = x0) by congruence. subst t'.
    apply Forall_forall. intros f J. apply in_map_iff in J as (y & <- & _). apply nan_div_l, nan_minus. auto.
  - intros X. assert (L : length (fyup p) = length (fydown p)) by congruence.
    destruct (nan_list avg64) with (2 := L) (3 := X) as (a & Ia & Na). { intros u d K. apply nan_div_l, nan_add, K. }
    destruct (nan_list gap64) with (2 := L) (3 := X) as (g & Ig & Ng). { intros u d K. apply nan_sub, K. }
    destruct (vmax64_nan _ _ Ia Na) as (c' & C' & Nc). assert (c' = c) by congruence. subst c'. destruct (vmax64_nan _ _ Ig Ng) as (t' & T' & Nt). assert (t' = t) by congruence. subst t'.
    assert (NA : is_nan64 (fabs64 c)) by (destruct c; try discriminate Nc; reflexivity).
    split; [exact NA|]. split; [exact Nt|]. split; apply nan_fractions; auto.
Qed.

Lemma fdiv_zero : forall x y, finite y = true -> val y = 0 -> ~ is_number (fdiv64 x y).
Proof.
  intros x y F Z. destruct y as [s|s| |s m e H]; try discriminate F.
  - destruct x; discriminate.
  - exfalso. cbn [B2R] in Z. apply (F2R_neq_0 radix2 (Float radix2 (SpecFloat.cond_Zopp s (Zpos m)) e)); [destruct s; discriminate|exact Z].
Qed.
Lemma no_chord : forall o p s, same_sizes p -> parameters_british64 o p = Ok s -> is_number (plen s) -> real (plen s) = 0 -> Forall (fun f => ~ is_number f) (pchord s).
Proof.
  intros o p s S H F Z. destruct (parameters_inv o p s S H) as (e & x0 & c & t & _ & _ & _ & _ & ->). cbn [pchord plen] in *.
  apply Forall_forall. intros f J. apply in_map_iff in J as (y & <- & _). apply fdiv_zero; auto.
Qed.

(** A chord shorter than 2^-538 squares to 0. *)
Lemma rnd_tiny : forall a, 0 <= a <= bpow radix2 (-1076) -> rnd a = 0.
Proof.
  intros a [P B]. destruct P as [P|<-]; [|apply round_0; apply valid_rnd_N].
  apply (round_N_small_pos radix2 fexp64 (fun z => negb (Z.even z)) a (mag radix2 a)).
  - destruct (mag radix2 a) as (e & H). cbn. rewrite Rabs_pos_eq in H by lra. apply H. lra.
  - assert (M : (mag radix2 a <= -1075)%Z). { apply mag_le_bpow; [lra|]. rewrite Rabs_pos_eq by lra. apply Rle_lt_trans with (1 := B). apply bpow_lt. lia. }
    unfold SpecFloat.fexp, FLT_exp. lia.
Qed.
Lemma norm_tiny : forall o x y, finite x = true -> finite y = true -> val y = 0 -> Rabs (val x) <= bpow radix2 (-538) ->
  finite (norm2_64 o x y) = true /\ val (norm2_64 o x y) = 0.
Proof.
  intros o x y Fx Fy Z B. pose proof huge_big as HB. assert (R0 : rnd 0 = 0) by (apply round_0; apply valid_rnd_N).
  assert (X : 0 <= val x * val x <= bpow radix2 (-1076)). { split; [nra|]. replace (val x * val x) with (Rabs (val x) * Rabs (val x)) by (rewrite <- Rabs_mult, Rabs_pos_eq; nra). change (-1076)%Z with (-538 + -538)%Z. rewrite bpow_plus. apply Rmult_le_compat; auto; apply Rabs_pos. }
  assert (XH : val x * val x <= huge). { apply Rle_trans with (1 := proj2 X). unfold huge. apply bpow_le. lia. }
  destruct (fmul_fine x x Fx Fx) as (Vx & Fxx); [rewrite Rabs_pos_eq; lra|]. destruct (fmul_fine y y Fy Fy) as (Vy & Fyy); [rewrite Z, Rmult_0_l, Rabs_R0; lra|].
  rewrite (rnd_tiny _ X) in Vx. rewrite Z, Rmult_0_l, R0 in Vy.
  assert (D : finite (dot2 o x y x y) = true /\ val (dot2 o x y x y) = 0).
  { destruct o; cbn [dot2].
    - destruct (fadd_ok _ _ Fxx Fyy) as (V & F); [rewrite Vx, Vy, Rplus_0_r, Rabs_R0; lra|]. split; auto. rewrite V, Vx, Vy, Rplus_0_r. exact R0.
    - destruct (ffma_ok x x _ Fx Fx Fyy) as (V & F); [rewrite Vy, Rplus_0_r, Rabs_pos_eq; lra|]. split; auto. rewrite V, Vy, Rplus_0_r. apply rnd_tiny, X.
    - destruct (ffma_ok y y _ Fy Fy Fxx) as (V & F); [rewrite Z, Rmult_0_l, Rplus_0_l, Vx, Rabs_R0; lra|]. split; auto. rewrite V, Z, Rmult_0_l, Rplus_0_l, Vx. exact R0. }
  destruct D as (F & V). destruct (fsqrt_val _ F) as (W & G); [rewrite V; lra|]. split; [exact G|]. unfold norm2_64. rewrite W, V, sqrt_0. exact R0.
Qed.
Lemma short_chord : forall o p s, numbers p -> common_abscissae p -> same_sizes p -> fxup p <> [] ->
  Rabs (real (hd zero64 (fxup p)) - real (last (fxup p) zero64)) <= bpow radix2 (-539) ->
  real (hd zero64 (fyup p)) = real (last (fyup p) zero64) -> real (last (fyup p) zero64) = real (last (fydown p) zero64) -> parameters_british64 o p = Ok s ->
  is_number (plen s) /\ real (plen s) = 0 /\ Forall (fun f => ~ is_number f) (pchord s).
Proof.
  intros o p s N C S NE Sh Fl Cl H.
  assert (K : is_number (plen s) /\ real (plen s) = 0).
  { pose proof (closed_edges p N C S NE Cl) as E. destruct (parameters_inv o p s S H) as (e & x0 & c & t & E' & _ & _ & _ & ->). cbn [plen].
    assert (e = ((hd zero64 (fxup p), hd zero64 (fyup p)), (last (fxup p) zero64, last (fyup p) zero64))) by congruence. subst e. cbn [fst snd].
    pose proof N as (N1 & N2 & N3 & N4). pose proof huge_big as HB. pose proof (bpow_gt_0 radix2 (-539)) as B0. pose proof eps_bounds as [E1 E2].
    set (xa := hd zero64 (fxup p)) in *. set (xb := last (fxup p) zero64) in *. set (ya := hd zero64 (fyup p)) in *. set (yb := last (fyup p) zero64) in *.
    assert (Fa : finite xa = true) by (apply hd_number; auto). assert (Fb : finite xb = true) by (apply last_number; auto).
    assert (Fya : finite ya = true) by (apply hd_number; auto). assert (Fyb : finite yb = true) by (apply last_number; auto). unfold real in Sh, Fl.
    assert (BH : bpow radix2 (-539) <= huge) by (unfold huge; apply bpow_le; lia).
    destruct (fsub_ok xa xb Fa Fb) as (Vx & Fx); [lra|]. destruct (fsub_ok ya yb Fya Fyb) as (Vy & Fy); [rewrite (Rminus_diag_eq _ _ Fl), Rabs_R0; lra|].
    rewrite (Rminus_diag_eq _ _ Fl), round_0 in Vy by apply valid_rnd_N.
    apply norm_tiny; auto. pose proof (diff_error xa xb) as R. rewrite <- Vx in R. set (w := val xa - val xb) in *.
    assert (Rabs (val (fsub xa xb)) <= (1 + eps) * Rabs w). { replace (val (fsub xa xb)) with ((val (fsub xa xb) - w) + w) by ring. eapply Rle_trans; [apply Rabs_triang|]. lra. }
    assert (eps * Rabs w <= 1 * Rabs w) by (apply Rmult_le_compat_r; [apply Rabs_pos|lra]). change (-538)%Z with (-539 + 1)%Z. rewrite bpow_plus. change (bpow radix2 1) with 2. lra. }
  destruct K as (F & Z). split; [exact F|]. split; [exact Z|]. eapply no_chord; eauto.
Qed.
