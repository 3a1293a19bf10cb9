(** Coordinates from parameters in binary64: whole sections. *)
From Coq Require Import Reals ZArith List Lra Lia Bool.
From Flocq Require Import Core BinarySingleNaN.
From Verif Require Import Base PpgFloatModel PpgFloatProofs ProfileModel ProfileSpec ProfileProofs2 FloatModel FloatSpec FloatProofs FloatProofs2 ShapeFloatModel ShapeFloatSpec ShapeFloatProofs ShapeFloatProofs2 ShapeFloatProofs4 ShapeFloatProofs6 SectionFloatModel SectionFloatSpec SectionFloatProofs.
Import ListNotations.
Open Scope R_scope.

Lemma coordinates_list : forall s, same_lengths s -> let xs := map (fun c => fmul c (plen s)) (pchord s) in
  coordinates_british64 s = Ok (mkF xs xs (map2 (point_up (pcmax s) (ptmax s)) (pcamber s) (pthick s)) (map2 (point_down (pcmax s) (ptmax s)) (pcamber s) (pthick s))).
Proof.
  intros s (L1 & L2) xs. unfold coordinates_british64, vzip. unfold b64 in *. rewrite L1, L2, Nat.eqb_refl. reflexivity.
Qed.

Lemma not_negative : forall x, finite x = true -> Bltb x zero64 = false <-> 0 <= val x.
Proof.
  intros x F. pose proof (Bltb_correct 53 1024 x zero64 F eq_refl) as H. cbn [B2R zero64] in H. rewrite H. split.
  - intros E. destruct (Rlt_bool_spec (val x) 0); [discriminate|auto].
  - intros P. apply Rlt_bool_false. exact P.
Qed.

Lemma checked : forall s, is_number (pcmax s) -> is_number (ptmax s) ->
  ((exists q, from_parameters64 s = Ok q) <-> 0 <= real (pcmax s) /\ 0 <= real (ptmax s) /\ same_lengths s) /\
  ((forall q, from_parameters64 s <> Ok q) -> from_parameters64 s = Err ValueError).
Proof.
  intros s FC FT. unfold from_parameters64, check_parameters64. unfold real.
  pose proof (not_negative (pcmax s) FC) as NC. pose proof (not_negative (ptmax s) FT) as NT.
  destruct (Bltb (pcmax s) zero64) eqn:E1.
  { cbn [bind]. split; [|auto]. split; [intros (q & Q); discriminate|]. intros (H & _). apply NC in H. discriminate. }
  destruct (Bltb (ptmax s) zero64) eqn:E2.
  { cbn [bind]. split; [|auto]. split; [intros (q & Q); discriminate|]. intros (_ & H & _). apply NT in H. discriminate. }
  destruct (Nat.eqb (length (pcamber s)) (length (pchord s))) eqn:E3; cbn [negb bind].
  2:{ split; [|auto]. split; [intros (q & Q); discriminate|]. intros (_ & _ & H & _). apply Nat.eqb_neq in E3. contradiction. }
  destruct (Nat.eqb (length (pthick s)) (length (pchord s))) eqn:E4; cbn [negb bind].
  2:{ split; [|auto]. split; [intros (q & Q); discriminate|]. intros (_ & _ & _ & H). apply Nat.eqb_neq in E4. contradiction. }
  apply Nat.eqb_eq in E3, E4. assert (L : same_lengths s) by (split; auto). rewrite coordinates_list by exact L. split.
  - split; [|eauto]. intros _. repeat split; auto; [apply NC|apply NT]; reflexivity.
  - intros H. exfalso. eapply H. reflexivity.
Qed.

Lemma from_list : forall s, same_lengths s -> Bltb (pcmax s) zero64 = false -> Bltb (ptmax s) zero64 = false -> let xs := map (fun c => fmul c (plen s)) (pchord s) in
  from_parameters64 s = Ok (mkF xs xs (map2 (point_up (pcmax s) (ptmax s)) (pcamber s) (pthick s)) (map2 (point_down (pcmax s) (ptmax s)) (pcamber s) (pthick s))).
Proof.
  intros s L H1 H2 xs. unfold from_parameters64, check_parameters64. rewrite H1, H2. destruct L as (L1 & L2). unfold b64 in *. rewrite L1, L2, Nat.eqb_refl. cbn [negb bind].
  apply coordinates_list. split; auto.
Qed.

Lemma nth_of : forall (P : b64 -> Prop) l i x, Forall P l -> nth_error l i = Some x -> P x.
Proof. intros P l i x F E. apply nth_error_In in E. rewrite Forall_forall in F. auto. Qed.

Lemma points : forall s, number_parameters s -> same_lengths s -> moderate s -> forall i c t,
  nth_error (pcamber s) i = Some c -> nth_error (pthick s) i = Some t ->
  let u := point_up (pcmax s) (ptmax s) c t in let d := point_down (pcmax s) (ptmax s) c t in
  let m := real c * real (pcmax s) in let h := real t * (real (ptmax s) / 2) in
  is_number u /\ is_number d /\
  (let bound := 5 * eps * (Rabs m + Rabs h) + 3 * (2 + Rabs (real t)) * eta in Rabs (real u - (m + h)) <= bound /\ Rabs (real d - (m - h)) <= bound) /\
  (0 <= real (ptmax s) -> 0 <= real t -> real d <= real u) /\ (real t = 0 -> real d = real u).
Proof.
  intros s (N1 & N2 & N3 & NC & NT & NL) L (M1 & M2 & M3) i c t Hc Ht u d m h.
  apply point_error; auto; [apply (nth_of _ _ _ _ N2 Hc)|apply (nth_of _ _ _ _ N3 Ht)|apply (nth_of _ _ _ _ M2 Hc)|apply (nth_of _ _ _ _ M3 Ht)].
Qed.

Lemma constructed : forall s, number_parameters s -> same_lengths s -> moderate s -> 0 <= real (pcmax s) -> 0 <= real (ptmax s) ->
  exists q, from_parameters64 s = Ok q /\ numbers q /\ fxdown q = fxup q /\ same_sizes q /\ length (fxup q) = length (pchord s) /\
  forall i f c t, nth_error (pchord s) i = Some f -> nth_error (pcamber s) i = Some c -> nth_error (pthick s) i = Some t ->
    exists x u d, nth_error (fxup q) i = Some x /\ nth_error (fyup q) i = Some u /\ nth_error (fydown q) i = Some d /\
    (let e := real f * real (plen s) in Rabs (real x - e) <= eps * Rabs e + eta) /\
    (let m := real c * real (pcmax s) in let h := real t * (real (ptmax s) / 2) in let bound := 5 * eps * (Rabs m + Rabs h) + 3 * (2 + Rabs (real t)) * eta in
     Rabs (real u - (m + h)) <= bound /\ Rabs (real d - (m - h)) <= bound) /\
    (0 <= real t -> real d <= real u) /\ (real t = 0 -> real d = real u).
Proof.
  intros s N L M PC PT. pose proof (points s N L M) as K. destruct N as (N1 & N2 & N3 & NC & NT & NL). destruct M as (M1 & M2 & M3). eexists. split.
  { apply from_list; auto; apply not_negative; auto. }
  assert (X : forall i f, nth_error (pchord s) i = Some f -> finite (fmul f (plen s)) = true /\ Rabs (val (fmul f (plen s)) - val f * val (plen s)) <= eps * Rabs (val f * val (plen s)) + eta).
  { intros i f Hf. apply times_error; auto; [apply (nth_of _ _ _ _ N1 Hf)|]. pose proof (nth_of _ _ _ _ M1 Hf) as B. cbn beta in B. unfold real in B. pose proof huge_big. lra. }
  assert (XF : Forall is_number (map (fun f => fmul f (plen s)) (pchord s))).
  { apply Forall_forall. intros x I. apply in_map_iff in I as (f & <- & I). apply In_nth_error in I as (i & I). apply (X i f I). }
  destruct L as (L1 & L2). unfold numbers, same_sizes. cbn [fxup fxdown fyup fydown].
  split; [split; [|split; [|split]]|].
  - exact XF.
  - exact XF.
  - apply nth_both. intros i c t Hc Ht. apply (K i c t Hc Ht).
  - apply nth_both. intros i c t Hc Ht. apply (K i c t Hc Ht).
  - split; [reflexivity|]. unfold b64 in *. rewrite !map2_size, map_length by congruence. split; [auto|]. split; [auto|].
    intros i f c t Hf Hc Ht. exists (fmul f (plen s)), (point_up (pcmax s) (ptmax s) c t), (point_down (pcmax s) (ptmax s) c t).
    split; [exact (map_nth_error (fun f => fmul f (plen s)) i (pchord s) Hf)|]. split; [apply map2_nth; auto|]. split; [apply map2_nth; auto|].
    split; [apply (X i f Hf)|]. destruct (K i c t Hc Ht) as (_ & _ & A & B & C). split; [exact A|]. split; [apply B; exact PT|exact C].
Qed.

Lemma nth_exists : forall A (l : list A) i, (i < length l)%nat -> exists x, nth_error l i = Some x.
Proof. intros A l i H. apply nth_error_Some in H. destruct (nth_error l i); [eauto|congruence]. Qed.
Lemma hd_nth0 : forall A (l : list A) d x, nth_error l 0 = Some x -> hd d l = x.
Proof. intros A [|y l] d x H; cbn in H; [discriminate|]. injection H as ->. reflexivity. Qed.
Lemma last_nth : forall A (l : list A) d x, nth_error l (length l - 1) = Some x -> last l d = x.
Proof.
  intros A. induction l as [|y l IH]; intros d x H; [discriminate|]. destruct l as [|z l]; [cbn in H; injection H as ->; reflexivity|].
  change (last (y :: z :: l) d) with (last (z :: l) d). apply IH. cbn [length] in *. replace (S (length l) - 1)%nat with (length l) by lia.
  replace (S (S (length l)) - 1)%nat with (S (length l)) in H by lia. exact H.
Qed.

Lemma accepted : forall s, number_parameters s -> same_lengths s -> moderate s -> 0 <= real (pcmax s) -> 0 <= real (ptmax s) -> pchord s <> [] ->
  Forall (fun t => 0 <= real t) (pthick s) -> real (hd zero64 (pthick s)) = 0 -> real (last (pthick s) zero64) = 0 ->
  exists q, from_parameters64 s = Ok q /\ check_coordinates64 q = Ok tt.
Proof.
  intros s N L M PC PT NE PF ZF ZL. destruct (constructed s N L M PC PT) as (q & Q & Nq & Xq & Sq & Lq & K). exists q. split; [exact Q|].
  destruct L as (L1 & L2). destruct Sq as (S1 & S2 & S3).
  assert (Len : (0 < length (pchord s))%nat) by (destruct (pchord s); [congruence|cbn; lia]).
  apply check_numbers; auto; [repeat split; auto|intros E; rewrite E in Lq; cbn in Lq; lia| |].
  - intros i u d _ _ U D. unfold meaning in U, D. cbn [yup ydown] in U, D. rewrite nth_error_map in U, D.
    destruct (nth_error (fyup q) i) as [u'|] eqn:Eu; [|discriminate]. destruct (nth_error (fydown q) i) as [d'|] eqn:Ed; [|discriminate]. cbn in U, D. injection U as <-. injection D as <-.
    assert (I : (i < length (pchord s))%nat). { rewrite <- Lq, <- S2. apply nth_error_Some. congruence. }
    destruct (nth_exists _ (pchord s) i I) as (f & Hf). destruct (nth_exists _ (pcamber s) i) as (c & Hc); [unfold b64 in *; congruence|]. destruct (nth_exists _ (pthick s) i) as (t & Ht); [unfold b64 in *; congruence|].
    destruct (K i f c t Hf Hc Ht) as (x & u2 & d2 & _ & U2 & D2 & _ & _ & O & _). rewrite Eu in U2. rewrite Ed in D2. injection U2 as ->. injection D2 as ->.
    apply O. apply (nth_of _ _ _ _ PF Ht).
  - assert (G : forall i t, nth_error (pthick s) i = Some t -> real t = 0 -> exists u d, nth_error (fyup q) i = Some u /\ nth_error (fydown q) i = Some d /\ real d = real u).
    { intros i t Ht Z. assert (I : (i < length (pthick s))%nat) by (apply nth_error_Some; congruence).
      destruct (nth_exists _ (pchord s) i) as (f & Hf); [unfold b64 in *; congruence|]. destruct (nth_exists _ (pcamber s) i) as (c & Hc); [unfold b64 in *; congruence|].
      destruct (K i f c t Hf Hc Ht) as (x & u2 & d2 & _ & U2 & D2 & _ & _ & _ & O). eauto 6. }
    destruct (nth_exists _ (pthick s) 0) as (t0 & T0); [unfold b64 in *; lia|]. destruct (nth_exists _ (pthick s) (length (pthick s) - 1)) as (tn & Tn); [unfold b64 in *; lia|].
    rewrite (hd_nth0 _ _ zero64 _ T0) in ZF. rewrite (last_nth _ _ zero64 _ Tn) in ZL.
    destruct (G _ _ T0 ZF) as (u0 & d0 & U0 & D0 & E0). destruct (G _ _ Tn ZL) as (un & dn & Un & Dn & En).
    assert (LL : length (fyup q) = length (pthick s)) by (unfold b64 in *; congruence). assert (LL2 : length (fydown q) = length (pthick s)) by (unfold b64 in *; congruence).
    unfold ends_agree, meaning. cbn [xup xdown yup ydown]. rewrite !hd_real, !last_real, Xq.
    rewrite (hd_nth0 _ _ zero64 _ U0), (hd_nth0 _ _ zero64 _ D0), (last_nth _ (fyup q) zero64 un), (last_nth _ (fydown q) zero64 dn), E0, En by (rewrite ?LL, ?LL2; auto).
    assert (A : forall z, agrees (1 - 8 * eps) z z).
    { intros z. unfold agrees. replace (z - z) with 0 by ring. rewrite Rabs_R0. pose proof eps_bounds as [E1 E2]. pose proof (Rabs_pos z). apply Rmult_le_pos; lra. }
    repeat split; apply A.
Qed.

(** Thickness of the section. *)
Lemma fatness : forall s K, number_parameters s -> same_lengths s -> moderate s -> 0 <= real (pcmax s) -> 0 <= real (ptmax s) ->
  Forall (fun t => 0 <= real t <= 1) (pthick s) -> Exists (fun t => real t = 1) (pthick s) -> Forall (fun c => Rabs (real c * real (pcmax s)) <= K) (pcamber s) ->
  exists q t, from_parameters64 s = Ok q /\ max_thickness64 q = Ok t /\ is_number t /\
    Rabs (real t - real (ptmax s)) <= 12 * eps * (K + real (ptmax s)) + 20 * eta.
Proof.
  intros s K N L M PC PT P01 PE BK. destruct (constructed s N L M PC PT) as (q & Q & Nq & Xq & Sq & Lq & G). exists q.
  pose proof eps_bounds as [E1 E2]. pose proof eta_tiny as ET. pose proof eta_bounds as [H1 _]. pose proof huge_big as HB.
  apply Exists_exists in PE as (t1 & I1 & V1). apply In_nth_error in I1 as (j & J).
  assert (Len : forall i t, nth_error (pthick s) i = Some t -> exists f c, nth_error (pchord s) i = Some f /\ nth_error (pcamber s) i = Some c).
  { intros i t Ht. assert (I : (i < length (pthick s))%nat) by (apply nth_error_Some; congruence). destruct L as (L1 & L2).
    destruct (nth_exists _ (pchord s) i) as (f & Hf); [unfold b64 in *; congruence|]. destruct (nth_exists _ (pcamber s) i) as (c & Hc); [unfold b64 in *; congruence|]. eauto. }
  set (T := real (ptmax s)) in *.
  assert (K0 : 0 <= K). { destruct (Len j t1 J) as (f & c & _ & Hc). pose proof (nth_of _ _ _ _ BK Hc) as B. cbn beta in B. pose proof (Rabs_pos (real c * real (pcmax s))). lra. }
  assert (T4 : T / 2 <= huge / 4). { destruct M as (_ & _ & M3). pose proof (nth_of _ _ _ _ M3 J) as B. cbn beta in B. rewrite V1, Rmult_1_l, Rabs_pos_eq in B by (fold T; lra). exact B. }
  assert (C : common_abscissae q) by (destruct Nq as (A & B & _); split; [|split]; auto; rewrite Xq; reflexivity).
  set (del := 10 * eps * (K + T) + 18 * eta).
  assert (EK : 0 <= eps * K) by nra. assert (ETT : 0 <= eps * T) by nra.
  assert (Local : forall i t, nth_error (pthick s) i = Some t -> exists u d, nth_error (fyup q) i = Some u /\ nth_error (fydown q) i = Some d /\
    Rabs ((real u - real d) - real t * T) <= del /\ 0 <= real u - real d).
  { intros i t Ht. destruct (Len i t Ht) as (f & c & Hf & Hc). destruct (G i f c t Hf Hc Ht) as (x & u & d & _ & U & D & _ & (B1 & B2) & O & _). exists u, d. split; auto. split; auto.
    pose proof (nth_of _ _ _ _ P01 Ht) as Pt. cbn beta in Pt. pose proof (nth_of _ _ _ _ BK Hc) as Bc. cbn beta in Bc. specialize (O ltac:(lra)).
    split; [|lra]. fold T in B1, B2. set (m := real c * real (pcmax s)) in *. rewrite (Rabs_pos_eq (real t)) in B1, B2 by lra.
    assert (Hh : 0 <= real t * (T / 2) <= T / 2). { split; [apply Rmult_le_pos; lra|]. rewrite <- (Rmult_1_l (T / 2)) at 2. apply Rmult_le_compat_r; lra. }
    rewrite (Rabs_pos_eq (real t * (T / 2))) in B1, B2 by lra.
    assert (Q1 : 5 * eps * (Rabs m + real t * (T / 2)) <= 5 * eps * (K + T / 2)) by (apply Rmult_le_compat_l; lra).
    assert (Q2 : 3 * (2 + real t) * eta <= 9 * eta) by (apply Rmult_le_compat_r; lra).
    apply Rabs_le_inv in B1. apply Rabs_le_inv in B2. apply Rabs_le. unfold del. lra. }
  assert (NE : fxup q <> []). { intros E. rewrite E in Lq. cbn in Lq. destruct L as (L1 & L2). assert (I : (j < length (pthick s))%nat) by (apply nth_error_Some; congruence). unfold b64 in *. lia. }
  assert (del0 : 0 <= del) by (unfold del; lra).
  assert (Dsmall : del <= K + huge / 50). 
  { unfold del. assert (eps * K <= / 1024 * K) by (apply Rmult_le_compat_r; lra). assert (eps * T <= / 1024 * T) by (apply Rmult_le_compat_r; lra). nra. }
  assert (Gap : forall g, In g (gap (yup (meaning q)) (ydown (meaning q))) -> exists i t, nth_error (pthick s) i = Some t /\ Rabs (g - real t * T) <= del).
  { intros g I. apply In_nth_error in I as (i & I). unfold gap, meaning in I. cbn [yup ydown] in I.
    assert (Li : (i < length (pthick s))%nat).
    { assert (i < length (map2 (fun x y : R => Rabs (x - y)) (map real (fyup q)) (map real (fydown q))))%nat by (apply nth_error_Some; congruence).
      destruct Sq as (S1 & S2 & S3). destruct L as (L1 & L2). rewrite map2_size, map_length in H by (rewrite !map_length; unfold b64 in *; congruence). unfold b64 in *. lia. }
    destruct (nth_exists _ _ _ Li) as (t & Ht). exists i, t. split; auto. destruct (Local i t Ht) as (u & d & U & D & B & P).
    rewrite (map2_nth _ _ _ _ _ _ _ (real u) (real d)) in I by (apply map_nth_error; auto). injection I as <-. rewrite (Rabs_pos_eq (real u - real d)) by exact P. exact B. }
  destruct (M) as (_ & M2 & _).
  assert (Ghuge : Forall (fun g => g <= huge) (gap (yup (meaning q)) (ydown (meaning q)))).
  { apply Forall_forall. intros g I.
    (* the bound with K = huge / 4 *)
    apply In_nth_error in I as (i & I). unfold gap, meaning in I. cbn [yup ydown] in I.
    assert (Li : (i < length (pthick s))%nat).
    { assert (i < length (map2 (fun x y : R => Rabs (x - y)) (map real (fyup q)) (map real (fydown q))))%nat by (apply nth_error_Some; congruence).
      destruct Sq as (S1 & S2 & S3). destruct L as (L1 & L2). rewrite map2_size, map_length in H by (rewrite !map_length; unfold b64 in *; congruence). unfold b64 in *. lia. }
    destruct (nth_exists _ _ _ Li) as (t & Ht). destruct (Len i t Ht) as (f & c & Hf & Hc). destruct (G i f c t Hf Hc Ht) as (x & u & d & _ & U & D & _ & (B1 & B2) & O & _).
    rewrite (map2_nth _ _ _ _ _ _ _ (real u) (real d)) in I by (apply map_nth_error; auto). injection I as <-.
    pose proof (nth_of _ _ _ _ P01 Ht) as Pt. cbn beta in Pt. specialize (O ltac:(lra)). rewrite Rabs_pos_eq by lra.
    pose proof (nth_of _ _ _ _ M2 Hc) as Bc. cbn beta in Bc. fold T in B1, B2. set (m := real c * real (pcmax s)) in *. rewrite (Rabs_pos_eq (real t)) in B1, B2 by lra.
    assert (Hh : 0 <= real t * (T / 2) <= T / 2). { split; [apply Rmult_le_pos; lra|]. rewrite <- (Rmult_1_l (T / 2)) at 2. apply Rmult_le_compat_r; lra. }
    rewrite (Rabs_pos_eq (real t * (T / 2))) in B1, B2 by lra.
    assert (Q1 : 5 * eps * (Rabs m + real t * (T / 2)) <= 5 * eps * (huge / 2)) by (apply Rmult_le_compat_l; lra).
    assert (Q2 : 3 * (2 + real t) * eta <= 9 * eta) by (apply Rmult_le_compat_r; lra). assert (eps * huge <= / 1024 * huge) by (apply Rmult_le_compat_r; lra).
    apply Rabs_le_inv in B1. apply Rabs_le_inv in B2. lra. }
  destruct (thickness_error q Nq C Sq NE Ghuge) as (t & e & Et & Ee & Ft & Er). exists t. split; auto. split; auto. split; auto.
  rewrite thickness_exact in Ee by auto. apply vmax_spec in Ee as (Ie & Me).
  assert (Up : e <= T + del).
  { destruct (Gap e Ie) as (i & ti & Ht & B). pose proof (nth_of _ _ _ _ P01 Ht) as Pt. cbn beta in Pt. apply Rabs_le_inv in B. assert (real ti * T <= 1 * T) by (apply Rmult_le_compat_r; lra). lra. }
  assert (Lo : T - del <= e).
  { destruct (Local j t1 J) as (u & d & U & D & B & P). rewrite V1, Rmult_1_l in B. apply Rabs_le_inv in B. apply Rle_trans with (real u - real d); [lra|]. apply Me.
    apply (nth_error_In _ j). unfold gap, meaning. cbn [yup ydown]. rewrite (map2_nth _ _ _ _ _ _ _ (real u) (real d)) by (apply map_nth_error; auto). rewrite Rabs_pos_eq by exact P. reflexivity. }
  assert (e0 : eps * e <= eps * (T + del)) by (apply Rmult_le_compat_l; lra).
  assert (eps * del <= / 1024 * del) by (apply Rmult_le_compat_r; lra).
  assert (R1 : / 1024 * del = 10 / 1024 * (eps * K) + 10 / 1024 * (eps * T) + 18 / 1024 * eta) by (unfold del; lra).
  assert (R2 : del = 10 * (eps * K) + 10 * (eps * T) + 18 * eta) by (unfold del; ring).
  apply Rabs_le_inv in Er. apply Rabs_le. lra.
Qed.
