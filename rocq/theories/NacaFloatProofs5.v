(** NACA foils in binary64: sizes, edges, order, thickness, construction. *)
From Coq Require Import Reals ZArith List Lra Lia Bool Sorted.
From Flocq Require Import Core BinarySingleNaN.
From Verif Require Import Base PpgFloatModel PpgFloatProofs ProfileModel FloatModel FloatSpec FloatProofs FloatProofs2 ShapeFloatModel ShapeFloatSpec ShapeFloatProofs ShapeFloatProofs6 SectionFloatModel SectionFloatSpec SectionFloatProofs SectionFloatProofs4 SectionFloatProofs6 NacaModel NacaBounds NacaProofs NacaFloatModel NacaFloatSpec NacaFloatProofs NacaFloatProofs2 NacaFloatProofs3 NacaFloatProofs4.
Import ListNotations.
Open Scope R_scope.


Lemma nth_station : forall n i (f : b64 -> b64), (2 <= n)%nat -> (i < n)%nat -> nth i (map f (linspace64 n)) zero64 = f (station n i).
Proof.
  intros n i f N I. rewrite linspace_stations, map_map by auto. rewrite (nth_indep _ zero64 (f (station n 0))) by (rewrite map_length, seq_length; auto).
  change (f (station n 0)) with ((fun i => f (station n i)) 0%nat). rewrite map_nth, seq_nth by auto. reflexivity.
Qed.
Lemma thickness_val : forall c d, digit c -> digit d -> let T := INR (10 * c + d) / 100 in Rabs (val (thickness_of c d) - T) <= eps * T /\ 0 <= T <= 99 / 100 /\ ((1 <= 10 * c + d)%nat -> / 200 <= val (thickness_of c d)).
Proof.
  intros c d C D T. unfold digit in *. destruct hundred_val as (V & F). destruct (quotient_val (10 * c + d) hundred64 100 F V ltac:(lra) ltac:(lia)) as (_ & E & _). fold (thickness_of c d) in E. fold T in E. split; auto.
  assert (T9 : INR (10 * c + d) <= 99) by (replace 99 with (INR 99) by (cbn; lra); apply le_INR; lia). pose proof (pos_INR (10 * c + d)). assert (B : 0 <= T <= 99 / 100) by (unfold T; lra). split; auto.
  intros O. apply (le_INR 1) in O. change (INR 1) with 1 in O. assert (1 / 100 <= T) by (unfold T; lra). apply Rabs_le_inv in E. rewrite eps_val in E. lra.
Qed.

Section Foil.
Variables (c d n : nat) (flat : Prop) (p : fprofile).
Hypothesis Dc : digit c. Hypothesis Dd : digit d. Hypothesis Nn : (2 <= n)%nat. Hypothesis Mn : (Z.of_nat n <= 2 ^ 30)%Z.
Hypothesis described : exists XU XD YU YD, p = mkF (map XU (linspace64 n)) (map XD (linspace64 n)) (map YU (linspace64 n)) (map YD (linspace64 n)) /\
  point_facts (thickness_of c d) flat XU XD YU YD.
Lemma g_sizes : length (fxup p) = n /\ same_sizes p.
Proof. destruct described as (XU & XD & YU & YD & -> & _). unfold same_sizes. cbn [fxup fxdown fyup fydown]. rewrite !map_length, linspace_length. auto. Qed.
Lemma g_all_numbers : numbers p.
Proof.
  destruct described as (XU & XD & YU & YD & -> & P). destruct P as (_ & P & _). pose proof Nn as N; pose proof Mn as M; pose proof Dc as C; pose proof Dd as D. unfold numbers. cbn [fxup fxdown fyup fydown].
  assert (Q : forall f, (forall x, finite x = true -> 0 <= val x <= 1 -> finite (f x) = true) -> Forall is_number (map f (linspace64 n))).
  { intros f H. apply Forall_forall. intros y I. rewrite linspace_stations, map_map in I by auto. apply in_map_iff in I as (i & <- & J). apply in_seq in J. apply H; apply station_range; auto; lia. }
  repeat split; apply Q; intros x F B; destruct (P x F B) as (? & ? & ? & ?); auto.
Qed.
Lemma g_leading : real (fst (up64 p 0)) = 0 /\ real (snd (up64 p 0)) = 0 /\ real (fst (down64 p 0)) = 0 /\ real (snd (down64 p 0)) = 0.
Proof.
  destruct described as (XU & XD & YU & YD & -> & P). destruct P as (_ & _ & P & _). pose proof Nn as N; pose proof Mn as M; pose proof Dc as C; pose proof Dd as D. unfold up64, down64. cbn [fst snd fxup fxdown fyup fydown]. rewrite !nth_station by (auto; lia).
  destruct (station_facts n 0 N M ltac:(lia)) as (F & _ & Z & _). destruct (P _ F (Z eq_refl)) as (Z1 & Z2 & Z3 & Z4). auto.
Qed.
Lemma g_ordered : (1 <= 10 * c + d)%nat -> forall i, (0 < i < n - 1)%nat -> real (snd (down64 p i)) < real (snd (up64 p i)).
Proof.
  intros T i I. destruct described as (XU & XD & YU & YD & -> & P). destruct P as (_ & _ & _ & _ & P). pose proof Nn as N; pose proof Mn as M; pose proof Dc as C; pose proof Dd as D. unfold up64, down64. cbn [fst snd fxup fxdown fyup fydown]. rewrite !nth_station by (auto; lia).
  destruct (station_facts n i N M ltac:(lia)) as (F & _ & _ & _ & Z). destruct (thickness_val c d C D) as (_ & _ & H). apply (P (H T)); auto.
Qed.
Lemma g_trailing : (1 <= 10 * c + d)%nat -> let u := up64 p (n - 1) in let w := down64 p (n - 1) in
  - (2 * eps) <= real (snd u) < 0 /\ real (snd w) = - real (snd u) /\ Rabs (real (fst u) - 1) <= 4 * eps /\ Rabs (real (fst w) - 1) <= 4 * eps.
Proof.
  intros T. destruct described as (XU & XD & YU & YD & -> & P). destruct P as (_ & _ & _ & _ & P). pose proof Nn as N; pose proof Mn as M; pose proof Dc as C; pose proof Dd as D. unfold up64, down64. cbn [fst snd fxup fxdown fyup fydown]. rewrite !nth_station by (auto; lia).
  destruct (station_facts n (n - 1) N M ltac:(lia)) as (_ & _ & _ & Z & _). rewrite Z by auto. destruct (thickness_val c d C D) as (_ & _ & H). destruct (P (H T)) as (_ & Q1 & Q2 & Q3 & Q4 & _). auto.
Qed.
Lemma g_trailing_linear : (1 <= 10 * c + d)%nat -> flat -> let u := up64 p (n - 1) in let T := INR (10 * c + d) / 100 in
  real (fst u) = 1 /\ Rabs (real (snd u) + 5 * T * bpow radix2 (-55)) <= 3 * eps * (5 * T * bpow radix2 (-55)).
Proof.
  intros T W. destruct described as (XU & XD & YU & YD & -> & P). destruct P as (I & _ & _ & _ & P). pose proof Nn as N; pose proof Mn as M; pose proof Dc as C; pose proof Dd as D. unfold up64. cbn [fst snd fxup fxdown fyup fydown]. rewrite !nth_station by (auto; lia).
  destruct (station_facts n (n - 1) N M ltac:(lia)) as (_ & _ & _ & Z & _). rewrite Z by auto. destruct (thickness_val c d C D) as (B & R & H). destruct (P (H T)) as (_ & _ & _ & _ & _ & Q). destruct (I W one64) as (-> & _).
  split; [apply one_val|]. unfold real. fold (val (YU one64)). rewrite (Q W). set (t := thickness_of c d) in *. set (T' := INR (10 * c + d) / 100) in *.
  replace (- rnd (5 * val t) * bpow radix2 (-55) + 5 * T' * bpow radix2 (-55)) with (- ((rnd (5 * val t) - 5 * T') * bpow radix2 (-55))) by ring.
  rewrite Rabs_Ropp, Rabs_mult, (Rabs_pos_eq (bpow radix2 (-55))) by apply bpow_ge_0. replace (3 * eps * (5 * T' * bpow radix2 (-55))) with (3 * eps * (5 * T') * bpow radix2 (-55)) by ring.
  apply Rmult_le_compat_r; [apply bpow_ge_0|]. specialize (H T).
  assert (RE : Rabs (rnd (5 * val t) - 5 * val t) <= eps * (5 * val t)).
  { pose proof (rnd_error (5 * val t)) as X. rewrite (Rabs_pos_eq (5 * val t)) in X by lra. apply X. apply Rle_trans with (bpow radix2 (-6)); [apply bpow_le; lia|]. cbn. lra. }
  replace (rnd (5 * val t) - 5 * T') with ((rnd (5 * val t) - 5 * val t) + 5 * (val t - T')) by ring. eapply Rle_trans; [apply Rabs_triang|]. rewrite (Rabs_mult 5), (Rabs_pos_eq 5) by lra.
  pose proof eps_bounds as (e0 & e1). apply Rabs_le_inv in B as B'. assert (eps * T' <= / 1024 * T') by (apply Rmult_le_compat_r; lra).
  assert (eps * (5 * val t) <= eps * (6 * T')) by (apply Rmult_le_compat_l; lra). assert (0 <= eps * T') by (apply Rmult_le_pos; lra). lra.
Qed.
Lemma g_stations : flat -> fxdown p = fxup p /\ (forall i, (i < n)%nat -> Rabs (real (nth i (fxup p) zero64) - INR i / INR (n - 1)) <= 3 * eps) /\
  (forall i j, (i < j < n)%nat -> real (nth i (fxup p) zero64) < real (nth j (fxup p) zero64)).
Proof.
  intros W. destruct described as (XU & XD & YU & YD & -> & P). destruct P as (I & _). pose proof Nn as N; pose proof Mn as M; pose proof Dc as C; pose proof Dd as D. cbn [fxup fxdown fyup fydown]. split; [|split].
  - apply map_ext. intros x. destruct (I W x). congruence.
  - intros i Hi. rewrite nth_station by auto. destruct (I W (station n i)) as (-> & _). apply station_facts; auto.
  - intros i j H. rewrite !nth_station by (auto; lia). destruct (I W (station n i)) as (-> & _). destruct (I W (station n j)) as (-> & _). apply station_increases; auto.
Qed.
Lemma g_thickness_error : flat -> forall i, (i < n)%nat -> let u := up64 p i in
  Rabs ((real (snd u) - real (snd (down64 p i))) / 2 - half_thickness (INR (10 * c + d) / 100) (real (fst u))) <= 91 * eps.
Proof.
  intros W i Hi. destruct described as (XU & XD & YU & YD & -> & P). destruct P as (I & _ & _ & P & _). pose proof Nn as N; pose proof Mn as M; pose proof Dc as C; pose proof Dd as D. unfold up64, down64. cbn [fst snd fxup fxdown fyup fydown]. rewrite !nth_station by auto.
  destruct (I W (station n i)) as (-> & _). destruct (station_range n i N M Hi) as (F & B). specialize (P W _ F B). destruct (thickness_val c d C D) as (T & R & _).
  set (x := station n i) in *. set (t := thickness_of c d) in *. set (T' := INR (10 * c + d) / 100) in *. unfold real. fold (val (YU x)) (val (YD x)) (val x).
  replace ((val (YU x) - val (YD x)) / 2 - half_thickness T' (val x)) with (((val (YU x) - val (YD x)) / 2 - half_thickness (val t) (val x)) + (half_thickness (val t) (val x) - half_thickness T' (val x))) by ring.
  eapply Rle_trans; [apply Rabs_triang|]. rewrite !half_poly in *. replace (5 * val t * poly (val x) - 5 * T' * poly (val x)) with ((val t - T') * (5 * poly (val x))) by ring. rewrite Rabs_mult. pose proof (poly_bounds _ B).
  rewrite (Rabs_pos_eq (5 * _)) by lra. pose proof eps_bounds as (e0 & _). assert (Rabs (val t - T') * (5 * poly (val x)) <= eps * T' * 1) by (apply Rmult_le_compat; try lra; apply Rabs_pos).
  assert (eps * T' <= eps * 1) by (apply Rmult_le_compat_l; lra). lra.
Qed.
Lemma g_ends_shape : hd zero64 (fxup p) = fst (up64 p 0) /\ hd zero64 (fxdown p) = fst (down64 p 0) /\ hd zero64 (fyup p) = snd (up64 p 0) /\ hd zero64 (fydown p) = snd (down64 p 0) /\
  last (fxup p) zero64 = fst (up64 p (n - 1)) /\ last (fxdown p) zero64 = fst (down64 p (n - 1)) /\ last (fyup p) zero64 = snd (up64 p (n - 1)) /\ last (fydown p) zero64 = snd (down64 p (n - 1)).
Proof.
  destruct g_sizes as (S0 & S1 & S2 & S3). assert (H : forall l : list b64, hd zero64 l = nth 0 l zero64) by (intros []; reflexivity).
  assert (T : forall l : list b64, length l = n -> last l zero64 = nth (n - 1) l zero64).
  { clear. intros l <-. induction l as [|x [|y l] IH]; auto. change (last (x :: y :: l) zero64) with (last (y :: l) zero64). rewrite IH. cbn. rewrite Nat.sub_0_r. reflexivity. }
  unfold up64, down64. cbn [fst snd]. rewrite !H, !T by congruence. repeat split.
Qed.
Lemma g_accepted : (1 <= 10 * c + d)%nat -> check_coordinates64 p = Ok tt.
Proof.
  intros T. destruct g_sizes as (S0 & SS). pose proof g_all_numbers as NN. pose proof SS as (S1 & S2 & S3). pose proof Nn as N.
  apply check_numbers; auto. destruct (fxup p); [cbn in S0; lia|discriminate].
  - intros i u w I J U W. unfold meaning in *. cbn [yup ydown] in *. rewrite map_length in J. rewrite nth_error_map in U, W. destruct (nth_error (fyup p) i) as [u'|] eqn:EU; [|discriminate]. destruct (nth_error (fydown p) i) as [w'|] eqn:EW; [|discriminate].
    cbn in U, W. injection U as <-. injection W as <-. pose proof (g_ordered T i ltac:(lia)) as O. unfold up64, down64 in O. cbn [fst snd] in O.
    rewrite (nth_error_nth _ _ _ EU), (nth_error_nth _ _ _ EW) in O. lra.
  - destruct g_ends_shape as (A1 & A2 & A3 & A4 & A5 & A6 & A7 & A8). destruct g_leading as (Z1 & Z2 & Z3 & Z4). destruct (g_trailing T) as (Q1 & Q2 & Q3 & Q4).
    unfold ends_agree, meaning. cbn [xup xdown yup ydown]. rewrite !hd_real, !last_real, A1, A2, A3, A4, A5, A6, A7, A8, Z1, Z2, Z3, Z4.
    assert (Q : forall u v, Rabs (u - v) <= 8 * eps -> agrees (1 - 8 * eps) u v).
    { intros u v H. unfold agrees. pose proof (Rabs_pos v). pose proof eps_val as ev. assert (0 <= (1 - 8 * eps) * (1 / 100000 * Rabs v)) by (apply Rmult_le_pos; [rewrite ev; lra|lra]). rewrite Rmult_plus_distr_l. rewrite ev in *. lra. }
    assert (Q0 : agrees (1 - 8 * eps) 0 0) by (apply Q; rewrite Rminus_0_r, Rabs_R0; pose proof eps_bounds; lra).
    repeat split; auto; apply Q; apply Rabs_le_inv in Q3; apply Rabs_le_inv in Q4; apply Rabs_le; pose proof eps_bounds; lra.
Qed.
Lemma g_parametrised : forall o, (1 <= 10 * c + d)%nat \/ flat -> exists s, parameters_british64 o p = Ok s /\ same_lengths s /\ length (pchord s) = n.
Proof.
  intros o V. destruct g_sizes as (S0 & SS). pose proof g_all_numbers as (N1 & N2 & N3 & N4). pose proof SS as (S1 & S2 & S3). pose proof Nn as N.
  assert (NE : fxup p <> []) by (destruct (fxup p); [cbn in S0; lia|discriminate]). assert (X : fxdown p <> []) by (apply (not_nil _ _ (fxup p)); auto; congruence).
  assert (Y : fyup p <> []) by (apply (not_nil _ _ (fxup p)); auto; congruence). assert (Z : fydown p <> []) by (apply (not_nil _ _ (fxup p)); auto; congruence).
  assert (U : exists e, update_edges64 p = Ok e).
  { unfold update_edges64. rewrite !first_hd, !final_last by auto. cbn [bind].
    destruct g_ends_shape as (A1 & A2 & A3 & A4 & A5 & A6 & A7 & A8). destruct g_leading as (Z1 & _ & Z3 & _). pose proof huge_big as HB.
    assert (C : forall u v, finite u = true -> finite v = true -> Rabs (val u - val v) <= 8 * eps -> Bltb tol64 (fabs64 (fsub u v)) = false).
    { intros u v Fu Fv H. pose proof eps_val as ev. rewrite ev in H. apply close_enough; auto; lra. }
    rewrite C; [|exact (hd_number _ N1)|exact (hd_number _ N2)|].
    2:{ rewrite A1, A2. change (Rabs (real (fst (up64 p 0)) - real (fst (down64 p 0))) <= 8 * eps). rewrite Z1, Z3, Rminus_0_r, Rabs_R0. pose proof eps_bounds. lra. }
    rewrite C; [eexists; reflexivity|exact (last_number _ N1)|exact (last_number _ N2)|].
    destruct V as [V|V].
    - rewrite A5, A6. change (Rabs (real (fst (up64 p (n - 1))) - real (fst (down64 p (n - 1)))) <= 8 * eps). destruct (g_trailing V) as (_ & _ & Q3 & Q4). apply Rabs_le_inv in Q3. apply Rabs_le_inv in Q4. apply Rabs_le. lra.
    - destruct (g_stations V) as (-> & _). replace (val _ - val _) with 0 by ring. rewrite Rabs_R0. pose proof eps_bounds. lra. }
  destruct U as (e & U). unfold parameters_british64. rewrite U. cbn [bind]. destruct (fxup p) as [|x l] eqn:Ex; [congruence|]. cbn [vmin64 bind]. rewrite <- Ex in *.
  unfold vzip. rewrite (proj2 (Nat.eqb_eq _ _) (eq_trans S2 (eq_sym S3))). cbn [bind].
  assert (LL : forall f : b64 -> b64 -> b64, length (map2 f (fyup p) (fydown p)) = length (fxup p)) by (intros f; rewrite map2_size; congruence).
  assert (VV : forall l : list b64, length l = length (fxup p) -> exists t, vmax64 l = Ok t). { intros [|z l'] H; [rewrite Ex in H; discriminate|]. eexists. reflexivity. }
  destruct (VV _ (LL (fun u d => fdiv64 (fadd u d) two64))) as (cc & ->). cbn [bind]. destruct (VV _ (LL (fun u d => fabs64 (fsub u d)))) as (t & ->). cbn [bind].
  eexists. split; [reflexivity|]. unfold same_lengths. cbn [pchord pcamber pthick]. rewrite map_length.
  assert (F : forall l m, length l = length (fxup p) -> length (fractions64 (length (fxup p)) l m) = length (fxup p)). { intros l0 m H. unfold fractions64. destruct (Beqb m zero64); [apply repeat_length|rewrite map_length; exact H]. }
  rewrite !F by apply LL. auto.
Qed.
End Foil.

(** ** Four digits *)
Section Four.
Variables (L : mathlib) (a b c d n : nat) (cosine : bool) (p : fprofile).
Hypothesis K : naca_input L a b c d n.
Hypothesis E : naca_foil64 L a b c d cosine n = Ok p.
Lemma described : exists XU XD YU YD, p = mkF (map XU (linspace64 n)) (map XD (linspace64 n)) (map YU (linspace64 n)) (map YD (linspace64 n)) /\
  point_facts (thickness_of c d) (cosine = false \/ b = 0%nat) XU XD YU YD.
Proof.
  destruct K as (G & A & B & C & D & N & M). destruct (foil_points L a b c d cosine n G A B C D N M) as (XU & XD & YU & YD & H & P). rewrite H in E. injection E as <-. eauto 10.
Qed.
Lemma sizes : length (fxup p) = n /\ same_sizes p.
Proof. destruct K as (_ & _ & _ & C & D & N & M). eapply g_sizes; eauto using described. Qed.
Lemma all_numbers : numbers p.
Proof. destruct K as (_ & _ & _ & C & D & N & M). apply (g_all_numbers c d n _ p C D N M described). Qed.
Lemma leading : real (fst (up64 p 0)) = 0 /\ real (snd (up64 p 0)) = 0 /\ real (fst (down64 p 0)) = 0 /\ real (snd (down64 p 0)) = 0.
Proof. destruct K as (_ & _ & _ & C & D & N & M). apply (g_leading c d n _ p C D N M described). Qed.
Lemma ordered : (1 <= 10 * c + d)%nat -> forall i, (0 < i < n - 1)%nat -> real (snd (down64 p i)) < real (snd (up64 p i)).
Proof. destruct K as (_ & _ & _ & C & D & N & M). apply (g_ordered c d n _ p C D N M described). Qed.
Lemma trailing : (1 <= 10 * c + d)%nat -> let u := up64 p (n - 1) in let w := down64 p (n - 1) in
  - (2 * eps) <= real (snd u) < 0 /\ real (snd w) = - real (snd u) /\ Rabs (real (fst u) - 1) <= 4 * eps /\ Rabs (real (fst w) - 1) <= 4 * eps.
Proof. destruct K as (_ & _ & _ & C & D & N & M). apply (g_trailing c d n _ p C D N M described). Qed.
Lemma trailing_linear : (1 <= 10 * c + d)%nat -> cosine = false \/ b = 0%nat -> let u := up64 p (n - 1) in let T := INR (10 * c + d) / 100 in
  real (fst u) = 1 /\ Rabs (real (snd u) + 5 * T * bpow radix2 (-55)) <= 3 * eps * (5 * T * bpow radix2 (-55)).
Proof. destruct K as (_ & _ & _ & C & D & N & M). apply (g_trailing_linear c d n _ p C D N M described). Qed.
Lemma stations : cosine = false \/ b = 0%nat -> fxdown p = fxup p /\ (forall i, (i < n)%nat -> Rabs (real (nth i (fxup p) zero64) - INR i / INR (n - 1)) <= 3 * eps) /\
  (forall i j, (i < j < n)%nat -> real (nth i (fxup p) zero64) < real (nth j (fxup p) zero64)).
Proof. destruct K as (_ & _ & _ & C & D & N & M). apply (g_stations c d n _ p C D N M described). Qed.
Lemma thickness_error : cosine = false \/ b = 0%nat -> forall i, (i < n)%nat -> let u := up64 p i in
  Rabs ((real (snd u) - real (snd (down64 p i))) / 2 - half_thickness (INR (10 * c + d) / 100) (real (fst u))) <= 91 * eps.
Proof. destruct K as (_ & _ & _ & C & D & N & M). apply (g_thickness_error c d n _ p C D N M described). Qed.
Lemma accepted : (1 <= 10 * c + d)%nat -> check_coordinates64 p = Ok tt.
Proof. destruct K as (_ & _ & _ & C & D & N & M). apply (g_accepted c d n _ p C D N M described). Qed.
Lemma parametrised : forall o, (1 <= 10 * c + d)%nat \/ cosine = false \/ b = 0%nat -> exists s, parameters_british64 o p = Ok s /\ same_lengths s /\ length (pchord s) = n.
Proof. destruct K as (_ & _ & _ & C & D & N & M). apply (g_parametrised c d n _ p C D N M described). Qed.
End Four.
Lemma generated : forall L a b c d n cosine, naca_input L a b c d n -> exists p, naca_foil64 L a b c d cosine n = Ok p.
Proof. intros L a b c d n cosine (G & A & B & C & D & N & M). destruct (foil_points L a b c d cosine n G A B C D N M) as (XU & XD & YU & YD & -> & _). eauto. Qed.
Lemma no_points : forall L o a b c d cosine, naca_profile64 L o a b c d cosine 0 = Err IndexError.
Proof. intros. unfold naca_profile64, naca_foil64, naca4_64. destruct (Beqb _ zero64); [reflexivity|]. destruct cosine; reflexivity. Qed.
Lemma constructed : forall L o a b c d n cosine, naca_input L a b c d n -> (1 <= 10 * c + d)%nat \/ cosine = false \/ b = 0%nat ->
  exists p s, naca_profile64 L o a b c d cosine n = Ok (p, s) /\ naca_foil64 L a b c d cosine n = Ok p /\ same_lengths s /\ length (pchord s) = n.
Proof.
  intros L o a b c d n cosine K V. destruct (generated L a b c d n cosine K) as (p & E). destruct (parametrised L a b c d n cosine p K E o V) as (s & S & Q1 & Q2).
  exists p, s. unfold naca_profile64. rewrite E. cbn [bind]. rewrite S. auto.
Qed.
Lemma produced : forall L a b c d n cosine, naca_input L a b c d n -> exists p, naca_foil64 L a b c d cosine n = Ok p /\ length (fxup p) = n /\ same_sizes p /\ numbers p.
Proof.
  intros L a b c d n cosine K. destruct (generated L a b c d n cosine K) as (p & E). exists p. destruct (sizes L a b c d n cosine p K E). split; auto. split; auto. split; auto. apply (all_numbers L a b c d n cosine p K E).
Qed.
Lemma crossed : forall L a b c d n cosine p, naca_input L a b c d n -> naca_foil64 L a b c d cosine n = Ok p -> (1 <= 10 * c + d)%nat ->
  let u := up64 p (n - 1) in let w := down64 p (n - 1) in
  real (snd u) < 0 < real (snd w) /\ real (snd w) = - real (snd u) /\ real (snd w) <= 2 * eps /\ Rabs (real (fst u) - 1) <= 4 * eps /\ Rabs (real (fst w) - 1) <= 4 * eps.
Proof. intros L a b c d n cosine p K E T u w. destruct (trailing L a b c d n cosine p K E T) as (Q1 & Q2 & Q3 & Q4). fold u w in Q1, Q2, Q3, Q4. split; [lra|]. split; auto. split; [lra|]. auto. Qed.
