(** Rotation of a blade in binary64. *)
From Coq Require Import Reals ZArith List Lra Lia Bool String.
From Flocq Require Import Core BinarySingleNaN.
From Verif Require Import Base PpgFloatModel PpgFloatProofs FloatModel FloatSpec FloatProofs NacaFloatProofs7 WrapFloatSpec WrapFloatProofs PitchFloatModel PitchFloatProofs RakeFloatModel RakeFloatProofs TurnFloatModel TurnFloatSpec.
Import ListNotations.
Open Scope R_scope.

Lemma one64_val : val one64 = 1.
Proof. unfold one64, B2R, F2R. cbn [Fnum Fexp cond_Zopp]. change (bpow radix2 (-52)) with (/ 4503599627370496). lra. Qed.
Lemma zero64_val : val zero64 = 0. Proof. reflexivity. Qed.
Lemma rnd_again : forall x, rnd (rnd x) = rnd x.
Proof. intros x. apply rnd_exact. apply generic_format_round; [apply valid64|apply valid_rnd_N]. Qed.
Lemma rnd_zero : rnd 0 = 0.
Proof. apply round_0. apply valid_rnd_N. Qed.

Lemma step_ok : forall f acc a x B, finite acc = true -> finite a = true -> finite x = true -> Rabs (val acc) <= B -> Rabs (val a * val x) <= B -> B <= bpow radix2 1010 ->
  exists Q, (Q = val a * val x \/ Q = rnd (val a * val x)) /\ val (step64 f acc a x) = rnd (val acc + Q) /\ finite (step64 f acc a x) = true.
Proof.
  intros f acc a x B Fc Fa Fx Bc Bx BB. pose proof (bpow_gt_0 radix2 1010) as P. assert (HB : 8 * bpow radix2 1010 <= huge). { change 8 with (bpow radix2 3). rewrite <- bpow_plus. unfold huge. apply bpow_le. lia. }
  destruct f; unfold step64.
  - exists (val a * val x). split; [left; reflexivity|]. rewrite Rplus_comm. apply ffma_ok; auto. eapply Rle_trans; [apply Rabs_triang|]. lra.
  - destruct (fmul_fine a x Fa Fx) as (V & F); [lra|]. exists (rnd (val a * val x)). split; [right; reflexivity|]. rewrite <- V. apply fadd_ok; auto. eapply Rle_trans; [apply Rabs_triang|]. rewrite V.
    pose proof (rnd_error_any (val a * val x)) as R. pose proof eps_bounds as [E1 E2]. pose proof eta_bounds as [H1 H2]. pose proof (Rabs_pos (val a * val x)) as P0. assert (eps * Rabs (val a * val x) <= / 1024 * Rabs (val a * val x)) by (apply Rmult_le_compat_r; lra).
    assert (Rabs (rnd (val a * val x)) <= 2 * B + eta). { replace (rnd (val a * val x)) with ((rnd (val a * val x) - val a * val x) + val a * val x) by ring. eapply Rle_trans; [apply Rabs_triang|]. lra. }
    assert (1 <= bpow radix2 1010) by (change 1 with (bpow radix2 0); apply bpow_le; lia). lra.
Qed.

(** A zero coefficient changes nothing; a first term is one rounding. *)
Lemma step_skip : forall f acc x, finite acc = true -> finite x = true -> Rabs (val acc) <= bpow radix2 1010 -> val (step64 f acc zero64 x) = val acc /\ finite (step64 f acc zero64 x) = true.
Proof.
  intros f acc x Fc Fx B. destruct (step_ok f acc zero64 x (bpow radix2 1010) Fc eq_refl Fx B) as (Q & HQ & V & F); [rewrite zero64_val, Rmult_0_l, Rabs_R0; apply bpow_ge_0|lra|].
  split; [|exact F]. rewrite V. assert (Q = 0) as -> by (rewrite zero64_val, Rmult_0_l in HQ; destruct HQ as [-> | ->]; [reflexivity|apply rnd_zero]). rewrite Rplus_0_r. apply rnd_exact, format_val.
Qed.
Lemma step_first : forall f acc a x, finite acc = true -> finite a = true -> finite x = true -> val acc = 0 -> Rabs (val a * val x) <= bpow radix2 1010 -> val (step64 f acc a x) = rnd (val a * val x) /\ finite (step64 f acc a x) = true.
Proof.
  intros f acc a x Fc Fa Fx Z B. destruct (step_ok f acc a x (bpow radix2 1010) Fc Fa Fx) as (Q & HQ & V & F); [rewrite Z, Rabs_R0; apply bpow_ge_0|exact B|lra|].
  split; [|exact F]. rewrite V, Z, Rplus_0_l. destruct HQ as [-> | ->]; [reflexivity|apply rnd_again].
Qed.
Lemma step_second : forall f acc a x b y al be d M, finite acc = true -> finite b = true -> finite y = true -> val acc = rnd (val a * val x) ->
  0 <= d <= / 1000 -> Rabs al <= 1 -> Rabs be <= 1 -> Rabs (val a - al) <= d -> Rabs (val b - be) <= d -> Rabs (val x) <= M -> Rabs (val y) <= M -> M <= bpow radix2 1000 ->
  finite (step64 f acc b y) = true /\ Rabs (val (step64 f acc b y) - (al * val x + be * val y)) <= (2 * d + 4.1 * eps) * M + 4 * eta.
Proof.
  intros f acc a x b y al be d M Fc Fb Fy V D Al Be Da Db X Y BM. pose proof eps_bounds as [E1 _]. assert (E2 : eps <= / 1000000) by (unfold eps; change (bpow radix2 (-53)) with (/ 9007199254740992); lra). pose proof eta_bounds as [H1 H2].
  assert (M0 : 0 <= M) by (pose proof (Rabs_pos (val x)); lra). assert (EM : 0 <= eps * M <= / 1000000 * M) by (split; [apply Rmult_le_pos; lra|apply Rmult_le_compat_r; lra]). assert (DM : 0 <= d * M <= / 1000 * M) by (split; [apply Rmult_le_pos; lra|apply Rmult_le_compat_r; lra]). assert (EH : 0 <= eps * eta <= / 1000000 * eta) by (split; [apply Rmult_le_pos; lra|apply Rmult_le_compat_r; lra]).
  assert (K : forall c ga u, Rabs ga <= 1 -> Rabs (c - ga) <= d -> Rabs u <= M -> Rabs (c * u) <= 1.001 * M /\ Rabs (c * u - ga * u) <= d * M).
  { intros c ga u G C U. assert (Rabs c <= 1.001). { replace c with ((c - ga) + ga) by ring. eapply Rle_trans; [apply Rabs_triang|]. lra. } split; [rewrite Rabs_mult; apply Rmult_le_compat; try apply Rabs_pos; lra|]. replace (c * u - ga * u) with ((c - ga) * u) by ring. rewrite Rabs_mult. apply Rmult_le_compat; try apply Rabs_pos; lra. }
  destruct (K _ _ _ Al Da X) as (A1 & A2). destruct (K _ _ _ Be Db Y) as (B1 & B2).
  assert (N : forall u, Rabs u <= 1.001 * M -> Rabs (rnd u - u) <= 1.001 * (eps * M) + eta). { intros u U. eapply Rle_trans; [apply rnd_error_any|]. assert (eps * Rabs u <= eps * (1.001 * M)) by (apply Rmult_le_compat_l; lra). lra. }
  pose proof (N _ A1) as RA. pose proof (N _ B1) as RB.
  assert (AC : Rabs (val acc) <= 1.002 * M + eta). { rewrite V. replace (rnd (val a * val x)) with ((rnd (val a * val x) - val a * val x) + val a * val x) by ring. eapply Rle_trans; [apply Rabs_triang|]. lra. }
  assert (BB : 1.002 * M + eta <= bpow radix2 1010). { assert (1 <= bpow radix2 1000) by (change 1 with (bpow radix2 0); apply bpow_le; lia). assert (4 * bpow radix2 1000 <= bpow radix2 1010) by (change 4 with (bpow radix2 2); rewrite <- bpow_plus; apply bpow_le; lia). lra. }
  destruct (step_ok f acc b y (1.002 * M + eta) Fc Fb Fy AC) as (Q & HQ & Vs & F); [lra|exact BB|]. split; [exact F|]. rewrite Vs.
  assert (QQ : Rabs (Q - val b * val y) <= 1.001 * (eps * M) + eta). { destruct HQ as [-> | ->]; [unfold Rminus; rewrite Rplus_opp_r, Rabs_R0; lra|exact RB]. }
  rewrite <- V in RA. assert (S : Rabs (val acc + Q) <= 2.004 * M + 2 * eta). { replace (val acc + Q) with (val acc + ((Q - val b * val y) + val b * val y)) by ring. eapply Rle_trans; [apply Rabs_triang|]. pose proof (Rabs_triang (Q - val b * val y) (val b * val y)). lra. }
  pose proof (rnd_error_any (val acc + Q)) as R. assert (eps * Rabs (val acc + Q) <= eps * (2.004 * M + 2 * eta)) by (apply Rmult_le_compat_l; lra).
  apply Rabs_le_inv in RA. apply Rabs_le_inv in QQ. apply Rabs_le_inv in R. apply Rabs_le_inv in A2. apply Rabs_le_inv in B2. apply Rabs_le. lra.
Qed.

Section Point.
Variables (c s : b64) (t d M : R) (x y z : b64).
Hypotheses (Fc : finite c = true) (Fs : finite s = true) (Fx : finite x = true) (Fy : finite y = true) (Fz : finite z = true).
Hypotheses (D : 0 <= d <= / 1000) (Ec : Rabs (val c - cos t) <= d) (Es : Rabs (val s - sin t) <= d).
Hypotheses (Bx : Rabs (val x) <= M) (By : Rabs (val y) <= M) (Bz : Rabs (val z) <= M) (BM : M <= bpow radix2 1000).
Let E := (2 * d + 4.1 * eps) * M + 4 * eta.

Lemma prod_bound : forall a u al, Rabs al <= 1 -> Rabs (val a - al) <= d -> Rabs (val u) <= M -> Rabs (val a * val u) <= bpow radix2 1009.
Proof.
  intros a u al A Da U. assert (Rabs (val a) <= 2). { replace (val a) with ((val a - al) + al) by ring. eapply Rle_trans; [apply Rabs_triang|]. lra. } rewrite Rabs_mult. apply Rle_trans with (bpow radix2 1 * bpow radix2 1000); [change (bpow radix2 1) with 2; apply Rmult_le_compat; try apply Rabs_pos; lra|]. rewrite <- bpow_plus. apply bpow_le. lia.
Qed.
Lemma rnd_bound : forall u, Rabs u <= bpow radix2 1009 -> Rabs (rnd u) <= bpow radix2 1010.
Proof.
  intros u U. pose proof (rnd_error_any u) as R. pose proof eps_bounds as [E1 E2]. pose proof eta_bounds as [H1 H2]. pose proof (Rabs_pos u). assert (eps * Rabs u <= / 1024 * Rabs u) by (apply Rmult_le_compat_r; lra). assert (2 * bpow radix2 1009 = bpow radix2 1010) by (change 2 with (bpow radix2 1); rewrite <- bpow_plus; reflexivity). assert (1 <= bpow radix2 1009) by (change 1 with (bpow radix2 0); apply bpow_le; lia).
  replace (rnd u) with ((rnd u - u) + u) by ring. eapply Rle_trans; [apply Rabs_triang|]. lra.
Qed.
Lemma one_bound : forall u, Rabs (val u) <= M -> Rabs (val one64 * val u) <= bpow radix2 1010 /\ Rabs (val u) <= bpow radix2 1010.
Proof. intros u U. rewrite one64_val, Rmult_1_l. assert (bpow radix2 1000 <= bpow radix2 1010) by (apply bpow_le; lia). lra. Qed.

Lemma zero_bound : Rabs (val zero64) <= bpow radix2 1010.
Proof. rewrite zero64_val, Rabs_R0. apply bpow_ge_0. Qed.

(** Two terms with a zero before, between or after them. *)
Lemma entry_0ab : forall f a b al be u v w, finite a = true -> finite b = true -> finite u = true -> finite v = true -> finite w = true -> Rabs al <= 1 -> Rabs be <= 1 -> Rabs (val a - al) <= d -> Rabs (val b - be) <= d -> Rabs (val v) <= M -> Rabs (val w) <= M ->
  finite (entry64 f (zero64, a, b) (u, v, w)) = true /\ Rabs (val (entry64 f (zero64, a, b) (u, v, w)) - (al * val v + be * val w)) <= E.
Proof.
  intros f a b al be u v w Fa Fb Fu Fv Fw Al Be Da Db V W. unfold entry64. destruct (step_skip (f 0%nat) zero64 u eq_refl Fu zero_bound) as (V1 & F1).
  pose proof (prod_bound a v al Al Da V) as PB. destruct (step_first (f 1%nat) _ a v F1 Fa Fv V1) as (V2 & F2). { eapply Rle_trans; [exact PB|apply bpow_le; lia]. }
  apply (step_second _ _ a v b w al be d M); assumption.
Qed.
Lemma entry_a0b : forall f a b al be u v w, finite a = true -> finite b = true -> finite u = true -> finite v = true -> finite w = true -> Rabs al <= 1 -> Rabs be <= 1 -> Rabs (val a - al) <= d -> Rabs (val b - be) <= d -> Rabs (val u) <= M -> Rabs (val w) <= M ->
  finite (entry64 f (a, zero64, b) (u, v, w)) = true /\ Rabs (val (entry64 f (a, zero64, b) (u, v, w)) - (al * val u + be * val w)) <= E.
Proof.
  intros f a b al be u v w Fa Fb Fu Fv Fw Al Be Da Db U W. unfold entry64. pose proof (prod_bound a u al Al Da U) as PB. destruct (step_first (f 0%nat) zero64 a u eq_refl Fa Fu zero64_val) as (V1 & F1). { eapply Rle_trans; [exact PB|apply bpow_le; lia]. }
  destruct (step_skip (f 1%nat) _ v F1 Fv) as (V2 & F2). { rewrite V1. apply rnd_bound, PB. } rewrite V1 in V2. apply (step_second _ _ a u b w al be d M); assumption.
Qed.
Lemma entry_ab0 : forall f a b al be u v w, finite a = true -> finite b = true -> finite u = true -> finite v = true -> finite w = true -> Rabs al <= 1 -> Rabs be <= 1 -> Rabs (val a - al) <= d -> Rabs (val b - be) <= d -> Rabs (val u) <= M -> Rabs (val v) <= M ->
  finite (entry64 f (a, b, zero64) (u, v, w)) = true /\ Rabs (val (entry64 f (a, b, zero64) (u, v, w)) - (al * val u + be * val v)) <= E.
Proof.
  intros f a b al be u v w Fa Fb Fu Fv Fw Al Be Da Db U V. unfold entry64. pose proof (prod_bound a u al Al Da U) as PB. destruct (step_first (f 0%nat) zero64 a u eq_refl Fa Fu zero64_val) as (V1 & F1). { eapply Rle_trans; [exact PB|apply bpow_le; lia]. }
  destruct (step_second (f 1%nat) _ a u b v al be d M F1 Fb Fv V1 D Al Be Da Db U V BM) as (F2 & E2). fold E in E2.
  destruct (step_skip (f 2%nat) _ w F2 Fw) as (V3 & F3); [|rewrite V3; auto].
  pose proof eps_bounds as [E1 E1']. pose proof eta_bounds as [H1 H2]. assert (M0 : 0 <= M) by (pose proof (Rabs_pos (val u)); lra).
  assert (G : forall ga q, Rabs ga <= 1 -> Rabs q <= M -> Rabs (ga * q) <= M). { intros ga q A B. rewrite Rabs_mult, <- (Rmult_1_l M). apply Rmult_le_compat; try apply Rabs_pos; lra. } pose proof (G _ _ Al U) as G1. pose proof (G _ _ Be V) as G2.
  assert (EB : E <= M + 4 * eta). { unfold E. assert ((2 * d + 4.1 * eps) * M <= 1 * M) by (apply Rmult_le_compat_r; lra). lra. }
  assert (1 <= bpow radix2 1000) by (change 1 with (bpow radix2 0); apply bpow_le; lia). assert (16 * bpow radix2 1000 <= bpow radix2 1010) by (change 16 with (bpow radix2 4); rewrite <- bpow_plus; apply bpow_le; lia).
  pose proof (Rabs_triang (al * val u) (be * val v)) as T1. set (q := val (step64 (f 1%nat) _ b v)) in *. replace q with ((q - (al * val u + be * val v)) + (al * val u + be * val v)) by ring. eapply Rle_trans; [apply Rabs_triang|]. lra.
Qed.
Lemma entry_1 : forall f u v w, finite u = true -> finite v = true -> finite w = true -> Rabs (val u) <= M -> Rabs (val v) <= M -> Rabs (val w) <= M ->
  (finite (entry64 f (one64, zero64, zero64) (u, v, w)) = true /\ val (entry64 f (one64, zero64, zero64) (u, v, w)) = val u) /\
  (finite (entry64 f (zero64, one64, zero64) (u, v, w)) = true /\ val (entry64 f (zero64, one64, zero64) (u, v, w)) = val v) /\
  (finite (entry64 f (zero64, zero64, one64) (u, v, w)) = true /\ val (entry64 f (zero64, zero64, one64) (u, v, w)) = val w).
Proof.
  intros f u v w Fu Fv Fw U V W. unfold entry64. destruct (one_bound u U) as (U1 & U2). destruct (one_bound v V) as (V1 & V2). destruct (one_bound w W) as (W1 & W2).
  assert (I : forall q : b64, rnd (val one64 * val q) = val q) by (intros q; rewrite one64_val, Rmult_1_l; apply rnd_exact, format_val).
  destruct (step_skip (f 0%nat) zero64 u eq_refl Fu zero_bound) as (S1 & T1). split; [|split].
  - destruct (step_first (f 0%nat) zero64 one64 u eq_refl eq_refl Fu zero64_val U1) as (A & FA). rewrite I in A. destruct (step_skip (f 1%nat) _ v FA Fv) as (B & FB); [rewrite A; exact U2|]. destruct (step_skip (f 2%nat) _ w FB Fw) as (C & FC); [rewrite B, A; exact U2|]. split; [exact FC|congruence].
  - destruct (step_first (f 1%nat) _ one64 v T1 eq_refl Fv S1 V1) as (A & FA). rewrite I in A. destruct (step_skip (f 2%nat) _ w FA Fw) as (C & FC); [rewrite A; exact V2|]. split; [exact FC|congruence].
  - destruct (step_skip (f 1%nat) _ v T1 Fv) as (A & FA); [rewrite S1; exact zero_bound|]. rewrite S1 in A. destruct (step_first (f 2%nat) _ one64 w FA eq_refl Fw A W1) as (C & FC). rewrite I in C. split; [exact FC|exact C].
Qed.

Lemma point_turned : forall f axis m, matrix64 axis c s = Ok m -> let q := turn_point64 f m (x, y, z) in
  numbers3 q /\ apart E (meant q) (turned axis t (meant (x, y, z))) /\ along axis (meant q) = along axis (meant (x, y, z)).
Proof.
  intros f axis m Hm. assert (Fn : finite (fneg s) = true) by (rewrite fneg_finite; exact Fs). assert (En : Rabs (val (fneg s) - - sin t) <= d). { rewrite fneg_val. replace (- val s - - sin t) with (- (val s - sin t)) by ring. rewrite Rabs_Ropp. exact Es. }
  assert (Cb : Rabs (cos t) <= 1) by apply cosine_bound. assert (Sb : Rabs (sin t) <= 1) by apply sine_bound. assert (Nb : Rabs (- sin t) <= 1) by (rewrite Rabs_Ropp; exact Sb).
  assert (M0 : 0 <= M) by (pose proof (Rabs_pos (val x)); lra). assert (E0 : 0 <= E). { unfold E. pose proof eps_bounds as [E1 _]. pose proof eta_bounds as [H1 _]. assert (0 <= (2 * d + 4.1 * eps) * M) by (apply Rmult_le_pos; lra). lra. }
  assert (Z : forall p q, p = q -> Rabs (p - q) <= E) by (intros p q ->; unfold Rminus; rewrite Rplus_opp_r, Rabs_R0; exact E0).
  unfold matrix64 in Hm. unfold turned, along, numbers3, meant, apart, turn_point64, is_number, real.
  destruct (String.eqb axis "x"); [injection Hm as <-|destruct (String.eqb axis "y"); [injection Hm as <-|destruct (String.eqb axis "z"); [injection Hm as <-|discriminate]]]; cbv zeta; cbn [fst snd].
  - destruct (entry_1 (f 0%nat) x y z Fx Fy Fz Bx By Bz) as ((F1 & V1) & _). destruct (entry_0ab (f 1%nat) c (fneg s) (cos t) (- sin t) x y z) as (F2 & V2); auto. destruct (entry_0ab (f 2%nat) s c (sin t) (cos t) x y z) as (F3 & V3); auto.
    replace (cos t * val y - sin t * val z) with (cos t * val y + - sin t * val z) by ring. repeat split; first [assumption | exact (Z _ _ V1)].
  - destruct (entry_1 (f 1%nat) x y z Fx Fy Fz Bx By Bz) as (_ & (F1 & V1) & _). destruct (entry_a0b (f 0%nat) c (fneg s) (cos t) (- sin t) x y z) as (F2 & V2); auto. destruct (entry_a0b (f 2%nat) s c (sin t) (cos t) x y z) as (F3 & V3); auto.
    replace (cos t * val x - sin t * val z) with (cos t * val x + - sin t * val z) by ring. repeat split; first [assumption | exact (Z _ _ V1)].
  - destruct (entry_1 (f 2%nat) x y z Fx Fy Fz Bx By Bz) as (_ & _ & (F1 & V1)). destruct (entry_ab0 (f 0%nat) c (fneg s) (cos t) (- sin t) x y z) as (F2 & V2); auto. destruct (entry_ab0 (f 1%nat) s c (sin t) (cos t) x y z) as (F3 & V3); auto.
    replace (cos t * val x - sin t * val y) with (cos t * val x + - sin t * val y) by ring. repeat split; first [assumption | exact (Z _ _ V1)].
Qed.
End Point.

Lemma indexed_nth : forall A (l : list A) i, nth_error (indexed l) i = option_map (fun a => (i, a)) (nth_error l i).
Proof.
  intros A l. unfold indexed. assert (G : forall l k i, nth_error (combine (seq k (List.length l)) l) i = option_map (fun a : A => (k + i, a)%nat) (nth_error l i)).
  { clear l. induction l as [|a l IH]; intros k [|i]; cbn; try reflexivity; [rewrite Nat.add_0_r; reflexivity|]. rewrite IH. destruct (nth_error l i); cbn; [do 2 f_equal; lia|reflexivity]. }
  intros i. apply (G l 0%nat).
Qed.
Lemma indexed_length : forall A (l : list A), List.length (indexed l) = List.length l.
Proof. intros A l. unfold indexed. rewrite combine_length, seq_length. lia. Qed.

Lemma surface_turned : forall f axis m c s t d S, matrix64 axis c s = Ok m -> is_number c -> is_number s -> 0 <= d <= / 1000 -> Rabs (real c - cos t) <= d -> Rabs (real s - sin t) <= d ->
  let S' := turn_surface64 f m S in List.length S' = List.length S /\ forall k l, nth_error S k = Some l -> exists l', nth_error S' k = Some l' /\ List.length l' = List.length l /\
  forall i p, nth_error l i = Some p -> exists q, nth_error l' i = Some q /\ forall M, numbers3 p -> within M (meant p) -> M <= bpow radix2 1000 ->
  numbers3 q /\ apart ((2 * d + 4.1 * eps) * M + 4 * eta) (meant q) (turned axis t (meant p)) /\ along axis (meant q) = along axis (meant p).
Proof.
  intros f axis m c s t d S Hm Fc Fs D Ec Es S'. unfold S', turn_surface64. split; [rewrite map_length; apply indexed_length|]. intros k l Hk. rewrite nth_error_map, indexed_nth, Hk. cbn [option_map fst snd]. eexists. split; [reflexivity|]. split; [rewrite map_length; apply indexed_length|].
  intros i p Hi. rewrite nth_error_map, indexed_nth, Hi. cbn [option_map fst snd]. eexists. split; [reflexivity|]. intros M. destruct p as ((x & y) & z). intros (Fx & Fy & Fz) (Bx & By & Bz) BM. apply (point_turned c s t d M x y z Fc Fs Fx Fy Fz D Ec Es Bx By Bz BM _ axis m Hm).
Qed.

Lemma is_axis : forall axis c s, axis = "x"%string \/ axis = "y"%string \/ axis = "z"%string -> exists m, matrix64 axis c s = Ok m.
Proof. intros axis c s [-> | [-> | ->]]; eexists; reflexivity. Qed.

Lemma turned_by_radians : forall f sn cs t axis up down, accurate sn sin -> accurate cs cos -> up <> [] -> axis = "x"%string \/ axis = "y"%string \/ axis = "z"%string -> is_number t ->
  exists up' down', turn64 f sn cs None (Some t) axis up down = Ok (up', down') /\ moved axis (real t) (8.1 * eps) up up' /\ moved axis (real t) (8.1 * eps) down down'.
Proof.
  intros f sn cs t axis up down Sn Cs U A Ft. destruct (Sn t Ft) as (Fs & Es). destruct (Cs t Ft) as (Fc & Ec). destruct (is_axis axis (cs t) (sn t) A) as (m & Hm). unfold turn64. destruct up as [|u up]; [congruence|]. rewrite Hm. cbn [bind]. do 2 eexists. split; [reflexivity|].
  pose proof eps_bounds as [E1 _]. assert (E2 : eps <= / 1000000) by (unfold eps; change (bpow radix2 (-53)) with (/ 9007199254740992); lra). replace (8.1 * eps) with (2 * (2 * eps) + 4.1 * eps) by lra.
  split; apply (surface_turned _ axis m (cs t) (sn t) (real t) (2 * eps)); auto; lra.
Qed.

Lemma radians_near : forall s, is_number s -> Rabs (real s) <= bpow radix2 300 -> let S := real s * PI / 180 in is_number (radians64 s) /\ Rabs (real (radians64 s) - S) <= 2.51 * (eps * Rabs S) + eta.
Proof.
  intros s Fs Bs S. pose proof eps_bounds as [E1 _]. assert (E2 : eps <= / 1000000) by (unfold eps; change (bpow radix2 (-53)) with (/ 9007199254740992); lra). pose proof pi_close as PC. unfold is_number, real in *.
  pose proof degree_near as DN. set (deg := fdiv64 pi64 c180) in *. assert (Fd : finite deg = true) by reflexivity.
  assert (SS : Rabs S = Rabs (val s) * (PI / 180)). { unfold S, Rdiv. rewrite !Rabs_mult, (Rabs_pos_eq PI), (Rabs_pos_eq (/ 180)) by lra. ring. }
  pose proof (Rabs_pos (val s)) as S0. assert (AS0 : 0 <= Rabs S) by apply Rabs_pos. assert (ES : 0 <= eps * Rabs S <= / 1000000 * Rabs S) by (split; [apply Rmult_le_pos; lra|apply Rmult_le_compat_r; lra]).
  assert (SD : Rabs (val s * val deg - S) <= 1.5 * (eps * Rabs S)). { unfold S. replace (val s * val deg - val s * PI / 180) with (val s * (val deg - PI / 180)) by field. rewrite Rabs_mult. fold S. rewrite SS. replace (1.5 * (eps * (Rabs (val s) * (PI / 180)))) with (Rabs (val s) * (1.5 * eps * (PI / 180))) by ring. apply Rmult_le_compat_l; lra. }
  assert (SA : Rabs (val s * val deg) <= 1.001 * Rabs S). { replace (val s * val deg) with ((val s * val deg - S) + S) by ring. eapply Rle_trans; [apply Rabs_triang|]. lra. }
  assert (S3 : Rabs S <= bpow radix2 300). { rewrite SS. rewrite <- (Rmult_1_r (bpow radix2 300)). apply Rmult_le_compat; lra. }
  destruct (fmul_fine s deg Fs Fd) as (Vr & Frd). { apply Rle_trans with (bpow radix2 302); [|unfold huge; apply bpow_le; lia]. replace (bpow radix2 302) with (bpow radix2 300 * 4) by (change 4 with (bpow radix2 2); rewrite <- bpow_plus; reflexivity). lra. }
  unfold radians64. fold deg. split; [exact Frd|]. rewrite Vr. pose proof (rnd_error_any (val s * val deg)) as R1. assert (eps * Rabs (val s * val deg) <= eps * (1.001 * Rabs S)) by (apply Rmult_le_compat_l; lra).
  replace (rnd (val s * val deg) - S) with ((rnd (val s * val deg) - val s * val deg) + (val s * val deg - S)) by ring. eapply Rle_trans; [apply Rabs_triang|]. lra.
Qed.

Lemma turned_by_degrees : forall f sn cs g axis up down, accurate sn sin -> accurate cs cos -> up <> [] -> axis = "x"%string \/ axis = "y"%string \/ axis = "z"%string -> is_number g -> Rabs (real g) <= 1000000 ->
  let t := real g * PI / 180 in exists up' down', turn64 f sn cs (Some g) None axis up down = Ok (up', down') /\ moved axis t (8.2 * eps + 5.1 * eps * Rabs t) up up' /\ moved axis t (8.2 * eps + 5.1 * eps * Rabs t) down down'.
Proof.
  intros f sn cs g axis up down Sn Cs U A Fg Bg t. pose proof eps_bounds as [E1 _]. assert (E2 : eps <= / 1000000000000) by (unfold eps; change (bpow radix2 (-53)) with (/ 9007199254740992); lra). pose proof eta_bounds as [H1 _]. assert (E3 : eta <= eps * eps) by (unfold eta, eps; rewrite <- bpow_plus; apply bpow_le; lia). assert (EE : eps * eps <= / 1000000 * eps) by (apply Rmult_le_compat_r; lra). pose proof pi_close as PC.
  destruct (radians_near g Fg) as (Fr & Er). { assert (bpow radix2 20 <= bpow radix2 300) by (apply bpow_le; lia). change (bpow radix2 20) with 1048576 in H. lra. } fold t in Er. set (r := radians64 g) in *. pose proof (Rabs_pos t) as T0.
  assert (TB : Rabs t <= 1000000). { unfold t, Rdiv. rewrite !Rabs_mult, (Rabs_pos_eq PI), (Rabs_pos_eq (/ 180)) by lra. replace (Rabs (real g) * PI * / 180) with (Rabs (real g) * (PI / 180)) by (unfold Rdiv; ring). rewrite <- (Rmult_1_r 1000000). apply Rmult_le_compat; try lra. apply Rabs_pos. }
  assert (ET : 0 <= eps * Rabs t <= eps * 1000000) by (split; [apply Rmult_le_pos; lra|apply Rmult_le_compat_l; lra]).
  destruct (Sn r Fr) as (Fs & Es). destruct (Cs r Fr) as (Fc & Ec). destruct (sin_lip (real r) t) as (LS & LC). destruct (is_axis axis (cs r) (sn r) A) as (m & Hm). unfold turn64. destruct up as [|u up]; [congruence|]. fold r. rewrite Hm. cbn [bind]. do 2 eexists. split; [reflexivity|].
  replace (8.2 * eps + 5.1 * eps * Rabs t) with (2 * (2.05 * eps + 2.55 * (eps * Rabs t)) + 4.1 * eps) by lra.
  assert (D1 : Rabs (real (cs r) - cos t) <= 2.05 * eps + 2.55 * (eps * Rabs t)). { replace (real (cs r) - cos t) with ((real (cs r) - cos (real r)) + (cos (real r) - cos t)) by ring. eapply Rle_trans; [apply Rabs_triang|]. lra. }
  assert (D2 : Rabs (real (sn r) - sin t) <= 2.05 * eps + 2.55 * (eps * Rabs t)). { replace (real (sn r) - sin t) with ((real (sn r) - sin (real r)) + (sin (real r) - sin t)) by ring. eapply Rle_trans; [apply Rabs_triang|]. lra. }
  split; apply (surface_turned _ axis m (cs r) (sn r) t (2.05 * eps + 2.55 * (eps * Rabs t))); auto; lra.
Qed.

Lemma turn_refused : forall f sn cs deg rad axis up down, up = [] \/ (deg = None <-> rad = None) \/ (axis <> "x"%string /\ axis <> "y"%string /\ axis <> "z"%string) -> turn64 f sn cs deg rad axis up down = Err ValueError.
Proof.
  intros f sn cs deg rad axis up down H. unfold turn64. destruct up as [|u up]; [reflexivity|]. destruct H as [H | [H | (Hx & Hy & Hz)]]; [discriminate| |].
  - destruct deg, rad; try reflexivity; exfalso; destruct H as [H1 H2]; [specialize (H2 eq_refl)|specialize (H1 eq_refl)]; discriminate.
  - assert (X : forall c s, matrix64 axis c s = Err ValueError). { intros c s. unfold matrix64. apply String.eqb_neq in Hx, Hy, Hz. rewrite Hx, Hy, Hz. reflexivity. } destruct deg, rad; rewrite ?X; reflexivity.
Qed.
