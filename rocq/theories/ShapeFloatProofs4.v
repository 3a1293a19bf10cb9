(** Flat, undefined and overflowing thickness in binary64. *)
From Coq Require Import Reals ZArith List Lra Lia Bool.
From Flocq Require Import Core BinarySingleNaN.
From Verif Require Import Base PpgFloatModel PpgFloatProofs ProfileModel ProfileSpec ProfileProofs2 FloatModel FloatSpec FloatProofs FloatProofs2 ShapeFloatModel ShapeFloatSpec ShapeFloatProofs ShapeFloatProofs2 ShapeFloatProofs3.
Import ListNotations.
Open Scope R_scope.

Lemma times_zero : forall y r, finite y = true -> finite r = true -> val r = 0 -> finite (fmul y r) = true /\ val (fmul y r) = 0.
Proof.
  intros y r Fy Fr Z. destruct (fmul_fine y r Fy Fr) as (V & F).
  - rewrite Z, Rmult_0_r, Rabs_R0. apply bpow_ge_0.
  - split; auto. rewrite V, Z, Rmult_0_r. apply round_0. apply valid_rnd_N.
Qed.
Lemma collapsed : forall l r, Forall is_number l -> finite r = true -> val r = 0 ->
  Forall (fun y => is_number y /\ real y = 0) (map (fun y => fmul y r) l).
Proof. intros l r F Fr Z. apply Forall_map. eapply Forall_impl; [|exact F]. cbn. intros y Fy. apply times_zero; auto. Qed.

Lemma set_flat : forall T p, numbers p -> common_abscissae p -> same_sizes p -> fxup p <> [] -> map real (fyup p) = map real (fydown p) ->
  exists q, set_thickness_max64 T p = Ok q /\ fxup q = fxup p /\ fxdown q = fxdown p /\ same_sizes q /\
    Forall (fun y => is_number y /\ real y = 0) (fyup q) /\ Forall (fun y => is_number y /\ real y = 0) (fydown q).
Proof.
  intros T p N C S NE E.
  assert (G : Forall (fun g => g = 0) (gap (yup (meaning p)) (ydown (meaning p)))).
  { unfold meaning. cbn [yup ydown]. rewrite E. unfold gap. clear. generalize (map real (fydown p)). induction l as [|x l IH]; cbn; constructor; auto.
    rewrite Rminus_diag_eq, Rabs_R0 by reflexivity. reflexivity. }
  assert (HP : 0 < huge) by apply bpow_gt_0.
  destruct (thickness_error p N C S NE) as (t & e & Et & Ee & Ft & Eb).
  { eapply Forall_impl; [|exact G]. cbn. intros g ->. lra. }
  assert (Z : e = 0).
  { rewrite thickness_exact in Ee by auto. apply vmax_spec in Ee as (I & _). rewrite Forall_forall in G. auto. }
  assert (Zt : real t = 0) by (rewrite Z, Rmult_0_r in Eb; apply Rabs_le_inv in Eb; lra).
  unfold set_thickness_max64. rewrite Et. cbn [bind].
  replace (Beqb t zero64) with true.
  2:{ symmetry. rewrite Beqb_correct; [|exact Ft|reflexivity]. apply Req_bool_true. exact Zt. }
  eexists. split; [reflexivity|]. unfold same_sizes. cbn [fxup fxdown fyup fydown]. rewrite !map_length. destruct S as (S1 & S2 & S3), N as (N1 & N2 & N3 & N4).
  repeat (split; auto); apply collapsed; auto.
Qed.

(** A NaN among the ordinates. *)
Lemma nan_sub : forall x y, is_nan64 x \/ is_nan64 y -> is_nan64 (fabs64 (fsub x y)).
Proof.
  intros x y [H|H]; [destruct x; try discriminate H|destruct y; try discriminate H].
  - reflexivity.
  - destruct x; reflexivity.
Qed.
Lemma nan_div : forall x y, is_nan64 y -> is_nan64 (fdiv64 x y).
Proof. intros x y H. destruct y; try discriminate H. destruct x; reflexivity. Qed.
Lemma nan_mul : forall x y, is_nan64 y -> is_nan64 (fmul x y).
Proof. intros x y H. destruct y; try discriminate H. destruct x; reflexivity. Qed.

Lemma thickness_nan : forall p, common_abscissae p -> same_sizes p -> Exists is_nan64 (fyup p) \/ Exists is_nan64 (fydown p) ->
  exists t, max_thickness64 p = Ok t /\ is_nan64 t.
Proof.
  intros p C S X. rewrite thickness_computed by auto.
  assert (L : length (fyup p) = length (fydown p)) by (destruct S as (_ & -> & ->); reflexivity).
  assert (K : exists x, In x (map2 (fun a b => fabs64 (fsub a b)) (fyup p) (fydown p)) /\ is_nan64 x).
  { clear C S. revert L X. generalize (fyup p) (fydown p). induction l as [|u l IH]; intros [|d l'] L X; try discriminate L.
    - destruct X as [X|X]; inversion X.
    - cbn [map2]. assert (Y : (is_nan64 u \/ is_nan64 d) \/ (Exists is_nan64 l \/ Exists is_nan64 l')) by (destruct X as [X|X]; inversion X; subst; auto).
      destruct Y as [Y|Y].
      + eexists. split; [left; reflexivity|]. apply nan_sub. exact Y.
      + destruct (IH l') as (x & I & Q); auto. exists x. split; [right; exact I|exact Q]. }
  destruct K as (x & I & Q). eapply vmax64_nan; eauto.
Qed.
Lemma set_nan : forall T p, common_abscissae p -> same_sizes p -> Exists is_nan64 (fyup p) \/ Exists is_nan64 (fydown p) ->
  exists q, set_thickness_max64 T p = Ok q /\ fxup q = fxup p /\ fxdown q = fxdown p /\ same_sizes q /\ Forall is_nan64 (fyup q) /\ Forall is_nan64 (fydown q).
Proof.
  intros T p C S X. destruct (thickness_nan p C S X) as (t & E & Nt). unfold set_thickness_max64. rewrite E. cbn [bind].
  replace (Beqb t zero64) with false by (destruct t; try discriminate Nt; reflexivity).
  eexists. split; [reflexivity|]. unfold same_sizes. cbn [fxup fxdown fyup fydown]. rewrite !map_length. destruct S as (S1 & S2 & S3).
  repeat (split; auto); apply Forall_map, Forall_forall; intros y _; apply nan_mul, nan_div, Nt.
Qed.

(** A thickness beyond the largest number. *)
Lemma sub_overflow : forall x y, finite x = true -> finite y = true -> 2 * huge <= Rabs (val x - val y) -> fabs64 (fsub x y) = pinf.
Proof.
  intros x y Fx Fy H. destruct (fsub_cases x y Fx Fy) as [(F & V)|(_ & s & ->)]; [|reflexivity].
  exfalso. assert (B : Rabs (val (fsub x y)) < 2 * huge) by apply val_bound. rewrite V in B.
  assert (2 * huge <= Rabs (rnd (val x - val y))); [|lra].
  replace (2 * huge) with (bpow radix2 1024) in *.
  - apply abs_round_ge_generic; [apply valid64|apply valid_rnd_N|apply generic_format_bpow; cbn; lia|lra].
  - unfold huge. change 1024%Z with (1 + 1023)%Z. rewrite bpow_plus. reflexivity.
Qed.
Lemma sub_not_nan : forall x y, finite x = true -> finite y = true -> ~ is_nan64 (fabs64 (fsub x y)).
Proof.
  intros x y Fx Fy. destruct (fsub_cases x y Fx Fy) as [(F & V)|(_ & s & ->)]; [|discriminate].
  rewrite <- fabs_finite in F. intros H. unfold is_nan64 in H. destruct (fabs64 _); discriminate.
Qed.
Lemma div_inf : forall T, finite T = true -> finite (fdiv64 T pinf) = true /\ val (fdiv64 T pinf) = 0.
Proof. intros T F. destruct T; try discriminate F; split; reflexivity. Qed.

Lemma thickness_overflow : forall p, numbers p -> common_abscissae p -> same_sizes p ->
  Exists (fun g => 2 * huge <= g) (gap (yup (meaning p)) (ydown (meaning p))) -> max_thickness64 p = Ok pinf.
Proof.
  intros p (_ & _ & N3 & N4) C S X. rewrite thickness_computed by auto. unfold meaning in X. cbn [yup ydown] in X. apply vmax64_inf.
  - clear X C S. revert N3 N4. generalize (fyup p) (fydown p). induction l as [|u l IH]; intros [|d l'] A B; cbn; constructor; inversion A; inversion B; subst.
    + apply sub_not_nan; auto.
    + apply IH; auto.
  - clear C S. revert N3 N4 X. generalize (fyup p) (fydown p). induction l as [|u l IH]; intros [|d l'] A B X; cbn in *; try (inversion X; fail).
    inversion A; inversion B; inversion X; subst; [left; apply sub_overflow; auto|right; apply IH; auto].
Qed.
Lemma set_overflow : forall T p, numbers p -> common_abscissae p -> same_sizes p -> is_number T ->
  Exists (fun g => 2 * huge <= g) (gap (yup (meaning p)) (ydown (meaning p))) ->
  exists q, set_thickness_max64 T p = Ok q /\ Forall (fun y => is_number y /\ real y = 0) (fyup q) /\ Forall (fun y => is_number y /\ real y = 0) (fydown q).
Proof.
  intros T p N C S FT X. unfold set_thickness_max64. rewrite thickness_overflow by auto. cbn [bind]. change (Beqb pinf zero64) with false. cbv iota.
  destruct (div_inf T FT) as (F & V). destruct N as (N1 & N2 & N3 & N4). eexists. split; [reflexivity|]. cbn [fyup fydown]. split; apply collapsed; auto.
Qed.

(** 1 and its successor, to be made 0.7 apart. *)
Definition offset_foil : fprofile := mkF [zero64; f1] [zero64; f1] [f1next; f1next] [f1; f1].
Definition offset_after : option (SpecFloat.spec_float * SpecFloat.spec_float * bool) :=
  match max_thickness64 offset_foil with
  | Ok old =>
      match set_thickness_max64 f07 offset_foil with
      | Ok q => match max_thickness64 q with Ok t => Some (B2SF old, B2SF t, forallb (@is_finite 53 1024) (fxup q ++ fxdown q ++ fyup q ++ fydown q)) | Err _ => None end
      | Err _ => None
      end
  | Err _ => None
  end.
Lemma offset_result : offset_after = Some (SpecFloat.S754_finite false 4503599627370496 (-104), SpecFloat.S754_finite false 4503599627370496 (-53), true).
Proof. vm_compute. reflexivity. Qed.
Lemma offset_refuted : exists p T q old t, numbers p /\ common_abscissae p /\ same_sizes p /\ is_number T /\
  max_thickness64 p = Ok old /\ 0 < real old /\ set_thickness_max64 T p = Ok q /\ numbers q /\ max_thickness64 q = Ok t /\ Rabs (real t - real T) > real T / 4.
Proof.
  pose proof offset_result as H. unfold offset_after in H.
  destruct (max_thickness64 offset_foil) as [old|] eqn:E1; [|discriminate].
  destruct (set_thickness_max64 f07 offset_foil) as [q|] eqn:E2; [|discriminate].
  destruct (max_thickness64 q) as [t|] eqn:E3; [|discriminate].
  assert (A : B2SF old = SpecFloat.S754_finite false 4503599627370496 (-104)) by congruence.
  assert (B : B2SF t = SpecFloat.S754_finite false 4503599627370496 (-53)) by congruence.
  assert (N : forallb (@is_finite 53 1024) (fxup q ++ fxdown q ++ fyup q ++ fydown q) = true) by congruence. clear H.
  exists offset_foil, f07, q, old, t. split; [repeat split; repeat constructor|]. split; [repeat split; repeat constructor|]. split; [repeat split|].
  split; [reflexivity|]. split; [exact E1|]. apply sf_val in A, B. unfold real. rewrite A, B. split.
  { apply Rmult_lt_0_compat; [lra|apply bpow_gt_0]. }
  split; [exact E2|]. split.
  - rewrite !forallb_app, !andb_true_iff in N. destruct N as (N1 & N2 & N3 & N4). repeat split; apply Forall_forall; apply forallb_forall; assumption.
  - split; [exact E3|]. unfold f07, B2R, F2R. cbn. rewrite Rabs_left; lra.
Qed.
Lemma overflow_both : forall T p, numbers p -> common_abscissae p -> same_sizes p -> is_number T ->
  Exists (fun g => 2 * huge <= g) (gap (yup (meaning p)) (ydown (meaning p))) ->
  (exists t, max_thickness64 p = Ok t /\ is_infinite t) /\
  exists q, set_thickness_max64 T p = Ok q /\ Forall (fun y => is_number y /\ real y = 0) (fyup q) /\ Forall (fun y => is_number y /\ real y = 0) (fydown q).
Proof.
  intros T p N C S FT X. split; [|apply set_overflow; auto]. exists pinf. split; [apply thickness_overflow; auto|]. split; discriminate.
Qed.
