(** The model against tests/test_profiles.py (lines 160-346): all 240 points of the
    seven foils recorded by the authors. *)
From Coq Require Import Reals List ZArith String Lra Lia.
From Verif Require Import Base ProfileModel ProfileSpec CustomSpec NacaModel NacaSpec NacaProofs NacaProofs2 Enclose ValidNacaData ValidNacaProofs.
Import ListNotations.
Open Scope R_scope.

Ltac digit := unfold is_digit; lia.
Lemma thick12 : (10 * INR 1 + INR 2) / 100 = 12 / 100.
Proof. cbn. lra. Qed.

Example recorded_0012 : exists p, naca_coordinates "0012" true 240 = Ok p /\ recorded p rows_naca_0012.
Proof.
  change "0012"%string with (code [0; 0; 1; 2]%nat). rewrite coords4 by digit.
  destruct (naca4_traced (INR 0 / 100) (INR 0 / 10) ((10 * INR 1 + INR 2) / 100) true 240) as (p & E & T & _). exists p. split; [exact E|].
  apply (symmetric_rows p rows_naca_0012 _ thick12 (T ltac:(cbn [INR]; lra))); vm_compute; reflexivity.
Qed.
Example recorded_2412_cosine : exists p, naca_coordinates "2412" true 240 = Ok p /\ recorded p rows_naca_2412_cosine.
Proof.
  change "2412"%string with (code [2; 4; 1; 2]%nat). rewrite coords4 by digit.
  destruct (naca4_traced (INR 2 / 100) (INR 4 / 10) ((10 * INR 1 + INR 2) / 100) true 240) as (p & E & _ & T & _). exists p. split; [exact E|].
  apply (check_ok ev_2412_cosine rows_naca_2412_cosine _ _ _ _ p (T ltac:(cbn [INR]; lra) eq_refl)); [reflexivity| |vm_compute; reflexivity].
  intros k _. cbv zeta. unfold ev_2412_cosine. pose proof (ist_ok k) as X.
  apply (laid_iv_ok _ _ _ _ _ _ _ _ (ihalf_ok _ _ _ thick12 X) (icamber4_ok k _ X) (islope4_ok k _ X) X).
Qed.
Example recorded_2412_linear : exists p, naca_coordinates "2412" false 240 = Ok p /\ recorded p rows_naca_2412_linear.
Proof.
  change "2412"%string with (code [2; 4; 1; 2]%nat). rewrite coords4 by digit.
  destruct (naca4_traced (INR 2 / 100) (INR 4 / 10) ((10 * INR 1 + INR 2) / 100) false 240) as (p & E & _ & _ & T). exists p. split; [exact E|].
  apply (check_ok ev_2412_linear rows_naca_2412_linear _ _ _ _ p (T ltac:(cbn [INR]; lra) eq_refl)); [reflexivity| |vm_compute; reflexivity].
  intros k _. cbv zeta. unfold ev_2412_linear. pose proof (ist_ok k) as X.
  apply (flat_iv_ok _ _ _ _ _ _ (ihalf_ok _ _ _ thick12 X) (icamber4_ok k _ X) X).
Qed.
Example recorded_00012 : exists p, naca_coordinates "00012" true 240 = Ok p /\ recorded p rows_naca_00012.
Proof.
  change "00012"%string with (code [0; 0; 0; 1; 2]%nat). rewrite coords5 by digit.
  destruct (naca5_traced (INR 0 * (15/100)) (5 * INR 0 / 100) false (INR 0) ((10 * INR 1 + INR 2) / 100) true 240 eq_refl) as (p & E & T & _).
  exists p. split; [exact E|].
  apply (symmetric_rows p rows_naca_00012 _ thick12 (T ltac:(cbn [INR]; lra))); vm_compute; reflexivity.
Qed.
Lemma table_230 : naca5_m false (5 * INR 3 / 100) = IZR 81 / IZR 400 /\ naca5_k false (IZR 81 / IZR 400) = IZR 15957 / IZR 1000.
Proof.
  pose proof (m_std 3 ltac:(lia)) as M. pose proof (k_std 3 ltac:(lia)) as K. cbn [nth Nat.sub] in M, K.
  assert (E : naca5_m false (5 * INR 3 / 100) = IZR 81 / IZR 400) by (rewrite M; lra). rewrite E in K. split; [exact E|exact K].
Qed.
Lemma table_231 : naca5_m true (5 * INR 3 / 100) = IZR 217 / IZR 1000 /\ naca5_k true (IZR 217 / IZR 1000) = IZR 15793 / IZR 1000.
Proof.
  pose proof (m_ref 3 ltac:(lia)) as M. pose proof (k_ref 3 ltac:(lia)) as K. cbn [nth Nat.sub] in M, K. rewrite M in K. split; [exact M|exact K].
Qed.
Lemma lift2 : forall y, INR 2 * (15/100) / (3/10) * y = y.
Proof. intros y. cbn [INR]. field. Qed.
Example recorded_23012_cosine : exists p, naca_coordinates "23012" true 240 = Ok p /\ recorded p rows_naca_23012_cosine.
Proof.
  change "23012"%string with (code [2; 3; 0; 1; 2]%nat). rewrite coords5 by digit.
  destruct (naca5_traced (INR 2 * (15/100)) (5 * INR 3 / 100) false (INR 0) ((10 * INR 1 + INR 2) / 100) true 240 eq_refl) as (p & E & _ & T & _).
  exists p. split; [exact E|]. destruct table_230 as (M & K). rewrite M, K in T.
  apply (check_ok (ev5 81 400 15957 1000 false) rows_naca_23012_cosine _ _ _ _ p (T ltac:(cbn [INR]; lra) eq_refl)); [reflexivity| |vm_compute; reflexivity].
  intros k _. cbv zeta. rewrite lift2. destruct (ev5_ok 81 400 15957 1000 k _ eq_refl eq_refl thick12) as (H & _). exact H.
Qed.
Example recorded_23012_linear : exists p, naca_coordinates "23012" false 240 = Ok p /\ recorded p rows_naca_23012_linear.
Proof.
  change "23012"%string with (code [2; 3; 0; 1; 2]%nat). rewrite coords5 by digit.
  destruct (naca5_traced (INR 2 * (15/100)) (5 * INR 3 / 100) false (INR 0) ((10 * INR 1 + INR 2) / 100) false 240 eq_refl) as (p & E & _ & _ & T).
  exists p. split; [exact E|]. destruct table_230 as (M & K). rewrite M, K in T.
  apply (check_ok (ev5 81 400 15957 1000 true) rows_naca_23012_linear _ _ _ _ p (T ltac:(cbn [INR]; lra) eq_refl)); [reflexivity| |vm_compute; reflexivity].
  intros k _. cbv zeta. destruct (ev5_ok 81 400 15957 1000 k _ eq_refl eq_refl thick12) as (_ & H). exact H.
Qed.
Example recorded_23112 : exists p, naca_coordinates "23112" true 240 = Ok p /\ recorded p rows_naca_23112.
Proof.
  change "23112"%string with (code [2; 3; 1; 1; 2]%nat). rewrite coords5 by digit.
  destruct (naca5_traced (INR 2 * (15/100)) (5 * INR 3 / 100) true (INR 1) ((10 * INR 1 + INR 2) / 100) true 240 eq_refl) as (p & E & _ & T & _).
  exists p. split; [exact E|]. destruct table_231 as (M & K). rewrite M, K in T.
  apply (check_ok (ev5 217 1000 15793 1000 false) rows_naca_23112 _ _ _ _ p (T ltac:(cbn [INR]; lra) eq_refl)); [reflexivity| |vm_compute; reflexivity].
  intros k _. cbv zeta. rewrite lift2. destruct (ev5_ok 217 1000 15793 1000 k _ eq_refl eq_refl thick12) as (H & _). exact H.
Qed.
