(** The binomial series of 1/sqrt(1-t) and sqrt(1-t). *)
From Coq Require Import Reals List Lra Lia Arith.
From Coquelicot Require Import Coquelicot.
Open Scope R_scope.

Fixpoint bc (k : nat) : R :=
  match k with O => 1 | S k => bc k * ((2 * INR k + 1) / (2 * INR k + 2)) end.
Lemma bc_pos : forall k, 0 < bc k.
Proof.
  induction k; cbn [bc]; [lra|]. pose proof (pos_INR k). apply Rmult_lt_0_compat; auto. apply Rdiv_lt_0_compat; lra.
Qed.
Lemma bc_le1 : forall k, bc k <= 1.
Proof.
  induction k; cbn [bc]; [lra|]. pose proof (pos_INR k). pose proof (bc_pos k).
  assert ((2 * INR k + 1) / (2 * INR k + 2) <= 1).
  { apply Rmult_le_reg_r with (2 * INR k + 2); [lra|]. unfold Rdiv. rewrite Rmult_assoc, Rinv_l by lra. lra. }
  apply Rle_trans with (bc k * 1); [|lra]. apply Rmult_le_compat_l; lra.
Qed.
Lemma bc_step : forall k, (INR k + 1) * bc (S k) = (INR k + 1 / 2) * bc k.
Proof. intros k. cbn [bc]. pose proof (pos_INR k). field. lra. Qed.

Lemma bc_radius : forall t, Rabs t < 1 -> Rbar_lt (Rabs t) (CV_radius bc).
Proof.
  intros t T. set (y := (Rabs t + 1) / 2). apply Rbar_lt_le_trans with y; [unfold y; cbn; lra|].
  apply (proj1 (CV_radius_bounded bc)). exists 1. intros n.
  rewrite Rabs_mult, (Rabs_pos_eq (bc n)) by (pose proof (bc_pos n); lra).
  pose proof (Rabs_pos t). assert (Y : 0 <= y <= 1) by (unfold y; lra).
  rewrite Rabs_pos_eq by (apply pow_le; lra).
  assert (y ^ n <= 1) by (rewrite <- (pow1 n); apply pow_incr; auto).
  pose proof (bc_pos n). pose proof (bc_le1 n). assert (0 <= y ^ n) by (apply pow_le; lra). nra.
Qed.

Definition S0 (t : R) : R := PSeries bc t.
Lemma S0_ode : forall t, Rabs t < 1 -> is_derive S0 t (PSeries (PS_derive bc) t) /\ (1 - t) * PSeries (PS_derive bc) t = S0 t / 2.
Proof.
  intros t T. pose proof (bc_radius t T) as RR. split; [apply is_derive_PSeries; auto|].
  assert (E1 : ex_pseries bc t) by (apply CV_disk_correct, CV_disk_inside; auto).
  assert (E2 : ex_pseries (PS_derive bc) t) by (apply CV_disk_correct, CV_disk_inside; rewrite CV_radius_derive; auto).
  assert (E3 : ex_pseries (PS_incr_1 (PS_derive bc)) t) by (apply ex_pseries_incr_1; auto).
  rewrite Rmult_minus_distr_r, Rmult_1_l. rewrite <- PSeries_incr_1. rewrite <- PSeries_minus by auto.
  unfold S0. replace (PSeries bc t / 2) with (1 / 2 * PSeries bc t) by field. rewrite <- PSeries_scal.
  apply PSeries_ext. intros n. unfold PS_minus, PS_plus, PS_opp, PS_scal, PS_derive, PS_incr_1, plus, opp, scal; cbn.
  unfold mult; cbn. change (match n with | 0%nat => 1 | S _ => INR n + 1 end) with (INR (S n)). rewrite S_INR.
  pose proof (bc_step n) as B. fold (bc n) in *. cbn [bc] in B. 
  destruct n as [|n].
  - cbn in *. unfold zero; cbn. lra.
  - pose proof (bc_step n) as B'. change (match n with | 0%nat => 1 | S _ => INR n + 1 end) with (INR (S n)) in *. rewrite S_INR in *. cbn [bc] in *. nra.
Qed.

Lemma S0_value : forall t, Rabs t < 1 -> S0 t = 1 / sqrt (1 - t).
Proof.
  intros t T.
  set (g := fun t => S0 t * sqrt (1 - t)).
  assert (D : forall x, Rabs x < 1 -> is_derive g x 0).
  { intros x X. destruct (S0_ode x X) as [D O]. pose proof (Rle_abs x).
    assert (P : 0 < sqrt (1 - x)) by (apply sqrt_lt_R0; lra).
    assert (D2 : is_derive (fun x => sqrt (1 - x)) x (- / (2 * sqrt (1 - x)))).
    { auto_derive; [lra|]. replace (1 + - x) with (1 - x) by ring. field. lra. }
    evar_last; [apply (is_derive_mult _ _ x _ _ D D2); intros; apply Rmult_comm|].
    unfold plus, mult; cbn. assert (SQ : sqrt (1 - x) * sqrt (1 - x) = 1 - x) by (apply sqrt_sqrt; lra).
    set (s := sqrt (1 - x)) in *. set (p := PSeries (PS_derive bc) x) in *.
    replace (S0 x) with (2 * ((1 - x) * p)) by lra. rewrite <- SQ. field. lra. }
  assert (C : g t = g 0).
  { destruct (MVT_gen g 0 t (fun _ => 0)) as (c & _ & E).
    - intros x X. apply D. revert X. unfold Rmin, Rmax. destruct (Rle_dec 0 t); intros X; apply Rabs_def1; apply Rabs_def2 in T; lra.
    - intros x X. apply continuity_pt_filterlim. apply (ex_derive_continuous g). exists 0. apply D.
      revert X. unfold Rmin, Rmax. destruct (Rle_dec 0 t); intros X; apply Rabs_def1; apply Rabs_def2 in T; lra.
    - lra. }
  unfold g in C. rewrite Rminus_0_r, sqrt_1, Rmult_1_r in C. unfold S0 in C at 2. rewrite PSeries_0 in C. cbn [bc] in C.
  assert (P : 0 < sqrt (1 - t)) by (apply sqrt_lt_R0; apply Rabs_def2 in T; lra).
  apply Rmult_eq_reg_r with (sqrt (1 - t)); [|lra]. rewrite C. field. lra.
Qed.

Lemma inverse_root_series : forall t, Rabs t < 1 -> infinite_sum (fun k => bc k * t ^ k) (1 / sqrt (1 - t)).
Proof.
  intros t T. rewrite <- (S0_value t T). apply is_series_Reals.
  assert (E : ex_pseries bc t) by (apply CV_disk_correct, CV_disk_inside, bc_radius; auto).
  apply is_pseries_R. apply PSeries_correct. auto.
Qed.

(** 2 - sqrt (1 - t) has positive coefficients. *)
Definition rc (k : nat) : R := match k with O => 1 | S k => bc k - bc (S k) end.
Lemma rc_pos : forall k, 0 < rc k.
Proof.
  intros [|k]; cbn [rc bc]; [lra|]. pose proof (pos_INR k). pose proof (bc_pos k).
  replace (bc k - _) with (bc k * (1 / (2 * INR k + 2))) by (field; lra). apply Rmult_lt_0_compat; auto. apply Rdiv_lt_0_compat; lra.
Qed.
Lemma rc_sum : forall t n, sum_f_R0 (fun k => rc k * t ^ k) (S n) =
  2 + t * sum_f_R0 (fun k => bc k * t ^ k) n - sum_f_R0 (fun k => bc k * t ^ k) (S n).
Proof.
  intros t. induction n as [|n IH].
  - cbn [sum_f_R0 rc bc pow INR]. lra.
  - change (sum_f_R0 (fun k => rc k * t ^ k) (S (S n))) with (sum_f_R0 (fun k => rc k * t ^ k) (S n) + rc (S (S n)) * t ^ S (S n)).
    change (sum_f_R0 (fun k => bc k * t ^ k) (S (S n))) with (sum_f_R0 (fun k => bc k * t ^ k) (S n) + bc (S (S n)) * t ^ S (S n)).
    rewrite IH. change (sum_f_R0 (fun k => bc k * t ^ k) (S n)) with (sum_f_R0 (fun k => bc k * t ^ k) n + bc (S n) * t ^ S n).
    cbn [rc]. change (t ^ S (S n)) with (t * t ^ S n). ring.
Qed.
Lemma root_series : forall t, Rabs t < 1 -> infinite_sum (fun k => rc k * t ^ k) (2 - sqrt (1 - t)).
Proof.
  intros t T. pose proof (inverse_root_series t T) as I.
  assert (P : 0 < 1 - t) by (apply Rabs_def2 in T; lra). pose proof (sqrt_lt_R0 _ P) as Q.
  assert (I1 : Un_cv (fun n => 2 + t * sum_f_R0 (fun k => bc k * t ^ k) n - sum_f_R0 (fun k => bc k * t ^ k) (S n)) (2 - sqrt (1 - t))).
  { assert (SQ : sqrt (1 - t) * sqrt (1 - t) = 1 - t) by (apply sqrt_sqrt; lra).
    replace (2 - sqrt (1 - t)) with (2 + t * (1 / sqrt (1 - t)) - 1 / sqrt (1 - t)).
    2: { replace (2 + t * (1 / sqrt (1 - t)) - 1 / sqrt (1 - t)) with (2 - (1 - t) * (1 / sqrt (1 - t))) by ring. rewrite <- SQ at 1. field. lra. }
    apply (CV_minus (fun n => 2 + t * sum_f_R0 (fun k => bc k * t ^ k) n) (fun n => sum_f_R0 (fun k => bc k * t ^ k) (S n))).
    - apply (CV_plus (fun _ => 2) (fun n => t * sum_f_R0 (fun k => bc k * t ^ k) n)).
      + intros e E. exists 0%nat. intros n _. unfold R_dist. rewrite Rminus_diag_eq, Rabs_R0; auto.
      + apply (CV_mult (fun _ => t) (fun n => sum_f_R0 (fun k => bc k * t ^ k) n)).
        * intros e E. exists 0%nat. intros n _. unfold R_dist. rewrite Rminus_diag_eq, Rabs_R0; auto.
        * exact I.
    - intros e E. destruct (I e E) as (N & H). exists N. intros n G. apply H. lia. }
  intros e E. destruct (I1 e E) as (N & H). exists (S N). intros [|n] G; [lia|]. rewrite rc_sum. apply H. lia.
Qed.

Lemma exp_series : forall c t, infinite_sum (fun k => (/ INR (fact k) * c ^ k) * t ^ k) (exp (c * t)).
Proof.
  intros c t. unfold exp. destruct (exist_exp (c * t)) as [y Y]. cbn. unfold exp_in in Y.
  intros e E. destruct (Y e E) as (N & H). exists N. intros n G. specialize (H n G).
  erewrite sum_eq; [exact H|]. intros k _. cbv beta. rewrite Rpow_mult_distr. ring.
Qed.
