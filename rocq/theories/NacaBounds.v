(** Bounds of the NACA thickness distribution.  The certificates are Bernstein
    expansions on subintervals, generated outside Coq and checked here. *)
From Coq Require Import Reals Lra.
Open Scope R_scope.

(** Full thickness over t as a function of s = sqrt x. *)
Definition shape (s : R) : R := (2969 / 1000) * s - (126 / 100) * s ^ 2 - (3516 / 1000) * s ^ 4 + (2843 / 1000) * s ^ 6 - (1036 / 1000) * s ^ 8.

Ltac positive_sum :=
  apply Ropp_le_cancel; rewrite Ropp_0, Ropp_involutive;
  repeat apply Rplus_le_le_0_compat;
  (apply Rmult_le_pos; [lra|apply Rmult_le_pos; apply pow_le; lra]).

Lemma shape_bound_0 : forall s, (0/1) <= s <= (1/2) -> shape s <= (10002 / 10000).
Proof.
  intros s [A B]. unfold shape. apply Rminus_le.
  replace (_ - _) with (- ((160032/625) * ((s - (0/1)) ^ 0 * ((1/2) - s) ^ 8) + (1042736/625) * ((s - (0/1)) ^ 1 * ((1/2) - s) ^ 7) + (2868656/625) * ((s - (0/1)) ^ 2 * ((1/2) - s) ^ 6) + (4276272/625) * ((s - (0/1)) ^ 3 * ((1/2) - s) ^ 5) + (147208/25) * ((s - (0/1)) ^ 4 * ((1/2) - s) ^ 4) + (1797232/625) * ((s - (0/1)) ^ 5 * ((1/2) - s) ^ 3) + (905657/1250) * ((s - (0/1)) ^ 6 * ((1/2) - s) ^ 2) + (46441/625) * ((s - (0/1)) ^ 7 * ((1/2) - s) ^ 1) + (1612/625) * ((s - (0/1)) ^ 8 * ((1/2) - s) ^ 0))) by field.
  positive_sum.
Qed.
Lemma shape_bound_1 : forall s, (1/2) <= s <= (17/32) -> shape s <= (10002 / 10000).
Proof.
  intros s [A B]. unfold shape. apply Rminus_le.
  replace (_ - _) with (- ((6923487281152/625) * ((s - (1/2)) ^ 0 * ((17/32) - s) ^ 8) + (46383230877696/625) * ((s - (1/2)) ^ 1 * ((17/32) - s) ^ 7) + (133725375430656/625) * ((s - (1/2)) ^ 2 * ((17/32) - s) ^ 6) + (216056129912832/625) * ((s - (1/2)) ^ 3 * ((17/32) - s) ^ 5) + (8526691074048/25) * ((s - (1/2)) ^ 4 * ((17/32) - s) ^ 4) + (130917497761792/625) * ((s - (1/2)) ^ 5 * ((17/32) - s) ^ 3) + (48619707227776/625) * ((s - (1/2)) ^ 6 * ((17/32) - s) ^ 2) + (9932913782976/625) * ((s - (1/2)) ^ 7 * ((17/32) - s) ^ 1) + (1707851090319/1250) * ((s - (1/2)) ^ 8 * ((17/32) - s) ^ 0))) by field.
  positive_sum.
Qed.
Lemma shape_bound_2 : forall s, (17/32) <= s <= (35/64) -> shape s <= (10002 / 10000).
Proof.
  intros s [A B]. unfold shape. apply Rminus_le.
  replace (_ - _) with (- ((218604939560832/625) * ((s - (17/32)) ^ 0 * ((35/64) - s) ^ 8) + (1351846310509056/625) * ((s - (17/32)) ^ 1 * ((35/64) - s) ^ 7) + (3533936330590336/625) * ((s - (17/32)) ^ 2 * ((35/64) - s) ^ 6) + (5057662452380032/625) * ((s - (17/32)) ^ 3 * ((35/64) - s) ^ 5) + (34332109096464/5) * ((s - (17/32)) ^ 4 * ((35/64) - s) ^ 4) + (2195412324262752/625) * ((s - (17/32)) ^ 5 * ((35/64) - s) ^ 3) + (672568942052616/625) * ((s - (17/32)) ^ 6 * ((35/64) - s) ^ 2) + (126176524290216/625) * ((s - (17/32)) ^ 7 * ((35/64) - s) ^ 1) + (28947524361839/1250) * ((s - (17/32)) ^ 8 * ((35/64) - s) ^ 0))) by field.
  positive_sum.
Qed.
Lemma shape_bound_3 : forall s, (35/64) <= s <= (9/16) -> shape s <= (10002 / 10000).
Proof.
  intros s [A B]. unfold shape. apply Rminus_le.
  replace (_ - _) with (- ((28947524361839/1250) * ((s - (35/64)) ^ 0 * ((9/16) - s) ^ 8) + (105403670604496/625) * ((s - (35/64)) ^ 1 * ((9/16) - s) ^ 7) + (527158966252576/625) * ((s - (35/64)) ^ 2 * ((9/16) - s) ^ 6) + (1760832397042432/625) * ((s - (35/64)) ^ 3 * ((9/16) - s) ^ 5) + (142908550358272/25) * ((s - (35/64)) ^ 4 * ((9/16) - s) ^ 4) + (4347112627679232/625) * ((s - (35/64)) ^ 5 * ((9/16) - s) ^ 3) + (3114206562492416/625) * ((s - (35/64)) ^ 6 * ((9/16) - s) ^ 2) + (1214686493474816/625) * ((s - (35/64)) ^ 7 * ((9/16) - s) ^ 1) + (199482138918912/625) * ((s - (35/64)) ^ 8 * ((9/16) - s) ^ 0))) by field.
  positive_sum.
Qed.
Lemma shape_bound_4 : forall s, (9/16) <= s <= (5/8) -> shape s <= (10002 / 10000).
Proof.
  intros s [A B]. unfold shape. apply Rminus_le.
  replace (_ - _) with (- ((6087711759/1250) * ((s - (9/16)) ^ 0 * ((5/8) - s) ^ 8) + (47615655256/625) * ((s - (9/16)) ^ 1 * ((5/8) - s) ^ 7) + (296153154856/625) * ((s - (9/16)) ^ 2 * ((5/8) - s) ^ 6) + (948139617312/625) * ((s - (9/16)) ^ 3 * ((5/8) - s) ^ 5) + (70070699984/25) * ((s - (9/16)) ^ 4 * ((5/8) - s) ^ 4) + (1952646787712/625) * ((s - (9/16)) ^ 5 * ((5/8) - s) ^ 3) + (1301136025216/625) * ((s - (9/16)) ^ 6 * ((5/8) - s) ^ 2) + (478663835136/625) * ((s - (9/16)) ^ 7 * ((5/8) - s) ^ 1) + (74965360512/625) * ((s - (9/16)) ^ 8 * ((5/8) - s) ^ 0))) by field.
  positive_sum.
Qed.
Lemma shape_bound_5 : forall s, (5/8) <= s <= (3/4) -> shape s <= (10002 / 10000).
Proof.
  intros s [A B]. unfold shape. apply Rminus_le.
  replace (_ - _) with (- ((585666879/1250) * ((s - (5/8)) ^ 0 * ((3/4) - s) ^ 8) + (3288441336/625) * ((s - (5/8)) ^ 1 * ((3/4) - s) ^ 7) + (15593491696/625) * ((s - (5/8)) ^ 2 * ((3/4) - s) ^ 6) + (40911386432/625) * ((s - (5/8)) ^ 3 * ((3/4) - s) ^ 5) + (2609853872/25) * ((s - (5/8)) ^ 4 * ((3/4) - s) ^ 4) + (65045703552/625) * ((s - (5/8)) ^ 5 * ((3/4) - s) ^ 3) + (39728790016/625) * ((s - (5/8)) ^ 6 * ((3/4) - s) ^ 2) + (13633478656/625) * ((s - (5/8)) ^ 7 * ((3/4) - s) ^ 1) + (2017548672/625) * ((s - (5/8)) ^ 8 * ((3/4) - s) ^ 0))) by field.
  positive_sum.
Qed.
Lemma shape_bound_6 : forall s, (3/4) <= s <= (1/1) -> shape s <= (10002 / 10000).
Proof.
  intros s [A B]. unfold shape. apply Rminus_le.
  replace (_ - _) with (- ((15762099/1250) * ((s - (3/4)) ^ 0 * ((1/1) - s) ^ 8) + (82633636/625) * ((s - (3/4)) ^ 1 * ((1/1) - s) ^ 7) + (370044226/625) * ((s - (3/4)) ^ 2 * ((1/1) - s) ^ 6) + (926507472/625) * ((s - (3/4)) ^ 3 * ((1/1) - s) ^ 5) + (56910944/25) * ((s - (3/4)) ^ 4 * ((1/1) - s) ^ 4) + (1376532992/625) * ((s - (3/4)) ^ 5 * ((1/1) - s) ^ 3) + (822140416/625) * ((s - (3/4)) ^ 6 * ((1/1) - s) ^ 2) + (278132736/625) * ((s - (3/4)) ^ 7 * ((1/1) - s) ^ 1) + (40968192/625) * ((s - (3/4)) ^ 8 * ((1/1) - s) ^ 0))) by field.
  positive_sum.
Qed.
Lemma shape_bound : forall s, 0 <= s <= 1 -> shape s <= (10002 / 10000).
Proof.
  intros s [A B].
  destruct (Rle_dec s (1/2)); [apply shape_bound_0; lra|].
  destruct (Rle_dec s (17/32)); [apply shape_bound_1; lra|].
  destruct (Rle_dec s (35/64)); [apply shape_bound_2; lra|].
  destruct (Rle_dec s (9/16)); [apply shape_bound_3; lra|].
  destruct (Rle_dec s (5/8)); [apply shape_bound_4; lra|].
  destruct (Rle_dec s (3/4)); [apply shape_bound_5; lra|].
  destruct (Rle_dec s (1/1)); [apply shape_bound_6; lra|].
  lra.
Qed.

Lemma shape_factor : forall s, shape s = 10 * s * (1 - s) *
  ((2969 / 10000) + (1709 / 10000) * s + (1709 / 10000) * s ^ 2 - (1807 / 10000) * s ^ 3 - (1807 / 10000) * s ^ 4 + (1036 / 10000) * s ^ 5 + (1036 / 10000) * s ^ 6).
Proof. intros. unfold shape. field. Qed.
Lemma shape_pos : forall s, 0 <= s <= 1 -> 0 <= shape s.
Proof.
  intros s [A B]. rewrite shape_factor.
  assert (P : forall k, 0 <= s ^ k) by (intros; apply pow_le; auto).
  assert (s ^ 3 <= s). { replace (s ^ 3) with (s * (s * s)) by ring. rewrite <- (Rmult_1_r s) at 4. apply Rmult_le_compat_l; auto. nra. }
  assert (s ^ 4 <= s ^ 2). { replace (s ^ 4) with (s ^ 2 * (s * s)) by ring. rewrite <- (Rmult_1_r (s ^ 2)) at 2. apply Rmult_le_compat_l; auto. nra. }
  assert (s ^ 2 <= 1) by nra. pose proof (P 5%nat). pose proof (P 6%nat). pose proof (P 2%nat).
  apply Rmult_le_pos; [apply Rmult_le_pos; lra|]. lra.
Qed.
Lemma shape_strict : forall s, 0 < s < 1 -> 0 < shape s.
Proof.
  intros s [A B]. rewrite shape_factor.
  assert (P : forall k, 0 <= s ^ k) by (intros; apply pow_le; lra).
  assert (s ^ 3 <= s). { replace (s ^ 3) with (s * (s * s)) by ring. rewrite <- (Rmult_1_r s) at 4. apply Rmult_le_compat_l; [lra|nra]. }
  assert (s ^ 4 <= s ^ 2). { replace (s ^ 4) with (s ^ 2 * (s * s)) by ring. rewrite <- (Rmult_1_r (s ^ 2)) at 2. apply Rmult_le_compat_l; auto. nra. }
  assert (s ^ 2 <= 1) by nra. pose proof (P 5%nat). pose proof (P 6%nat). pose proof (P 2%nat).
  apply Rmult_lt_0_compat; [apply Rmult_lt_0_compat; lra|]. lra.
Qed.
