(** The model against tests/test_ndinterpolator.py. *)
From Coq Require Import Reals String List ZArith Lra Lia.
From Verif Require Import Base SolveModel SolveProofs RbfModel RbfProofs Enclose.
Import ListNotations.
Open Scope R_scope.

(** ** The basis functions, test_ndinterpolator.py 17-72 *)
Example wrong_basis : forall X y Q out, reconstruct_f X y Q out "wendland" 1 = Err NameError.
Proof. reflexivity. Qed.

Lemma exp_neg_bounds : forall x n, 0 <= x <= 1 ->
  sum_f_R0 (tg_alt (fun i => x ^ i / INR (fact i))) (S (2 * n)) <= exp (- x) <= sum_f_R0 (tg_alt (fun i => x ^ i / INR (fact i))) (2 * n).
Proof.
  intros x n X. apply alternated_series_ineq.
  - intros i. rewrite fact_simpl, mult_INR. pose proof (lt_0_INR (S i) ltac:(lia)) as P. pose proof (lt_0_INR _ (lt_O_fact i)) as F.
    assert (Q : 0 <= x ^ i) by (apply pow_le; lra). cbn [pow].
    apply Rmult_le_reg_r with (INR (S i) * INR (fact i)); [nra|].
    replace (x * x ^ i / (INR (S i) * INR (fact i)) * (INR (S i) * INR (fact i))) with (x * x ^ i) by (field; lra).
    replace (x ^ i / INR (fact i) * (INR (S i) * INR (fact i))) with (INR (S i) * x ^ i) by (field; lra).
    rewrite S_INR. pose proof (pos_INR i). nra.
  - assert (C := cv_speed_pow_fact x). exact C.
  - unfold exp. destruct (exist_exp (- x)) as (l & E). cbn [proj1_sig]. unfold exp_in, infinite_sum in E. intros eps P.
    destruct (E eps P) as (N & HN). exists N. intros m M. specialize (HN m M).
    replace (sum_f_R0 (tg_alt (fun i => x ^ i / INR (fact i))) m) with (sum_f_R0 (fun i => / INR (fact i) * (- x) ^ i) m); [exact HN|].
    apply sum_eq. intros i _. unfold tg_alt. replace (- x) with (-1 * x) by ring. rewrite Rpow_mult_distr. field. apply INR_fact_neq_0.
Qed.
Fixpoint zfact (n : nat) : Z := match n with O => 1%Z | S m => (Z.of_nat (S m) * zfact m)%Z end.
Lemma zfact_ok : forall n, INR (fact n) = IZR (zfact n).
Proof. induction n as [|n IH]; [reflexivity|]. rewrite fact_simpl, mult_INR, IH. cbn [zfact]. rewrite mult_IZR, <- INR_IZR_INZ. reflexivity. Qed.
Ltac series H := cbv [sum_f_R0 tg_alt Nat.mul Nat.add] in H; rewrite !zfact_ok in H; cbv [zfact pow Z.of_nat Pos.of_succ_nat Pos.succ Z.mul Pos.mul Pos.add Pos.add_carry] in H.
(** test_ndinterpolator.py 44-47. *)
Example gaussian_evaluation : exists v, eval_basis Gaussian 1 1 = Ok v /\ near v 3678794412.
Proof.
  eexists. split; [apply (eval_basis_phi Gaussian); cbn; lra|]. cbn [phi]. replace (- (1 * 1) / (1 * 1)) with (- (1)) by field.
  pose proof (exp_neg_bounds 1 5 ltac:(lra)) as H. series H. unfold near. apply Rabs_le. lra.
Qed.
Lemma sqrt_near : forall x z, 0 <= x -> (0 <= z)%Z ->
  (IZR z / 10000000000 - 15 / 100000000) * (IZR z / 10000000000 - 15 / 100000000) <= x <=
  (IZR z / 10000000000 + 15 / 100000000) * (IZR z / 10000000000 + 15 / 100000000) -> near (sqrt x) z.
Proof.
  intros x z X Z B. unfold near. apply IZR_le in Z. pose proof (sqrt_pos x). pose proof (sqrt_sqrt x X). apply Rabs_le. split; nra.
Qed.
(** test_ndinterpolator.py 49-52. *)
Example biharmonic_evaluation : exists v, eval_basis MultiQuadratic 1 1 = Ok v /\ near v 14142135624.
Proof. eexists. split; [apply (eval_basis_phi MultiQuadratic); cbn; lra|]. cbn [phi]. apply sqrt_near; [lra|lia|lra]. Qed.
(** test_ndinterpolator.py 54-57. *)
Example inv_biharmonic_evaluation : exists v, eval_basis InvMultiQuadratic 1 1 = Ok v /\ near v 7071067812.
Proof.
  eexists. split; [apply (eval_basis_phi InvMultiQuadratic); cbn; lra|]. cbn [phi].
  replace (1 / sqrt (1 * 1 + 1 * 1)) with (sqrt (1 / 2)). apply sqrt_near; [lra|lia|lra].
  replace (1 * 1 + 1 * 1) with 2 by ring. rewrite sqrt_div_alt by lra. rewrite sqrt_1. reflexivity.
Qed.
Lemma ln2_bounds : 693147 / 1000000 <= ln 2 <= 693148 / 1000000 /\ 69314717 / 100000000 <= ln 2 <= 69314719 / 100000000.
Proof.
  assert (E : exp (- ln 2) = 1 / 2) by (rewrite exp_Ropp, exp_ln by lra; lra).
  assert (B : 69314717 / 100000000 <= ln 2 <= 69314719 / 100000000).
  { pose proof (exp_neg_bounds (69314717 / 100000000) 5 ltac:(lra)) as H. pose proof (exp_neg_bounds (69314719 / 100000000) 5 ltac:(lra)) as K.
    series H. series K. split; apply Ropp_le_cancel.
    - apply Rnot_lt_le. intros C. apply exp_increasing in C. lra.
    - apply Rnot_lt_le. intros C. apply exp_increasing in C. lra. }
  split; lra.
Qed.
(** test_ndinterpolator.py 59-62. *)
Example thin_plate_evaluation : exists v, eval_basis ThinPlate 1 (1 / 2) = Ok v /\ near v 27725887222.
Proof.
  eexists. split; [apply (eval_basis_phi ThinPlate); cbn; lra|]. cbn [phi]. replace (1 / (1 / 2)) with 2 by field.
  destruct (Rlt_dec 0 2); [|lra]. destruct ln2_bounds as (_ & B). unfold near. apply Rabs_le. lra.
Qed.
(** test_ndinterpolator.py 64-72. *)
Example wendland_evaluation : eval_basis Wendland 1 2 = Ok (1875 / 10000).
Proof. rewrite (eval_basis_phi Wendland) by (cbn; lra). cbn [phi]. destruct (Rlt_dec 0 (1 - 1 / 2)); [|lra]. f_equal. field. Qed.
Example wendland_outside_cutoff : eval_basis Wendland 2 1 = Ok 0.
Proof. rewrite (eval_basis_phi Wendland) by (cbn; lra). cbn [phi]. destruct (Rlt_dec 0 (1 - 2 / 1)); [lra|]. f_equal. ring. Qed.

(** ** Points at quarters of integers *)
Definition quarters (l : list Z) : list (list R) := column (map (fun i => IZR i / 4) l).
(** The Wendland function of radius k/4. *)
Definition wz (k i j : Z) : R := let d := Z.abs (i - j) in if (d <? k)%Z then IZR ((k - d) ^ 4 * (4 * d + k)) / IZR (k ^ 5) else 0.
Lemma wz_ok : forall k i j, (0 < k)%Z -> phi Wendland (cdist [IZR i / 4] [IZR j / 4]) (IZR k / 4) = wz k i j.
Proof.
  intros k i j K. rewrite cdist_1d. apply IZR_lt in K.
  replace (IZR i / 4 - IZR j / 4) with (IZR (i - j) / 4) by (rewrite minus_IZR; field).
  assert (A : Rabs (IZR (i - j) / 4) = IZR (Z.abs (i - j)) / 4).
  { unfold Rdiv. rewrite Rabs_mult, <- abs_IZR. f_equal. apply Rabs_pos_eq. lra. }
  rewrite A. unfold wz. cbv zeta. set (d := Z.abs (i - j)). cbn [phi].
  replace (IZR d / 4 / (IZR k / 4)) with (IZR d / IZR k) by (field; lra).
  destruct (Z.ltb_spec d k) as [D|D].
  - destruct (Rlt_dec 0 (1 - IZR d / IZR k)) as [_|N].
    + rewrite mult_IZR, plus_IZR, mult_IZR. replace ((k - d) ^ 4)%Z with ((k - d) * (k - d) * (k - d) * (k - d))%Z by ring.
      replace (k ^ 5)%Z with (k * k * k * k * k)%Z by ring. rewrite !mult_IZR, minus_IZR. field. lra.
    + exfalso. apply N. apply IZR_lt in D. apply Rlt_Rminus. apply Rmult_lt_reg_r with (IZR k); auto. field_simplify; lra.
  - destruct (Rlt_dec 0 (1 - IZR d / IZR k)) as [P|_]; [|ring].
    exfalso. apply IZR_le in D. assert (IZR d / IZR k >= 1); [|lra]. apply Rle_ge. apply Rmult_le_reg_r with (IZR k); auto. field_simplify; lra.
Qed.
Lemma wz_sum : forall k xs w i, (0 < k)%Z -> rbf_sum Wendland (IZR k / 4) (quarters xs) w [IZR i / 4] = dot w (map (wz k i) xs).
Proof.
  intros k xs w i K. unfold rbf_sum, quarters, column. rewrite !map_map. f_equal. apply map_ext. intros j. apply wz_ok. exact K.
Qed.
Lemma wz_sums : forall k xs w qs, (0 < k)%Z ->
  map (rbf_sum Wendland (IZR k / 4) (quarters xs) w) (quarters qs) = map (fun i => dot w (map (wz k i) xs)) qs.
Proof. intros. unfold quarters at 2, column. rewrite !map_map. apply map_ext. intros i. apply wz_sum. assumption. Qed.
(** test_ndinterpolator.py 74-79: the matrix for radius 1 is the identity. *)
Example weight_matrix : weights_matrix Wendland 1 (column [0; 1; 2; 3; 4; 5; 6; 7; 8; 9]) (column [0; 1; 2; 3; 4; 5; 6; 7; 8; 9]) =
  Ok (map (fun i => map (fun j => if Nat.eqb i j then 1 else 0) (seq 0 10)) (seq 0 10)).
Proof.
  rewrite weights_matrix_ok by (cbn; lra).
  replace (column [0; 1; 2; 3; 4; 5; 6; 7; 8; 9]) with (quarters [0; 4; 8; 12; 16; 20; 24; 28; 32; 36]%Z).
  2:{ unfold quarters, column. cbn [map]. repeat (f_equal; try lra). }
  unfold quarters, column. rewrite !map_map.
  rewrite (map_ext _ (fun i => map (wz 4 i) [0; 4; 8; 12; 16; 20; 24; 28; 32; 36]%Z)).
  2:{ intros i. rewrite map_map. apply map_ext. intros j. rewrite <- wz_ok by lia. f_equal. lra. }
  f_equal. cbn. repeat (f_equal; try lra).
Qed.

(** test_ndinterpolator.py 156-170. *)
Example reconstruct_scalar : exists o, reconstruct_1d [0; 1; 2; 3; 4; 5; 6; 7; 8; 9] [0; 1; 4; 9; 16; 25; 36; 49; 64; 81]
    [0; 225 / 100; 45 / 10; 675 / 100; 9] [0; 0; 0; 0; 0] "beckert_wendland_c2_basis" 2 = Ok o /\
  Forall2 near o [0; 48557975400; 191322168000; 445394067400; 810000000000]%Z.
Proof.
  destruct (proj2 (proj1 (wendland_iff 2 [0; 1; 2; 3; 4; 5; 6; 7; 8; 9] [0; 1; 4; 9; 16; 25; 36; 49; 64; 81]
    [0; 225 / 100; 45 / 10; 675 / 100; 9] [0; 0; 0; 0; 0] ltac:(lra) eq_refl eq_refl))) as (o & E).
  { repeat constructor; cbn [In]; intuition lra. }
  exists o. split; [exact E|]. unfold reconstruct_1d in E.
  replace (column [0; 1; 2; 3; 4; 5; 6; 7; 8; 9]) with (quarters [0; 4; 8; 12; 16; 20; 24; 28; 32; 36]%Z) in E.
  2:{ unfold quarters, column. cbn [map]. repeat (f_equal; try lra). }
  replace (column [0; 225 / 100; 45 / 10; 675 / 100; 9]) with (quarters [0; 9; 18; 27; 36]%Z) in E.
  2:{ unfold quarters, column. cbn [map]. repeat (f_equal; try lra). }
  destruct (reconstruct_shape _ _ _ _ _ _ _ E) as (b & B & [(N & _)|(_ & _ & _ & w & S & Y & O)]); [discriminate N|].
  injection B as <-. destruct (linalg_solve_sound _ _ _ S) as (L & _). rewrite map_length in L. cbn [List.length quarters column map] in L.
  replace 2 with (IZR 8 / 4) in Y, O by lra.
  rewrite wz_sums in Y by lia. rewrite wz_sums in O by lia.
  destruct w as [|w0 [|w1 [|w2 [|w3 [|w4 [|w5 [|w6 [|w7 [|w8 [|w9 [|]]]]]]]]]]]; try discriminate L. clear E S L.
  cbn in Y. injection Y as Y0 Y1 Y2 Y3 Y4 Y5 Y6 Y7 Y8 Y9. cbn in O. subst o.
  repeat (constructor; [unfold near; apply Rabs_le; split; lra|]). constructor.
Qed.

(** test_ndinterpolator.py 172-186, one column of the output at a time. *)
Lemma pair_far : forall a b c d, 1 <= Rabs (a - c) -> phi Wendland (cdist [a; b] [c; d]) 1 = 0.
Proof.
  intros a b c d H. cbn [phi]. assert (D : 1 <= cdist [a; b] [c; d]).
  { unfold cdist. cbn [map2 fold_right]. rewrite <- sqrt_1. apply sqrt_le_1_alt.
    assert (1 <= (a - c) * (a - c)) by (unfold Rabs in H; destruct (Rcase_abs (a - c)); nra). assert (0 <= (b - d) * (b - d)) by (apply Rle_0_sqr). lra. }
  destruct (Rlt_dec 0 (1 - cdist [a; b] [c; d] / 1)) as [P|_]; [|ring]. unfold Rdiv in P. rewrite Rinv_1 in P. lra.
Qed.
Lemma pair_same : forall x, phi Wendland (cdist x x) 1 = 1.
Proof. intros x. rewrite cdist_refl. cbn [phi]. destruct (Rlt_dec 0 (1 - 0 / 1)); [field|lra]. Qed.
Definition rows5 : list (list R) := [[0; 1]; [2; 3]; [4; 5]; [6; 7]; [8; 9]].
Ltac far := rewrite ?pair_same; repeat (rewrite pair_far by (unfold Rabs; destruct (Rcase_abs _); lra)).
Lemma vectorial : forall y0 y1 y2 y3 y4,
  reconstruct_f rows5 [y0; y1; y2; y3; y4] [[0; 1]; [2; 3]; [4; 5]; [6; 7]] [0; 0; 0; 0] "beckert_wendland_c2_basis" 1 = Ok [y0; y1; y2; y3].
Proof.
  intros.
  assert (M : map (fun x => map (fun y => phi Wendland (cdist x y) 1) rows5) rows5 =
    [[1; 0; 0; 0; 0]; [0; 1; 0; 0; 0]; [0; 0; 1; 0; 0]; [0; 0; 0; 1; 0]; [0; 0; 0; 0; 1]]).
  { unfold rows5. cbn [map]. far. reflexivity. }
  assert (S : exists w, linalg_solve (map (fun x => map (fun y => phi Wendland (cdist x y) 1) rows5) rows5) [y0; y1; y2; y3; y4] = Ok w).
  { apply linalg_solve_ok_iff; [apply square_weights|reflexivity|]. rewrite M. intros v L V.
    destruct v as [|a [|b [|c [|d [|e [|]]]]]]; try discriminate L. cbn in V. injection V as V0 V1 V2 V3 V4. cbn. repeat (f_equal; try lra). }
  destruct S as (w & S). rewrite (reconstruct_intro "beckert_wendland_c2_basis" Wendland 1 rows5 _ _ _ w eq_refl ltac:(discriminate) ltac:(cbn; lra) S) by (cbn; lia).
  destruct (linalg_solve_sound _ _ _ S) as (L & V). rewrite M in V. unfold rows5 in L. cbn in L.
  destruct w as [|a [|b [|c [|d [|e [|]]]]]]; try discriminate L. cbn in V. injection V as V0 V1 V2 V3 V4.
  unfold rbf_sum, rows5. cbn [map List.length firstn skipn map2 dot app]. far. repeat (f_equal; try lra).
Qed.
Example reconstruct_vectorial :
  reconstruct_f rows5 [0; 4; 16; 36; 64] [[0; 1]; [2; 3]; [4; 5]; [6; 7]] [0; 0; 0; 0] "beckert_wendland_c2_basis" 1 = Ok [0; 4; 16; 36] /\
  reconstruct_f rows5 [1; 9; 25; 49; 81] [[0; 1]; [2; 3]; [4; 5]; [6; 7]] [0; 0; 0; 0] "beckert_wendland_c2_basis" 1 = Ok [1; 9; 25; 49].
Proof. split; apply vectorial. Qed.
