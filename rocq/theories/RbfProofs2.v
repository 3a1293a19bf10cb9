(** Further facts about the basis functions and about singular node sets. *)
From Coq Require Import Reals List String Lra Lia Psatz Permutation.
From Verif Require Import Base SolveModel SolveProofs RbfModel WendlandPD RbfProofs.
Import ListNotations.
Open Scope R_scope.

(** ** Shapes of the bases *)
Lemma wend_value : forall X r, 0 < r -> 0 <= X ->
  beckert_wendland_c2_basis X r = Ok (if Rlt_dec X r then (1 - X / r) ^ 4 * (4 * (X / r) + 1) else 0).
Proof.
  intros X r Hr HX. change (eval_basis Wendland X r = Ok (if Rlt_dec X r then (1 - X / r) ^ 4 * (4 * (X / r) + 1) else 0)).
  rewrite eval_basis_phi by (simpl; lra). f_equal. simpl.
  assert (E : X / r < 1 <-> X < r).
  { split; intro H.
    - apply (Rmult_lt_compat_r r) in H; auto. unfold Rdiv in H. rewrite Rmult_assoc, Rinv_l in H; lra.
    - apply (Rmult_lt_reg_r r); auto. unfold Rdiv. rewrite Rmult_assoc, Rinv_l; lra. }
  destruct (Rlt_dec 0 (1 - X / r)), (Rlt_dec X r); try ring.
  - exfalso. apply n. apply E. lra.
  - exfalso. apply n. apply E in r0. lra.
Qed.

Lemma wend_bounds : forall u, 0 <= u -> 0 <= wend u <= 1.
Proof.
  intros u Hu. unfold wend. destruct (Rlt_dec 0 (1 - u)); [|lra].
  split.
  - apply Rmult_le_pos; [apply pow_le; lra|lra].
  - (* (1-u)^4 (4u+1) <= 1 *)
    replace (1) with ((1 - u + u) ^ 5) at 3 by ring.
    assert (0 <= u ^ 2 * (10 * (1-u)^3 + 10 * (1-u)^2 * u + 5 * (1-u) * u^2 + u^3)).
    { apply Rmult_le_pos; [apply pow_le; lra|].
      assert (0 <= (1-u)^3) by (apply pow_le; lra). assert (0 <= (1-u)^2) by (apply pow_le; lra).
      assert (0 <= u^3) by (apply pow_le; lra). assert (0 <= u^2) by (apply pow_le; lra).
      assert (0 <= (1-u)^2*u) by (apply Rmult_le_pos; lra).
      assert (0 <= (1-u)*u^2) by (apply Rmult_le_pos; lra). lra. }
    replace ((1 - u + u) ^ 5) with ((1-u)^4 * (4*u+1) + u ^ 2 * (10 * (1-u)^3 + 10 * (1-u)^2 * u + 5 * (1-u) * u^2 + u^3)) by ring.
    lra.
Qed.

Lemma wend_decr : forall u v, 0 <= u <= v -> wend v <= wend u.
Proof.
  intros u v H. destruct (Rlt_dec v 1) as [Hv|Hv].
  - unfold wend. destruct (Rlt_dec 0 (1 - v)); [|lra]. destruct (Rlt_dec 0 (1 - u)); [|lra].
    set (a := 1 - v). set (d := v - u).
    replace (1 - u) with (a + d) by (unfold a, d; ring).
    replace (4 * u + 1) with (5 - 4 * (a + d)) by (unfold a, d; ring).
    replace (4 * v + 1) with (5 - 4 * a) by (unfold a; ring).
    assert (Ha : 0 < a <= 1) by (unfold a; lra). assert (Hd : 0 <= d) by (unfold d; lra).
    assert (Had : a + d <= 1) by (unfold a, d; lra).
    clearbody a d. clear - Ha Hd Had.
    (* g(t) = t^4 (5 - 4 t) is increasing on [0,1] *)
    set (b := a + d) in *. replace d with (b - a) in Hd by (unfold b; ring). clearbody b.
    assert (b ^ 4 * (5 - 4 * b) - a ^ 4 * (5 - 4 * a)
            = (b - a) * (5 * (b ^ 3 + b ^ 2 * a + b * a ^ 2 + a ^ 3)
                         - 4 * (b ^ 4 + b ^ 3 * a + b ^ 2 * a ^ 2 + b * a ^ 3 + a ^ 4))) by ring.
    assert (0 <= 5 * (b ^ 3 + b ^ 2 * a + b * a ^ 2 + a ^ 3)
                 - 4 * (b ^ 4 + b ^ 3 * a + b ^ 2 * a ^ 2 + b * a ^ 3 + a ^ 4)).
    { assert (0 <= b ^ 3) by (apply pow_le; lra).
      assert (0 <= b ^ 2 * a) by (apply Rmult_le_pos; [apply pow_le|]; lra).
      assert (0 <= b * a ^ 2) by (apply Rmult_le_pos; [|apply pow_le]; lra).
      assert (0 <= a ^ 3) by (apply pow_le; lra).
      assert (b ^ 4 <= b ^ 3) by (replace (b ^ 4) with (b * b ^ 3) by ring; nra).
      assert (b ^ 3 * a <= b ^ 2 * a) by (replace (b ^ 3 * a) with (b * (b ^ 2 * a)) by ring; nra).
      assert (b ^ 2 * a ^ 2 <= b * a ^ 2) by (replace (b ^ 2 * a ^ 2) with (b * (b * a ^ 2)) by ring; nra).
      assert (b * a ^ 3 <= a ^ 3) by nra.
      assert (a ^ 4 <= a ^ 3) by (replace (a ^ 4) with (a * a ^ 3) by ring; nra).
      assert (a ^ 3 <= b ^ 3) by (apply pow_incr; lra).
      assert (a ^ 3 <= b ^ 2 * a) by (replace (a ^ 3) with (a ^ 2 * a) by ring; apply Rmult_le_compat_r; [lra|apply pow_incr; lra]).
      assert (a ^ 3 <= b * a ^ 2) by (replace (a ^ 3) with (a * a ^ 2) by ring; apply Rmult_le_compat_r; [apply pow_le; lra|lra]).
      lra. }
    nra.
  - replace (wend v) with 0. apply wend_bounds; lra.
    unfold wend. destruct (Rlt_dec 0 (1 - v)); lra.
Qed.

Lemma wendland_shape : forall X Y r, 0 < r -> 0 <= X <= Y ->
  exists a b, beckert_wendland_c2_basis X r = Ok a /\ beckert_wendland_c2_basis Y r = Ok b /\
    0 <= b <= a /\ a <= 1 /\ (X = 0 -> a = 1) /\ (r <= X -> a = 0).
Proof.
  intros X Y r Hr H.
  exists (phi Wendland X r), (phi Wendland Y r).
  split; [apply (eval_basis_phi Wendland); simpl; lra|].
  split; [apply (eval_basis_phi Wendland); simpl; lra|].
  rewrite !phi_wend.
  assert (0 <= X / r) by (apply Rmult_le_pos; [lra|left; apply Rinv_0_lt_compat; auto]).
  assert (X / r <= Y / r) by (apply Rmult_le_compat_r; [left; apply Rinv_0_lt_compat; auto|lra]).
  pose proof (wend_bounds (X / r)). pose proof (wend_bounds (Y / r)). pose proof (wend_decr (X / r) (Y / r)).
  split; [split; lra|]. split; [lra|]. split.
  - intros ->. unfold Rdiv. rewrite Rmult_0_l. unfold wend. destruct (Rlt_dec 0 (1 - 0)); lra.
  - intros HX. assert (1 <= X / r).
    { apply (Rmult_le_reg_r r); auto. unfold Rdiv. rewrite Rmult_assoc, Rinv_l; lra. }
    unfold wend. destruct (Rlt_dec 0 (1 - X / r)); lra.
Qed.

Lemma gaussian_shape : forall X Y r, r <> 0 -> 0 <= X <= Y ->
  exists a b, gaussian_spline X r = Ok a /\ gaussian_spline Y r = Ok b /\
    0 < b <= a /\ a <= 1 /\ (X = 0 -> a = 1) /\ (X < Y -> b < a).
Proof.
  intros X Y r Hr H. pose proof (sqr_pos r Hr) as Hrr.
  assert (Hi : 0 < / (r * r)) by (apply Rinv_0_lt_compat; auto).
  exists (phi Gaussian X r), (phi Gaussian Y r).
  split; [apply (eval_basis_phi Gaussian); simpl; auto|].
  split; [apply (eval_basis_phi Gaussian); simpl; auto|]. simpl. unfold Rdiv.
  assert (Hle : - (Y * Y) * / (r * r) <= - (X * X) * / (r * r)) by (apply Rmult_le_compat_r; nra).
  assert (H0 : - (X * X) * / (r * r) <= 0) by nra.
  split; [split; [apply exp_pos|]|split; [|split]].
  - destruct Hle as [Hl|He]; [left; apply exp_increasing; auto|rewrite He; right; auto].
  - rewrite <- exp_0. destruct H0 as [Hl|He]; [left; apply exp_increasing; auto|rewrite He; right; auto].
  - intros ->. rewrite <- exp_0. f_equal. ring.
  - intros HXY. apply exp_increasing. apply Rmult_lt_compat_r; nra.
Qed.

Lemma multiquadric_shape : forall X r, r <> 0 ->
  exists a b, multi_quadratic_biharmonic_spline X r = Ok a /\
    inv_multi_quadratic_biharmonic_spline X r = Ok b /\
    a * a = X * X + r * r /\ Rabs r <= a /\ a * b = 1.
Proof.
  intros X r Hr. pose proof (sqr_pos r Hr).
  exists (phi MultiQuadratic X r), (phi InvMultiQuadratic X r).
  split; [apply (eval_basis_phi MultiQuadratic); simpl; auto|].
  split; [apply (eval_basis_phi InvMultiQuadratic); simpl; auto|]. simpl.
  assert (0 < sqrt (X * X + r * r)) by (apply sqrt_lt_R0; nra).
  split; [apply sqrt_sqrt; nra|]. split.
  - rewrite <- sqrt_Rsqr_abs. apply sqrt_le_1_alt. unfold Rsqr. nra.
  - field. lra.
Qed.

Lemma thin_plate_shape : forall r, 0 < r ->
  thin_plate_spline 0 r = Ok 0 /\ thin_plate_spline r r = Ok 0 /\
  (forall X, 0 < X < r -> exists a, thin_plate_spline X r = Ok a /\ a < 0) /\
  (forall X, r < X -> exists a, thin_plate_spline X r = Ok a /\ 0 < a).
Proof.
  intros r Hr.
  assert (V : forall X, thin_plate_spline X r = Ok (phi ThinPlate X r))
    by (intros; apply (eval_basis_phi ThinPlate); simpl; lra).
  assert (D : forall X, 0 < X -> 0 < X / r) by (intros; apply Rdiv_lt_0_compat; auto).
  repeat split.
  - rewrite V. f_equal. simpl. destruct (Rlt_dec 0 (0 / r)). unfold Rdiv in *; lra. unfold Rdiv; ring.
  - rewrite V. f_equal. simpl. replace (r / r) with 1 by (field; lra). rewrite ln_1.
    destruct (Rlt_dec 0 1); lra.
  - intros X HX. rewrite V. eexists; split; [reflexivity|]. simpl.
    destruct (Rlt_dec 0 (X / r)) as [Hp|]; [|pose proof (D X); lra].
    assert (X / r < 1) by (apply (Rmult_lt_reg_r r); auto; unfold Rdiv; rewrite Rmult_assoc, Rinv_l; lra).
    assert (ln (X / r) < 0) by (rewrite <- ln_1; apply ln_increasing; auto).
    assert (0 < X / r * (X / r)) by (apply Rmult_lt_0_compat; auto). nra.
  - intros X HX. rewrite V. eexists; split; [reflexivity|]. simpl.
    destruct (Rlt_dec 0 (X / r)) as [Hp|]; [|pose proof (D X); lra].
    assert (1 < X / r) by (apply (Rmult_lt_reg_r r); auto; unfold Rdiv; rewrite Rmult_assoc, Rinv_l; lra).
    assert (0 < ln (X / r)) by (rewrite <- ln_1; apply ln_increasing; lra).
    assert (0 < X / r * (X / r)) by (apply Rmult_lt_0_compat; auto). nra.
Qed.

Lemma basis_names : forall s, (exists b, basis_of_name s = Ok b) <->
  In s ["gaussian_spline"; "multi_quadratic_biharmonic_spline"; "inv_multi_quadratic_biharmonic_spline";
        "thin_plate_spline"; "beckert_wendland_c2_basis"]%string.
Proof.
  intros s. unfold basis_of_name. split.
  - intros [b H].
    repeat match type of H with context [String.eqb s ?t] =>
      destruct (String.eqb_spec s t); [subst; simpl; tauto|] end. discriminate.
  - simpl. intros [<-|[<-|[<-|[<-|[<-|[]]]]]]; simpl; eauto.
Qed.

Lemma unknown_basis : forall s X y Q out r, (forall b, basis_of_name s <> Ok b) ->
  reconstruct_f X y Q out s r = Err NameError.
Proof.
  intros s X y Q out r H. unfold reconstruct_f.
  destruct (basis_of_name s) as [b|e] eqn:E; [exfalso; apply (H b); auto|].
  simpl. unfold basis_of_name in E.
  repeat match type of E with context [String.eqb s ?t] => destruct (String.eqb s t); [discriminate|] end.
  congruence.
Qed.

(** ** Thin plate: singular configurations *)
Lemma thin_plate_vals : forall r, 0 < r -> phi ThinPlate 0 r = 0 /\ phi ThinPlate r r = 0.
Proof.
  intros r Hr. destruct (thin_plate_shape r Hr) as [E0 [E1 _]].
  change (eval_basis ThinPlate 0 r = Ok 0) in E0.
  change (eval_basis ThinPlate r r = Ok 0) in E1.
  rewrite eval_basis_phi in E0, E1 by (simpl; lra). split; congruence.
Qed.

Lemma phi_thin_zero : forall r, phi ThinPlate 0 r = 0.
Proof.
  intros r. unfold phi, Rdiv. rewrite Rmult_0_l. destruct (Rlt_dec 0 0); ring.
Qed.

Lemma thin_plate_one : forall x y Q out r, r <> 0 ->
  reconstruct_1d [x] [y] Q out "thin_plate_spline" r = Err LinAlgError.
Proof.
  intros x y Q out r Hr. unfold reconstruct_1d.
  apply (reconstruct_err_solve _ _ _ _ ThinPlate); [reflexivity|exact Hr|].
  unfold column. cbn [map]. rewrite cdist_refl, phi_thin_zero.
  unfold linalg_solve. simpl. unfold lead; simpl. destruct (Req_EM_T 0 0); [auto|congruence].
Qed.

Lemma thin_plate_two : forall x1 x2 y1 y2 Q out r, 0 < r -> Rabs (x1 - x2) = r ->
  reconstruct_1d [x1; x2] [y1; y2] Q out "thin_plate_spline" r = Err LinAlgError.
Proof.
  intros x1 x2 y1 y2 Q out r Hr Hx. unfold reconstruct_1d.
  apply (reconstruct_err_solve _ _ _ _ ThinPlate); [reflexivity|simpl; lra|].
  unfold column. cbn [map]. rewrite !cdist_1d, (Rabs_minus_sym x2 x1), Hx.
  rewrite !Rminus_diag_eq, Rabs_R0 by auto.
  destruct (thin_plate_vals r Hr) as [E0 E1]. rewrite E0, E1.
  unfold linalg_solve. simpl. unfold lead; simpl.
  destruct (Rlt_dec (Rabs 0) (Rabs 0)); [lra|]. simpl.
  destruct (Req_EM_T 0 0); [auto|congruence].
Qed.

(** Too short an output array. *)
Lemma short_output : forall name r X y Q out o out',
  X <> [] -> reconstruct_f X y Q out name r = Ok o -> (List.length out' < List.length Q)%nat ->
  reconstruct_f X y Q out' name r = Err IndexError.
Proof.
  intros name r X y Q out o out' NX H L.
  destruct (reconstruct_shape _ _ _ _ _ _ _ H) as [b [Eb [[EX _]|[_ [F [LQ [w [Ew _]]]]]]]]; [congruence|].
  unfold reconstruct_f. rewrite Eb. simpl bind. rewrite weights_matrix_ok by auto. simpl bind.
  rewrite Ew. simpl bind. rewrite weights_matrix_ok by auto. simpl bind. destruct X; [congruence|].
  apply accumulate_short. rewrite map_length. auto.
Qed.

(** ** Invariance under reordering the nodes *)
Lemma sumf_perm : forall {A} (f : A -> R) l1 l2, Permutation l1 l2 -> sumf f l1 = sumf f l2.
Proof.
  intros A f l1 l2 P. induction P; simpl.
  - auto.
  - rewrite IHP. auto.
  - ring.
  - congruence.
Qed.

Lemma dot_map_pairs : forall (f : list R -> R) (X : list (list R)) w, List.length w = List.length X ->
  dot w (map f X) = sumf (fun p => snd p * f (fst p)) (combine X w).
Proof. induction X; destruct w; simpl; intros H; auto; try discriminate. rewrite IHX by lia. auto. Qed.

Lemma combine_split_eq : forall (A B : Type) (l : list (A * B)), combine (map fst l) (map snd l) = l.
Proof. induction l as [|[a b] l IH]; simpl; auto. f_equal; auto. Qed.

(** Given data as (node, value) pairs. *)
Lemma reconstruct_perm : forall name r D1 D2 Q out,
  Permutation D1 D2 ->
  reconstruct_f (map fst D1) (map snd D1) Q (zeros (List.length Q)) name r = Ok out ->
  reconstruct_f (map fst D2) (map snd D2) Q (zeros (List.length Q)) name r = Ok out.
Proof.
  intros name r D1 D2 Q out P H.
  destruct (reconstruct_shape _ _ _ _ _ _ _ H) as [b [Eb [[EX [Ey Eo]]|[NX [F [L [w [Ew [Hy Ho]]]]]]]]].
  - apply map_eq_nil in EX. subst D1. apply Permutation_nil in P. subst. exact H.
  - destruct (linalg_solve_sound _ _ _ Ew) as [Lw Hw].
    rewrite map_length, map_length in Lw.
    (* carry the weights along the permutation *)
    assert (E : exists w2, List.length w2 = List.length D2 /\
      Permutation (combine D1 w) (combine D2 w2)).
    { destruct (Permutation_map_inv fst (combine D1 w) (l1 := D2)) as [l [E1 E2]].
      - replace (map fst (combine D1 w)) with D1; [apply Permutation_sym; auto|].
        clear - Lw. revert w Lw. induction D1; destruct w; simpl; intros; try discriminate; auto. f_equal; auto.
      - exists (map snd l). split. rewrite E1, !map_length. auto.
        rewrite E1, combine_split_eq. auto. }
    destruct E as [w2 [L2 P2]].
    assert (S : forall q, rbf_sum b r (map fst D1) w q = rbf_sum b r (map fst D2) w2 q).
    { intros q. unfold rbf_sum. rewrite !dot_map_pairs by (rewrite map_length; auto).
      assert (G : forall (D : list (list R * R)) v, List.length v = List.length D ->
        sumf (fun p => snd p * phi b (cdist q (fst p)) r) (combine (map fst D) v)
        = sumf (fun p => snd p * phi b (cdist q (fst (fst p))) r) (combine D v)).
      { clear. induction D; destruct v; simpl; intros; try discriminate; auto. rewrite IHD by lia. auto. }
      rewrite !G by auto. apply sumf_perm; auto. }
    assert (Hs2 : map (rbf_sum b r (map fst D2) w2) (map fst D2) = map snd D2).
    { rewrite (map_ext _ _ (fun q => eq_sym (S q))).
      rewrite map_map in *. 
      assert (A : forall d, In d D1 -> rbf_sum b r (map fst D1) w (fst d) = snd d).
      { clear - Hy. set (g := rbf_sum b r (map fst D1) w) in *. clearbody g.
        induction D1; simpl in *; intros d Hd; [tauto|]. inversion Hy. destruct Hd as [<-|Hd]; auto. }
      apply map_ext_in. intros d Hd. apply A. apply Permutation_in with D2; auto. apply Permutation_sym; auto. }
    set (A2 := map (fun x => map (fun y => phi b (cdist x y) r) (map fst D2)) (map fst D2)).
    assert (NX2 : map fst D2 <> []).
    { intro K. apply map_eq_nil in K. subst. apply Permutation_sym, Permutation_nil in P. subst. apply NX; auto. }
    assert (Inj1 := proj1 (linalg_solve_ok_iff _ _ (square_weights b r (map fst D1))
       (proj2 (linalg_solve_shape _ _ _ Ew))) (ex_intro _ _ Ew)).
    assert (Ew2 : linalg_solve A2 (map snd D2) = Ok w2).
    { assert (SA2 : square A2) by apply square_weights.
      assert (LA2 : List.length (map snd D2) = List.length A2) by (unfold A2; rewrite !map_length; auto).
      destruct (linalg_solve A2 (map snd D2)) as [w3|e] eqn:E3.
      - f_equal. symmetry. apply (linalg_solve_unique _ _ _ w2 E3).
        unfold A2; rewrite !map_length; auto.
        unfold A2. rewrite matvec_rbf. auto.
      - exfalso. destruct (linalg_solve_err _ _ _ SA2 LA2 E3) as [_ [v [Lv [Nv Hv]]]].
        unfold A2 in Lv, Nv, Hv. rewrite !map_length in *. rewrite matvec_rbf in Hv.
        (* transport the kernel vector back *)
        destruct (Permutation_map_inv fst (combine D2 v) (l1 := D1)) as [l [E1 E2]].
        { replace (map fst (combine D2 v)) with D2; auto.
          clear - Lv. revert v Lv. induction D2; destruct v; simpl; intros; try discriminate; auto. f_equal; auto. }
        assert (Ll : List.length (map snd l) = List.length D1) by (rewrite E1, !map_length; auto).
        assert (S2 : forall q, rbf_sum b r (map fst D2) v q = rbf_sum b r (map fst D1) (map snd l) q).
        { intros q. unfold rbf_sum. rewrite !dot_map_pairs by (rewrite ?map_length in *; auto).
          assert (G : forall (D : list (list R * R)) v, List.length v = List.length D ->
            sumf (fun p => snd p * phi b (cdist q (fst p)) r) (combine (map fst D) v)
            = sumf (fun p => snd p * phi b (cdist q (fst (fst p))) r) (combine D v)).
          { clear. induction D; destruct v; simpl; intros; try discriminate; auto. rewrite IHD by lia. auto. }
          rewrite !G by auto. apply sumf_perm. rewrite E1 at 1. rewrite combine_split_eq. auto. }
        assert (Z : map snd l = zeros (List.length D1)).
        { specialize (Inj1 (map snd l)). rewrite !map_length in Inj1.
          rewrite map_length in Ll. apply Inj1; auto.
          rewrite matvec_rbf.
          assert (Zq : forall d, In d D2 -> rbf_sum b r (map fst D2) v (fst d) = 0).
          { intros d Hd. assert (In (rbf_sum b r (map fst D2) v (fst d)) (zeros (List.length D2))).
            { rewrite <- Hv. apply in_map. apply in_map. auto. }
            apply repeat_spec in H0. auto. }
          rewrite map_map. rewrite (map_ext_in _ (fun _ => 0)).
          - clear. induction D1; simpl; auto. unfold zeros in *; simpl. f_equal; auto.
          - intros d Hd. rewrite <- S2. apply Zq. apply Permutation_in with D1; auto. }
        apply Nv.
        assert (Pv : Permutation v (map snd l)).
        { replace v with (map snd (combine D2 v)) at 1. apply Permutation_map; auto.
          clear - Lv. revert v Lv. induction D2; destruct v; simpl; intros; try discriminate; auto. f_equal; auto. }
        rewrite Z in Pv.
        assert (AllZ : forall z, In z v -> z = 0).
        { intros z Hz. apply (Permutation_in _ Pv) in Hz. apply repeat_spec in Hz. auto. }
        clear - Lv AllZ. revert v Lv AllZ. induction D2; destruct v; simpl; intros; try discriminate; auto.
        unfold zeros; simpl. f_equal. auto. apply IHD2; auto. }
    rewrite (reconstruct_intro name b r (map fst D2) (map snd D2) Q _ w2 Eb NX2 F Ew2 L).
    f_equal. rewrite Ho. f_equal. f_equal. apply map_ext. intros q. symmetry. apply S.
Qed.

(** ** Packaged statements used by PropRbf.v *)
Lemma wendland_matrix_bound : forall r xs A w gap, 0 < r -> NoDup xs ->
  (forall x y, In x xs -> In y xs -> x <> y -> gap <= Rabs (x - y)) -> 0 < gap <= r ->
  weights_matrix Wendland r (column xs) (column xs) = Ok A ->
  List.length w = List.length xs ->
  (gap / r) ^ 4 * dot w w <= dot w (matvec A w).
Proof.
  intros r xs A w gap Hr ND G Hg HA L.
  rewrite weights_matrix_ok in HA by (simpl; lra). injection HA as <-.
  assert (0 < gap / r) by (apply Rdiv_lt_0_compat; lra).
  assert (gap / r <= 1) by (apply (Rmult_le_reg_r r); auto; unfold Rdiv; rewrite Rmult_assoc, Rinv_l; lra).
  apply wendland_matrix_pd; auto; try lra.
  intros x y Hx Hy N. replace (gap / r * r) with gap by (field; lra). auto.
Qed.

Lemma wendland_matrix_symmetric : forall r xs A i j, 0 < r ->
  weights_matrix Wendland r (column xs) (column xs) = Ok A ->
  (i < List.length xs)%nat -> (j < List.length xs)%nat ->
  exists a, item A i = Ok (nth i A []) /\ item (nth i A []) j = Ok a /\ item (nth j A []) i = Ok a.
Proof.
  intros r xs A i j Hr HA Hi Hj.
  rewrite weights_matrix_ok in HA by (simpl; lra). injection HA as <-.
  set (g := fun x => map (fun y => phi Wendland (cdist x y) r) (column xs)).
  assert (Lc : List.length (column xs) = List.length xs) by apply column_length.
  assert (N : forall k, (k < List.length xs)%nat -> nth k (map g (column xs)) [] = g (nth k (column xs) [])).
  { intros k Hk. rewrite (nth_indep _ _ (g [])) by (rewrite map_length; lia). apply map_nth. }
  assert (I : forall k (l : list R), (k < List.length xs)%nat ->
    item (g l) k = Ok (phi Wendland (cdist l (nth k (column xs) [])) r)).
  { intros k l Hk. unfold item, g. rewrite (nth_error_nth' _ (phi Wendland (cdist l []) r)) by (rewrite map_length; lia).
    f_equal. apply (map_nth (fun y => phi Wendland (cdist l y) r)). }
  exists (phi Wendland (cdist (nth i (column xs) []) (nth j (column xs) [])) r).
  rewrite !N by auto. split; [|split].
  - unfold item. rewrite (nth_error_nth' _ []) by (rewrite map_length; lia). rewrite N by auto. auto.
  - apply I; auto.
  - rewrite I by auto. rewrite cdist_sym. auto.
Qed.

(** Values of the reconstruction at the nodes, written as an observable: any
    evaluation set that contains a node gets that node's datum there. *)
Lemma reconstruct_node_value : forall name r X y Q o i j x d,
  reconstruct_f X y Q (zeros (List.length Q)) name r = Ok o ->
  nth_error X i = Some x -> nth_error y i = Some d -> nth_error Q j = Some x ->
  nth_error o j = Some d.
Proof.
  intros name r X y Q o i j x d H Hx Hd Hq.
  destruct (reconstruct_interpolant name r X y) as [s [Hs HQ]]; [eauto|].
  rewrite HQ in H by apply repeat_length. injection H as <-.
  replace (List.length Q) with (List.length (map s Q)) by apply map_length.
  rewrite map2_zeros_l. rewrite (map_nth_error s _ _ Hq).
  rewrite <- Hs in Hd. rewrite (map_nth_error s _ _ Hx) in Hd. auto.
Qed.
