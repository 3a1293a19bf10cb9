(** Properties C22 - C26: radial basis functions and their interpolation. *)
From Coq Require Import Reals List String Permutation Lra.
From Verif Require Import Base RbfModel RbfProofs RbfProofs2 WendlandProofs.
Import ListNotations.
Open Scope R_scope.

(** ** C22 *)
Theorem C22_wendland_shape : forall X Y r, 0 < r -> 0 <= X <= Y ->
  exists a b, beckert_wendland_c2_basis X r = Ok a /\ beckert_wendland_c2_basis Y r = Ok b /\
    0 <= b <= a /\ a <= 1 /\ (X = 0 -> a = 1) /\ (r <= X -> a = 0).
Proof. exact wendland_shape. Qed.
Print Assumptions C22_wendland_shape.

Theorem C22_wendland_value : forall X r, 0 < r -> 0 <= X ->
  beckert_wendland_c2_basis X r = Ok (if Rlt_dec X r then (1 - X / r) ^ 4 * (4 * (X / r) + 1) else 0).
Proof. exact wend_value. Qed.
Print Assumptions C22_wendland_value.

Theorem C22_gaussian_shape : forall X Y r, r <> 0 -> 0 <= X <= Y ->
  exists a b, gaussian_spline X r = Ok a /\ gaussian_spline Y r = Ok b /\
    0 < b <= a /\ a <= 1 /\ (X = 0 -> a = 1) /\ (X < Y -> b < a).
Proof. exact gaussian_shape. Qed.
Print Assumptions C22_gaussian_shape.

Theorem C22_multiquadric_reciprocal : forall X r, r <> 0 ->
  exists a b, multi_quadratic_biharmonic_spline X r = Ok a /\
    inv_multi_quadratic_biharmonic_spline X r = Ok b /\
    a * a = X * X + r * r /\ Rabs r <= a /\ a * b = 1.
Proof. exact multiquadric_shape. Qed.
Print Assumptions C22_multiquadric_reciprocal.

Theorem C22_thin_plate_shape : forall r, 0 < r ->
  thin_plate_spline 0 r = Ok 0 /\ thin_plate_spline r r = Ok 0 /\
  (forall X, 0 < X < r -> exists a, thin_plate_spline X r = Ok a /\ a < 0) /\
  (forall X, r < X -> exists a, thin_plate_spline X r = Ok a /\ 0 < a).
Proof. exact thin_plate_shape. Qed.
Print Assumptions C22_thin_plate_shape.

Theorem C22_basis_names : forall s, (exists b, basis_of_name s = Ok b) <->
  In s ["gaussian_spline"; "multi_quadratic_biharmonic_spline"; "inv_multi_quadratic_biharmonic_spline";
        "thin_plate_spline"; "beckert_wendland_c2_basis"]%string.
Proof. exact basis_names. Qed.
Print Assumptions C22_basis_names.

Theorem C22_unknown_basis : forall s X y Q out r, (forall b, basis_of_name s <> Ok b) ->
  reconstruct_f X y Q out s r = Err NameError.
Proof. exact unknown_basis. Qed.
Print Assumptions C22_unknown_basis.

Example C22_example : beckert_wendland_c2_basis (1/2) 1 = Ok (3/16) /\
  (forall b, basis_of_name "cubic" <> Ok b).
Proof.
  split.
  - rewrite wend_value by lra. destruct (Rlt_dec (1/2) 1); [|lra]. f_equal. lra.
  - intros b. discriminate.
Qed.

(** ** C23 *)
Theorem C23_exact_at_nodes : forall name r X y out,
  reconstruct_f X y X (zeros (List.length X)) name r = Ok out -> out = y.
Proof. exact reconstruct_exact. Qed.
Print Assumptions C23_exact_at_nodes.

Theorem C23_single_interpolant : forall name r X y,
  (exists Q0 o0 o, reconstruct_f X y Q0 o0 name r = Ok o) ->
  exists s : list R -> R, map s X = y /\
    forall Q out0, List.length out0 = List.length Q ->
      reconstruct_f X y Q out0 name r = Ok (map2 Rplus out0 (map s Q)).
Proof. exact reconstruct_interpolant. Qed.
Print Assumptions C23_single_interpolant.

Theorem C23_node_in_any_evaluation_set : forall name r X y Q o i j x d,
  reconstruct_f X y Q (zeros (List.length Q)) name r = Ok o ->
  nth_error X i = Some x -> nth_error y i = Some d -> nth_error Q j = Some x ->
  nth_error o j = Some d.
Proof. exact reconstruct_node_value. Qed.
Print Assumptions C23_node_in_any_evaluation_set.

(** Hypotheses are met by any Wendland call on distinct nodes. *)
Example C23_example :
  exists o, reconstruct_1d [0; 1; 3] [5; -2; 7] [0; 1; 2; 3] (zeros 4) "beckert_wendland_c2_basis" 2 = Ok o
            /\ nth_error o 3 = Some 7.
Proof.
  destruct (proj2 (proj1 (wendland_iff 2 [0;1;3] [5;-2;7] [0;1;2;3] (zeros 4)
     ltac:(lra) eq_refl eq_refl))) as [o Ho].
  { repeat constructor; simpl; intuition lra. }
  exists o. split; [exact Ho|].
  apply (reconstruct_node_value "beckert_wendland_c2_basis" 2 (column [0;1;3]) [5;-2;7] (column [0;1;2;3]) o 2 3 [3] 7); auto.
Qed.

(** ** C24 *)
Theorem C24_wendland_well_posed : forall r xs y xx out, 0 < r -> List.length y = List.length xs ->
  List.length out = List.length xx ->
  ((exists o, reconstruct_1d xs y xx out "beckert_wendland_c2_basis" r = Ok o) <-> NoDup xs) /\
  (~ NoDup xs -> reconstruct_1d xs y xx out "beckert_wendland_c2_basis" r = Err LinAlgError).
Proof. exact wendland_iff. Qed.
Print Assumptions C24_wendland_well_posed.

Theorem C24_wendland_eigenvalue_bound : forall r xs A w gap, 0 < r -> NoDup xs ->
  (forall x y, In x xs -> In y xs -> x <> y -> gap <= Rabs (x - y)) -> 0 < gap <= r ->
  weights_matrix Wendland r (column xs) (column xs) = Ok A ->
  List.length w = List.length xs ->
  (gap / r) ^ 4 * dot w w <= dot w (matvec A w).
Proof. exact wendland_matrix_bound. Qed.
Print Assumptions C24_wendland_eigenvalue_bound.

Theorem C24_wendland_matrix_symmetric : forall r xs A i j, 0 < r ->
  weights_matrix Wendland r (column xs) (column xs) = Ok A ->
  (i < List.length xs)%nat -> (j < List.length xs)%nat ->
  exists a, item A i = Ok (nth i A []) /\ item (nth i A []) j = Ok a /\ item (nth j A []) i = Ok a.
Proof. exact wendland_matrix_symmetric. Qed.
Print Assumptions C24_wendland_matrix_symmetric.

Example C24_example : NoDup [0; 1; 3] /\ 0 < 1 <= 2 /\
  (forall x y, In x [0; 1; 3] -> In y [0; 1; 3] -> x <> y -> 1 <= Rabs (x - y)) /\
  ~ NoDup [0; 1; 0].
Proof.
  split; [repeat constructor; simpl; intuition lra|]. split; [lra|]. split.
  - intros x y Hx Hy N. simpl in Hx, Hy.
    destruct Hx as [<-|[<-|[<-|[]]]], Hy as [<-|[<-|[<-|[]]]]; unfold Rabs; destruct (Rcase_abs _); lra.
  - intros H. inversion H as [|a b Ha Hb]. apply Ha. simpl. auto.
Qed.

(** In 1296 dimensions distinct points are not enough. *)
Theorem C24_any_dimension_refuted : exists X r, NoDup X /\ Forall (fun x => List.length x = (36 * 36)%nat) X /\ 0 < r /\
  forall y Q out, List.length y = List.length X ->
    reconstruct_f X y Q out "beckert_wendland_c2_basis" r = Err LinAlgError.
Proof. exact many_dimensions. Qed.
Print Assumptions C24_any_dimension_refuted.

(** ** C25 *)
Theorem C25_linear : forall name r X y1 y2 k1 k2 Q o1 o2,
  reconstruct_f X y1 Q (zeros (List.length Q)) name r = Ok o1 ->
  reconstruct_f X y2 Q (zeros (List.length Q)) name r = Ok o2 ->
  reconstruct_f X (map2 Rplus (vscale k1 y1) (vscale k2 y2)) Q (zeros (List.length Q)) name r
    = Ok (map2 Rplus (vscale k1 o1) (vscale k2 o2)).
Proof. exact reconstruct_linear. Qed.
Print Assumptions C25_linear.

Theorem C25_accumulates : forall name r X y Q out0 out1,
  List.length out0 = List.length Q ->
  reconstruct_f X y Q out0 name r = Ok out1 ->
  exists v, reconstruct_f X y Q (zeros (List.length Q)) name r = Ok v /\
   out1 = map2 Rplus out0 v /\
   reconstruct_f X y Q out1 name r = Ok (map2 Rplus out1 v).
Proof. exact reconstruct_twice. Qed.
Print Assumptions C25_accumulates.

Theorem C25_node_order_irrelevant : forall name r D1 D2 Q out,
  Permutation D1 D2 ->
  reconstruct_f (map fst D1) (map snd D1) Q (zeros (List.length Q)) name r = Ok out ->
  reconstruct_f (map fst D2) (map snd D2) Q (zeros (List.length Q)) name r = Ok out.
Proof. exact reconstruct_perm. Qed.
Print Assumptions C25_node_order_irrelevant.

Theorem C25_short_output : forall name r X y Q out o out',
  X <> [] -> reconstruct_f X y Q out name r = Ok o -> (List.length out' < List.length Q)%nat ->
  reconstruct_f X y Q out' name r = Err IndexError.
Proof. exact short_output. Qed.
Print Assumptions C25_short_output.

(** Two Wendland calls on the same distinct nodes meet the hypotheses. *)
Example C25_example : exists o1 o2,
  reconstruct_1d [0; 1] [1; 0] [0; 2] (zeros 2) "beckert_wendland_c2_basis" 1 = Ok o1 /\
  reconstruct_1d [0; 1] [4; 5] [0; 2] (zeros 2) "beckert_wendland_c2_basis" 1 = Ok o2 /\ o1 <> o2.
Proof.
  assert (ND : NoDup [0; 1]) by (repeat constructor; simpl; intuition lra).
  destruct (proj2 (proj1 (wendland_iff 1 [0;1] [1;0] [0;2] (zeros 2) ltac:(lra) eq_refl eq_refl)) ND) as [o1 H1].
  destruct (proj2 (proj1 (wendland_iff 1 [0;1] [4;5] [0;2] (zeros 2) ltac:(lra) eq_refl eq_refl)) ND) as [o2 H2].
  exists o1, o2. split; [auto|split; [auto|]]. intros E. subst o2.
  pose proof (reconstruct_node_value "beckert_wendland_c2_basis" 1 (column [0;1]) [1;0] (column [0;2]) o1 0 0 [0] 1 H1 eq_refl eq_refl eq_refl).
  pose proof (reconstruct_node_value "beckert_wendland_c2_basis" 1 (column [0;1]) [4;5] (column [0;2]) o1 0 0 [0] 4 H2 eq_refl eq_refl eq_refl).
  rewrite H in H0. injection H0. lra.
Qed.

(** ** C26 *)
Theorem C26_thin_plate_single_node : forall x y Q out r, r <> 0 ->
  reconstruct_1d [x] [y] Q out "thin_plate_spline" r = Err LinAlgError.
Proof. exact thin_plate_one. Qed.
Print Assumptions C26_thin_plate_single_node.

Theorem C26_thin_plate_nodes_at_radius : forall x1 x2 y1 y2 Q out r, 0 < r -> Rabs (x1 - x2) = r ->
  reconstruct_1d [x1; x2] [y1; y2] Q out "thin_plate_spline" r = Err LinAlgError.
Proof. exact thin_plate_two. Qed.
Print Assumptions C26_thin_plate_nodes_at_radius.

Example C26_example : 0 < 2 /\ Rabs (1 - 3) = 2.
Proof. split; [lra|]. unfold Rabs. destruct (Rcase_abs _); lra. Qed.
