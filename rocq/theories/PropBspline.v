(** Properties C27 - C29, C69 and C106: scipy_bspline. *)
From Coq Require Import Reals List ZArith Lra Lia.
From Verif Require Import Base BsplineModel BsplineSpec BsplineProofs BsplineProofs2 BsplineProofs3 BsplineProofs4.
Import ListNotations.
Open Scope R_scope.

(** ** C27 *)
Theorem C27_end_control_points : forall cv npoints degree s, bspline1 cv npoints degree = Ok s ->
  List.length s = Z.to_nat npoints /\ nth 0 s 0 = nth 0 cv 0 /\
  ((2 <= npoints)%Z -> last s 0 = last cv 0).
Proof. exact bspline1_ends. Qed.
Print Assumptions C27_end_control_points.

Theorem C27_planar_end_control_points : forall cv npoints degree, fits (List.length cv) npoints degree ->
  exists s, bspline2 cv npoints degree = Ok s /\ List.length s = Z.to_nat npoints /\
    nth 0 s (0, 0) = nth 0 cv (0, 0) /\ ((2 <= npoints)%Z -> last s (0, 0) = last cv (0, 0)).
Proof. exact bspline2_ends. Qed.
Print Assumptions C27_planar_end_control_points.

Theorem C27_negative_sizes : forall cv npoints degree,
  ((npoints < 0)%Z -> bspline1 cv npoints degree = Err ValueError) /\ ((degree < 0)%Z -> bspline1 cv npoints degree = Err ValueError).
Proof. exact bspline1_errors. Qed.
Print Assumptions C27_negative_sizes.

Example C27_example : exists s, bspline2 [(0, 1); (1, 3); (2, -1); (5, 2); (6, 7)] 30 3 = Ok s /\
  nth 0 s (0, 0) = (0, 1) /\ last s (0, 0) = (6, 7).
Proof.
  destruct (C27_planar_end_control_points [(0, 1); (1, 3); (2, -1); (5, 2); (6, 7)] 30 3) as (s & E & _ & F & L).
  - unfold fits. simpl. lia.
  - exists s. split; auto. split; [exact F|]. apply L. lia.
Qed.

(** ** C28 *)
Theorem C28_convex_weights : forall c npoints degree, fits c npoints degree ->
  exists W : nat -> nat -> R, (forall i j, (i < Z.to_nat npoints)%nat -> 0 <= W i j) /\
    (forall i, (i < Z.to_nat npoints)%nat -> sumn c (W i) = 1) /\
    forall cv, List.length cv = c -> bspline1 cv npoints degree =
      Ok (map (fun i => sumn c (fun j => nth j cv 0 * W i j)) (seq 0 (Z.to_nat npoints))).
Proof. exact bspline1_weights. Qed.
Print Assumptions C28_convex_weights.

Theorem C28_bounds : forall cv npoints degree s lo hi, bspline1 cv npoints degree = Ok s ->
  (forall v, In v cv -> lo <= v <= hi) -> forall v, In v s -> lo <= v <= hi.
Proof. exact bspline1_hull. Qed.
Print Assumptions C28_bounds.

Theorem C28_affine_maps_commute : forall cv npoints degree s a b e c d f, bspline2 cv npoints degree = Ok s ->
  bspline2 (map (affine a b e c d f) cv) npoints degree = Ok (map (affine a b e c d f) s).
Proof. exact bspline2_affine. Qed.
Print Assumptions C28_affine_maps_commute.

Theorem C28_straight_lines : forall cv npoints degree s a b c, bspline2 cv npoints degree = Ok s ->
  (forall p, In p cv -> a * fst p + b * snd p = c) -> forall p, In p s -> a * fst p + b * snd p = c.
Proof. exact bspline2_line. Qed.
Print Assumptions C28_straight_lines.

Example C28_example : exists s, bspline1 [0; 4; -1; 2] 100 3 = Ok s /\ forall v, In v s -> -1 <= v <= 4.
Proof.
  eexists. split; [apply bspline1_ok; unfold fits; simpl; lia|].
  apply (C28_bounds [0; 4; -1; 2] 100 3); [apply bspline1_ok; unfold fits; simpl; lia|].
  simpl. intros v H. repeat destruct H as [<-|H]; try lra; contradiction.
Qed.

(** ** C29 *)
Theorem C29_linear : forall u v a b npoints degree s1 s2, List.length u = List.length v ->
  bspline1 u npoints degree = Ok s1 -> bspline1 v npoints degree = Ok s2 ->
  bspline1 (map2 (fun p q => a * p + b * q) u v) npoints degree = Ok (map2 (fun p q => a * p + b * q) s1 s2).
Proof. exact bspline1_linear. Qed.
Print Assumptions C29_linear.

Theorem C29_design_matrix : forall cv npoints degree s, bspline1 cv npoints degree = Ok s ->
  let c := List.length cv in
  exists cols, mapM (fun j => bspline1 (unit_vec c j) npoints degree) (seq 0 c) = Ok cols /\
    forall i, (i < Z.to_nat npoints)%nat -> nth i s 0 = sumn c (fun j => nth j cv 0 * nth i (nth j cols []) 0).
Proof. exact design_matrix. Qed.
Print Assumptions C29_design_matrix.

Example C29_example : exists s, bspline1 [2; 3; 5] 7 2 = Ok s /\ exists cols,
  mapM (fun j => bspline1 (unit_vec 3 j) 7 2) (seq 0 3) = Ok cols /\
  nth 3 s 0 = 2 * nth 3 (nth 0 cols []) 0 + 3 * nth 3 (nth 1 cols []) 0 + 5 * nth 3 (nth 2 cols []) 0.
Proof.
  eexists. split; [apply bspline1_ok; unfold fits; simpl; lia|].
  destruct (C29_design_matrix [2; 3; 5] 7 2 _ ltac:(apply bspline1_ok; unfold fits; simpl; lia)) as (cols & M & V).
  exists cols. split; [exact M|]. rewrite V by (simpl; lia). simpl. ring.
Qed.

(** ** C69 *)
Theorem C69_cox_de_boor : forall cv npoints degree s, bspline1 cv npoints degree = Ok s ->
  let n := Z.to_nat npoints in let k := Z.to_nat degree in let c := List.length cv in
  (k < c)%nat /\ (0 < n)%nat /\ List.length s = n /\
  forall i, (i < n)%nat -> nth i s 0 = spline_value cv k (sample c k n i).
Proof. exact bspline1_spec. Qed.
Print Assumptions C69_cox_de_boor.

Theorem C69_local_control : forall u v npoints degree s1 s2 i j,
  let c := List.length u in let k := Z.to_nat degree in let n := Z.to_nat npoints in
  List.length v = c -> (j < c)%nat -> (forall m, m <> j -> nth m u 0 = nth m v 0) ->
  bspline1 u npoints degree = Ok s1 -> bspline1 v npoints degree = Ok s2 -> (i < n)%nat ->
  sample c k n i < INR (j - k) \/ INR (j + 1) < sample c k n i -> nth i s1 0 = nth i s2 0.
Proof. exact bspline1_local. Qed.
Print Assumptions C69_local_control.

Theorem C69_monotone : forall cv npoints degree s, bspline1 cv npoints degree = Ok s ->
  (forall i, (S i < List.length cv)%nat -> nth i cv 0 <= nth (S i) cv 0) ->
  forall i j, (i <= j)%nat -> (j < List.length s)%nat -> nth i s 0 <= nth j s 0.
Proof. exact bspline1_monotone. Qed.
Print Assumptions C69_monotone.

Theorem C69_step_bound : forall cv npoints degree s, bspline1 cv npoints degree = Ok s -> (1 <= degree)%Z -> forall i, (S i < List.length s)%nat ->
  Rabs (nth (S i) s 0 - nth i s 0) <= IZR degree * variation cv * (INR (List.length cv - Z.to_nat degree) / INR (List.length s - 1)).
Proof. exact bspline1_steps. Qed.
Print Assumptions C69_step_bound.

Example C69_example : exists s1 s2, bspline1 [1; 2; 3; 4; 5; 6] 11 1 = Ok s1 /\ bspline1 [1; 9; 3; 4; 5; 6] 11 1 = Ok s2 /\
  nth 6 s1 0 = nth 6 s2 0.
Proof.
  do 2 eexists. split; [apply bspline1_ok; unfold fits; simpl; lia|]. split; [apply bspline1_ok; unfold fits; simpl; lia|].
  apply (C69_local_control [1; 2; 3; 4; 5; 6] [1; 9; 3; 4; 5; 6] 11 1 _ _ 6 1); auto; try (simpl; lia).
  - intros m H. destruct m as [|[|m]]; auto; lia.
  - apply bspline1_ok; unfold fits; simpl; lia.
  - apply bspline1_ok; unfold fits; simpl; lia.
  - right. unfold sample. simpl. lra.
Qed.

(** ** C106 *)
Theorem C106_samples_determine_control_points : forall u v npoints degree s, List.length u = List.length v ->
  (Z.of_nat (List.length u) <= npoints)%Z ->
  bspline1 u npoints degree = Ok s -> bspline1 v npoints degree = Ok s -> u = v.
Proof. exact bspline1_injective. Qed.
Print Assumptions C106_samples_determine_control_points.

Theorem C106_planar : forall u v npoints degree s, List.length u = List.length v ->
  (Z.of_nat (List.length u) <= npoints)%Z ->
  bspline2 u npoints degree = Ok s -> bspline2 v npoints degree = Ok s -> u = v.
Proof. exact bspline2_injective. Qed.
Print Assumptions C106_planar.

(** That many samples are also necessary. *)
Theorem C106_exactly_when : forall c npoints degree, fits c npoints degree ->
  ((forall u v s, List.length u = c -> List.length v = c -> bspline1 u npoints degree = Ok s -> bspline1 v npoints degree = Ok s -> u = v) <-> (Z.of_nat c <= npoints)%Z).
Proof. exact bspline1_unique_iff. Qed.
Print Assumptions C106_exactly_when.

(** The control values with an evenly running curve. *)
Theorem C106_even_curve : forall c npoints degree a b, fits c npoints degree -> (1 <= degree)%Z -> (2 <= npoints)%Z ->
  bspline1 (even_control c (Z.to_nat degree) a b) npoints degree = Ok (linspace a b (Z.to_nat npoints)).
Proof. exact even_curve. Qed.
Print Assumptions C106_even_curve.

(** Six values of degree 3 from 0 to 3: the only ones with 6 or more evenly
    spaced samples.  Two samples do not determine three values. *)
Example C106_example :
  bspline1 [0; 1 / 3; 1; 2; 8 / 3; 3] 6 3 = Ok (linspace 0 3 6) /\
  (forall v, List.length v = 6%nat -> bspline1 v 6 3 = Ok (linspace 0 3 6) -> v = [0; 1 / 3; 1; 2; 8 / 3; 3]) /\
  bspline1 [0; 0; 0] 2 2 = bspline1 [0; 1; 0] 2 2.
Proof.
  assert (E : even_control 6 (Z.to_nat 3) 0 3 = [0; 1 / 3; 1; 2; 8 / 3; 3]).
  { change (Z.to_nat 3) with 3%nat. unfold even_control, greville. cbn. repeat (apply (f_equal2 cons); [field|]). reflexivity. }
  assert (B : bspline1 [0; 1 / 3; 1; 2; 8 / 3; 3] 6 3 = Ok (linspace 0 3 6)).
  { rewrite <- E. apply (C106_even_curve 6 6 3 0 3); unfold fits; cbn; lia. }
  split; [exact B|]. split.
  - intros v L V. apply (C106_samples_determine_control_points v _ 6 3 (linspace 0 3 6)); auto. rewrite L. cbn. lia.
  - destruct (C27_planar_end_control_points [(0, 0); (0, 1); (0, 0)] 2 2) as (s & H & LS & H0 & H1); [unfold fits; cbn; lia|].
    unfold bspline2 in H. cbn [map fst snd] in H. destruct (bspline1 [0; 0; 0] 2 2) as [xs|] eqn:EX; [|discriminate]. cbn [bind] in H.
    destruct (bspline1 [0; 1; 0] 2 2) as [ys|] eqn:EY; [|discriminate]. f_equal.
    destruct (C27_end_control_points _ _ _ _ EX) as (L1 & A1 & B1). destruct (C27_end_control_points _ _ _ _ EY) as (L2 & A2 & B2).
    destruct xs as [|x0 [|x1 [|]]]; try discriminate. destruct ys as [|y0 [|y1 [|]]]; try discriminate.
    specialize (B1 ltac:(lia)). specialize (B2 ltac:(lia)). cbn in *. congruence.
Qed.

(** ** C109 *)
Theorem C109_any_samples : forall c npoints degree s, fits c npoints degree -> (npoints <= Z.of_nat c)%Z -> List.length s = Z.to_nat npoints ->
  exists v, List.length v = c /\ bspline1 v npoints degree = Ok s.
Proof. exact bspline1_surjective. Qed.
Print Assumptions C109_any_samples.

(** Five values of degree 3 whose curve has the samples 1, 4, -2 and 7; as many
    samples as values leave one choice. *)
Example C109_example : (exists v, List.length v = 5%nat /\ bspline1 v 4 3 = Ok [1; 4; -2; 7]) /\
  exists v, List.length v = 4%nat /\ bspline1 v 4 3 = Ok [1; 4; -2; 7] /\ forall u, List.length u = 4%nat -> bspline1 u 4 3 = Ok [1; 4; -2; 7] -> u = v.
Proof.
  split; [apply C109_any_samples; unfold fits; cbn; lia || reflexivity|].
  destruct (C109_any_samples 4 4 3 [1; 4; -2; 7]) as (v & L & V); [unfold fits; lia|lia|reflexivity|]. exists v. split; auto. split; auto.
  intros u LU U. apply (C106_samples_determine_control_points u v 4 3 [1; 4; -2; 7]); auto; rewrite LU; auto. cbn. lia.
Qed.
