(** Property C95: the Gaussian and multiquadric bases. *)
From Coq Require Import Reals String List Lra Lia.
From Verif Require Import Base RbfModel KernelProofs2.
Import ListNotations.
Open Scope R_scope.

(** ** C95 *)
Theorem C95_well_posed : forall name r d X y Q out,
  In name ["gaussian_spline"; "multi_quadratic_biharmonic_spline"; "inv_multi_quadratic_biharmonic_spline"]%string ->
  r <> 0 -> Forall (fun x => List.length x = d) X -> List.length y = List.length X -> List.length out = List.length Q ->
  ((exists o, reconstruct_f X y Q out name r = Ok o) <-> NoDup X) /\
  (~ NoDup X -> reconstruct_f X y Q out name r = Err LinAlgError).
Proof. exact named_well_posed. Qed.
Print Assumptions C95_well_posed.

Theorem C95_positive_definite : forall b d r X A w, b = Gaussian \/ b = InvMultiQuadratic -> r <> 0 ->
  Forall (fun x => List.length x = d) X -> NoDup X ->
  weights_matrix b r X X = Ok A -> List.length w = List.length X -> w <> zeros (List.length X) -> 0 < dot w (matvec A w).
Proof. exact pd_matrix. Qed.
Print Assumptions C95_positive_definite.

Theorem C95_multiquadric_indefinite : forall d r X A, r <> 0 -> Forall (fun x => List.length x = d) X -> NoDup X -> (2 <= List.length X)%nat ->
  weights_matrix MultiQuadratic r X X = Ok A ->
  exists u v, List.length u = List.length X /\ List.length v = List.length X /\ dot v (matvec A v) < 0 < dot u (matvec A u).
Proof. exact multiquadric_indefinite. Qed.
Print Assumptions C95_multiquadric_indefinite.

(** Three points of the plane, two of them with the same abscissa. *)
Example C95_example : exists o,
  reconstruct_f [[0; 0]; [0; 1]; [1; 0]] [1; 2; 3] [[2; 2]] [0] "multi_quadratic_biharmonic_spline" (1 / 2) = Ok o.
Proof.
  apply (C95_well_posed "multi_quadratic_biharmonic_spline" (1 / 2) 2); try reflexivity.
  - cbn. tauto.
  - lra.
  - repeat constructor.
  - constructor; [|constructor; [|constructor; [|constructor]]]; cbn [In].
    + intros [E|[E|[]]]; [injection E as E|injection E as E]; lra.
    + intros [E|[]]. injection E as E. lra.
    + tauto.
Qed.
