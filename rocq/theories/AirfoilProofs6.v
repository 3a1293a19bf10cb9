(** Profiles whose surfaces do not meet. *)
From Coq Require Import String Reals List ZArith Lra Lia.
From Verif Require Import Base ProfileModel ProfileProofs CustomModel NacaModel AirfoilModel AirfoilSpec AirfoilProofs.
Import ListNotations.
Open Scope R_scope.

Lemma edges_reset : forall a p, coords a = Ok p -> update_edges p = Err ValueError ->
  update_edges_ a = (with_edges ((0, 0), (0, 0)) a, Err ValueError).
Proof.
  intros a p HC H. unfold update_edges_, update_edges in *. steps. rewrite HC.
  assert (FE : forall (l : list R) e, first l = Err e -> e = IndexError) by (intros [|x l] e; cbn; congruence).
  assert (NE : forall (l : list R) e, final l = Err e -> e = IndexError).
  { induction l as [|x l IH]; cbn; intros e Q; [congruence|]. destruct l; [discriminate|]. exact (IH e Q). }
  destruct (first (xup p)) as [xu0|e] eqn:E1; cbn [bind] in *; [|rewrite (FE _ _ E1) in H; discriminate].
  destruct (first (xdown p)) as [xd0|e] eqn:E2; cbn [bind] in *; [|rewrite (FE _ _ E2) in H; discriminate].
  destruct (Rlt_dec edge_tol (Rabs (xu0 - xd0))); [reflexivity|].
  destruct (final (xup p)) as [xun|e] eqn:E3; cbn [bind] in *; [|rewrite (NE _ _ E3) in H; discriminate].
  destruct (final (xdown p)) as [xdn|e] eqn:E4; cbn [bind] in *; [|rewrite (NE _ _ E4) in H; discriminate].
  destruct (Rlt_dec edge_tol (Rabs (xun - xdn))); [reflexivity|]. exfalso.
  destruct (first (yup p)) as [yu0|e] eqn:E5; cbn [bind] in *; [|rewrite (FE _ _ E5) in H; discriminate].
  destruct (final (yup p)) as [yun|e] eqn:E6; cbn [bind] in *; [|rewrite (NE _ _ E6) in H; discriminate].
  destruct (final (ydown p)) as [ydn|e] eqn:E7; cbn [bind] in *; [discriminate|rewrite (NE _ _ E7) in H; discriminate].
Qed.
Lemma edges_lost : forall am cu c a p, coords a = Ok p -> update_edges p = Err ValueError -> asks_edges c ->
  perform am cu c a = (with_edges ((0, 0), (0, 0)) a, Err ValueError).
Proof.
  intros am cu c a p HC H K. pose proof (edges_reset a p HC H) as E.
  destruct c; try (destruct K; fail); cbn [perform].
  - destruct about; [|destruct K]. unfold scale_, reference_point_. steps. rewrite ?HC, E. reflexivity.
  - unfold set_camber_line_max_, max_camber_, compute_chord_line_. steps. rewrite E. reflexivity.
  - unfold compute_chord_line_. steps. rewrite E. reflexivity.
  - unfold max_camber_, compute_chord_line_. steps. rewrite E. reflexivity.
  - unfold reference_point_. steps. rewrite E. reflexivity.
Qed.
Lemma edges_lost_example : forall am cu, exists a p, coords a = Ok p /\ edges a = Some ((0, 0), (1, 0)) /\
  perform am cu ReferencePoint a = (with_edges ((0, 0), (0, 0)) a, Err ValueError).
Proof.
  intros am cu. set (p := mkProfile [0; 1] [0; 2] [0; 0] [0; 0]).
  exists (mkAirfoil Custom (Some (xup p)) (Some (xdown p)) (Some (yup p)) (Some (ydown p)) (mkParams 0 [] 0 [] 0 []) Absent Absent (Some ((0, 0), (1, 0)))), p.
  split; [reflexivity|]. split; [reflexivity|]. apply (edges_lost am cu ReferencePoint _ p); [reflexivity| |exact I].
  unfold update_edges. cbn. rewrite Rminus_0_r, Rabs_R0. unfold edge_tol. destruct (Rlt_dec _ 0); [lra|].
  replace (1 - 2) with (- (1)) by ring. rewrite Rabs_Ropp, Rabs_R1. destruct (Rlt_dec _ 1); [reflexivity|lra].
Qed.
