(** Propellers that cannot be built. *)
From Coq Require Import String Reals List ZArith Lia Lra.
From Verif Require Import Base BladeModel BladeSpec PropellerModel PropellerSpec PropellerProofs.
Import ListNotations.
Open Scope R_scope.

Section Solids.
Variables S T : Type.
Implicit Types (p : propeller S T) (k : cad S T).

Lemma present_missing : forall l : list (option face), In None l -> present l = Err TypeError.
Proof.
  induction l as [|[f|] l IH]; intros H; [destruct H| |reflexivity].
  destruct H as [H|H]; [discriminate|]. cbn. rewrite (IH H). reflexivity.
Qed.
Lemma faces_missing : forall b u l t r, ~ has_faces b ->
  (forall f : option face, In f [upper_face b; lower_face b; tip_face b; root_face b] -> In f [u; l; t; r]) -> In None [u; l; t; r].
Proof.
  intros b u l t r H K. destruct (upper_face b) eqn:E1; [|apply K; simpl; tauto]. destruct (lower_face b) eqn:E2; [|apply K; simpl; tauto].
  destruct (tip_face b) eqn:E3; [|apply K; simpl; tauto]. destruct (root_face b) eqn:E4; [|apply K; simpl; tauto].
  exfalso. apply H. unfold has_faces. rewrite E1, E2, E3, E4. repeat split; discriminate.
Qed.
Lemma mapM_stops : forall {A B} (f : A -> res B) l a l' bs e, mapM f l = Ok bs -> f a = Err e -> mapM f (l ++ a :: l') = Err e.
Proof.
  intros A B f l a l'. induction l as [|x l IH]; intros bs e H E; cbn in *.
  - rewrite E. reflexivity.
  - destruct (f x); [|discriminate]. cbn in *. destruct (mapM f l) as [ys|]; [|discriminate]. rewrite (IH ys e eq_refl E). reflexivity.
Qed.
Lemma solids_exist : forall k bs l, Forall2 (has_solid k) bs l -> mapM (blade_solid S T k) bs = Ok l.
Proof.
  intros k bs l H. induction H as [|o x bs l (u & w & t & r & (E1 & E2 & E3 & E4) & E) F IH]; [reflexivity|].
  cbn [mapM]. unfold blade_solid at 1. cbv zeta. rewrite E1, E2, E3, E4. cbn [present bind]. rewrite E. cbn [bind]. rewrite IH. reflexivity.
Qed.

Lemma solid_fails : forall k p, cached_solid p = None ->
  (forall e, make_shaft k (shaft p) = Err e -> get_solid k p = (p, Err e)) /\
  (forall s l o l' xs, make_shaft k (shaft p) = Ok s -> blades p = l ++ o :: l' -> Forall2 (has_solid k) l xs ->
     (~ has_faces (snd o) -> get_solid k p = (p, Err TypeError)) /\
     (forall u w t r e, four_faces (snd o) u w t r -> make_solid k [u; w; t; r] = Err e -> get_solid k p = (p, Err e))) /\
  (forall s xs, make_shaft k (shaft p) = Ok s -> Forall2 (has_solid k) (blades p) xs -> fuse k s xs = None -> get_solid k p = (p, Err RuntimeError)).
Proof.
  intros k p N. unfold get_solid. rewrite N. split; [|split].
  - intros e ->. reflexivity.
  - intros s l o l' xs -> -> F. apply solids_exist in F. split.
    + intros H. cbn [bind]. rewrite (mapM_stops _ l o l' xs TypeError F); [reflexivity|].
      unfold blade_solid. cbv zeta. rewrite present_missing; [reflexivity|]. apply (faces_missing (snd o)); auto.
    + intros u w t r e (E1 & E2 & E3 & E4) E. cbn [bind]. rewrite (mapM_stops _ l o l' xs e F); [reflexivity|].
      unfold blade_solid. cbv zeta. rewrite E1, E2, E3, E4. exact E.
  - intros s xs -> F FU. cbn [bind]. rewrite (solids_exist _ _ _ F). cbn [bind]. rewrite compound_somes. cbn [bind]. rewrite FU. reflexivity.
Qed.

Lemma tmp_fails : forall k name p o, In o (blades p) -> ~ has_faces (snd o) -> perform k (TmpStl name) p = (p, [], Err TypeError).
Proof.
  intros k name p o I H. cbn [perform]. unfold tmp_stl.
  match goal with |- context[mapM ?f _] => set (g := f) end.
  assert (Q : mapM g (blades p) = Err TypeError); [|rewrite Q; reflexivity].
  assert (D : forall o, (exists x, g o = Ok x) \/ g o = Err TypeError).
  { intros q. unfold g. cbv zeta. destruct (upper_face (snd q)), (lower_face (snd q)), (root_face (snd q)), (tip_face (snd q)); cbn; eauto. }
  assert (M : g o = Err TypeError).
  { unfold g. cbv zeta. rewrite present_missing; [reflexivity|]. apply (faces_missing (snd o)); [exact H|]. intros f. simpl. tauto. }
  induction (blades p) as [|q l IH]; [destruct I|]. cbn [mapM]. destruct I as [<-|I].
  - rewrite M. reflexivity.
  - destruct (D q) as [[x ->]| ->]; [|reflexivity]. cbn [bind]. rewrite (IH I). reflexivity.
Qed.
End Solids.
