(** Proofs: blades with thickness and camber overrides which can be built. *)
From Coq Require Import String Reals List ZArith Lra Lia Bool.
From Verif Require Import Base ProfileModel ProfileSpec ProfileProofs ProfileProofs2 ProfileProofs3 ProfileProofs4
  BladeModel BladeSpec BladeProofs BladeProofs2 BladeProofs3 BladeProofs4 BladeProofs5 BladeProofs6.
Import ListNotations.
Open Scope R_scope.

Lemma section_ok : forall b refl i s r c P k sk p ref p1 p2 p3, station b i s r c P k sk -> r <> 0 -> uniform p ->
  reference_point p = Ok ref -> moved (sized c ref) p p1 ->
  match thickness b with None => p2 = p1
     | Some ts => exists t, nth_error ts i = Some t /\ set_thickness_max t p1 = Ok p2 end ->
  match camber b with None => p3 = p2
     | Some cs => if Nat.ltb i (List.length (sections b) - 1)
         then exists c, nth_error cs i = Some c /\ set_camber_line_max c p2 = Ok p3 else p3 = p2 end ->
  uniform p3 -> exists q, run_steps (section_steps b refl i) p = (q, Ok tt) /\ moved (seat r P k sk refl) p3 q.
Proof.
  intros b refl i s r c P k sk p ref p1 p2 p3 S Hr U R M1 E2 E3 U3.
  rewrite (section_steps_split _ _ _ _ _ _ _ _ _ S).
  destruct (size_steps_ok c p ref U R) as (p1' & E1 & M1'). rewrite E1.
  rewrite (moved_uniform_eq _ _ _ _ M1' M1).
  destruct (seat_steps b i s r c P k sk refl p3 S Hr U3) as (q & E & M).
  assert (X2 : run_steps match thickness b with None => []
       | Some ts => [fun p => let* t := item ts i in set_thickness_max t p] end p1 = (p2, Ok tt)).
  { destruct (thickness b) as [ts|]; [|subst; reflexivity]. destruct E2 as (t & Ht & E2). cbn [run_steps]. unfold item. rewrite Ht. cbn [bind]. rewrite E2. reflexivity. }
  rewrite X2.
  assert (X3 : run_steps match camber b with None => []
       | Some cs => if Nat.ltb i (List.length (sections b) - 1)
           then [fun p => let* c := item cs i in set_camber_line_max c p] else [] end p2 = (p3, Ok tt)).
  { destruct (camber b) as [cs|]; [|subst; reflexivity]. destruct (Nat.ltb _ _); [|subst; reflexivity].
    destruct E3 as (t & Ht & E3). cbn [run_steps]. unfold item. rewrite Ht. cbn [bind]. rewrite E3. reflexivity. }
  rewrite X3. exists q. auto.
Qed.

Lemma apply_succeeds_steps : forall refl st b m, consistent b -> sections b <> [] -> NoDup (sections b) ->
  Forall (fun r => r <> 0) (radii b) ->
  (forall i s r c P k sk, station b i s r c P k sk -> exists q,
     run_steps (section_steps b refl i) (st s) = (q, Ok tt) /\ uniform q /\ List.length (xup q) = m) ->
  exists st' b', apply_transformations refl st b = (st', b', Ok tt).
Proof.
  intros refl st b m C NE ND F H.
  destruct (transform_total b refl (seq 0 (List.length (sections b))) st) as (st' & HT).
  - apply seq_NoDup.
  - intros; eapply nodup_inj; eauto.
  - intros i Hi. apply in_seq in Hi. destruct (consistent_station b i C ltac:(lia)) as (s & r & c & P & k & sk & S).
    exists s. split; [apply (st_section _ _ _ _ _ _ _ _ S)|].
    destruct (H _ _ _ _ _ _ _ S) as (q & E & _). eauto.
  - pose proof HT as HT0.
    apply transform_nodup in HT as (A & _); [|apply seq_NoDup|intros; eapply (nodup_inj (sections b)); eauto].
    destruct (cylinder_coords_total st' b m C NE) as (up & down & E).
    { intros i s r c P k sk S. pose proof (st_section _ _ _ _ _ _ _ _ S) as Hs.
      assert (L : (i < List.length (sections b))%nat) by (apply nth_error_Some; rewrite Hs; discriminate).
      specialize (A i s ltac:(apply in_seq; lia) Hs).
      destruct (H _ _ _ _ _ _ _ S) as (q & E & Uq & Lq). rewrite E in A. injection A as <-.
      split; [|auto]. rewrite Forall_forall in F. apply F. eapply nth_error_In, (st_radius _ _ _ _ _ _ _ _ S). }
    exists st', (set_coords (Built up down) b). unfold apply_transformations. rewrite HT0.
    unfold planar_to_cylindrical. rewrite E. reflexivity.
Qed.

(** Two sections of the foil with given camber and thickness. *)
Definition ov_store : store := fun _ => foil.
Definition ov_blade (th ca : option (list R)) : blade :=
  mkBlade [0%nat; 1%nat] [100; 200] [1; 1] [3; 4] [1 / 10; 1 / 5] [5; 10] th ca NoCoords None None None None.

Lemma foil_reference : reference_point foil = Ok (499 / 2, 0).
Proof.
  rewrite (closed_reference foil (0, 0) (499, 0)); try reflexivity; [|repeat split].
  unfold pscale, padd; cbn [fst snd]. apply (f_equal Ok), f_equal2; lra.
Qed.

Lemma foil_sized : moved (sized 1 (499 / 2, 0)) foil (translate (- (499 / 2), 0) foil).
Proof.
  eapply moved_ext; [|apply translate_moved; repeat split].
  intros [x y]. unfold padd, sized, pscale, psub; cbn [fst snd]. apply f_equal2; ring.
Qed.

Lemma ov_good : forall th ca, consistent (ov_blade th ca) /\ NoDup (sections (ov_blade th ca)) /\
  Forall (fun r => r <> 0) (radii (ov_blade th ca)) /\ sections (ov_blade th ca) <> [].
Proof.
  intros. split; [repeat split|]. split.
  { constructor; [intros [H|[]]; discriminate|]. constructor; [intros []|constructor]. }
  split; [repeat constructor; lra|discriminate].
Qed.

Lemma ov_station : forall th ca i s r c P k sk, station (ov_blade th ca) i s r c P k sk -> (i < 2)%nat /\ c = 1.
Proof.
  intros th ca i s r c P k sk []. cbn in *. destruct i as [|[|i]]; cbn in *; split; try lia; try congruence; destruct i; discriminate.
Qed.

Lemma ov_thickness_applied : forall refl t0 t1, exists st' b',
  apply_transformations refl ov_store (ov_blade (Some [t0; t1]) None) = (st', b', Ok tt).
Proof.
  intros refl t0 t1. destruct (ov_good (Some [t0; t1]) None) as (C & ND & F & NE).
  apply (apply_succeeds_steps refl ov_store _ 3 C NE ND F).
  intros i s r c P k sk S. destruct (ov_station _ _ _ _ _ _ _ _ _ S) as (Hi & ->).
  assert (Hr : r <> 0) by (rewrite Forall_forall in F; apply F; eapply nth_error_In, (st_radius _ _ _ _ _ _ _ _ S)).
  assert (T : max_thickness None (translate (- (499 / 2), 0) foil) = Ok 3).
  { rewrite max_thickness_translate by reflexivity. rewrite max_thickness_direct by reflexivity. simpl. unfold vzip; simpl. f_equal.
    rewrite Rminus_0_r, Rabs_R0, (Rabs_right (2 - -1)) by lra.
    rewrite (Rmax_right 0 (2 - -1)) by lra. rewrite Rmax_left; lra. }
  assert (N : exists t, nth_error [t0; t1] i = Some t) by (destruct i as [|[|]]; cbn; eauto; lia).
  destruct N as (t & Ht).
  destruct (set_thickness_ok t _ 3 T ltac:(lra)) as (p2 & E2 & _).
  destruct (section_ok (ov_blade (Some [t0; t1]) None) refl i s r 1 P k sk foil (499 / 2, 0) _ p2 p2 S Hr ltac:(repeat split) foil_reference foil_sized) as (q & E & M).
  - cbn. eauto.
  - reflexivity.
  - eapply set_thickness_uniform; [|exact E2]. apply translate_uniform. repeat split.
  - exists q. split; [exact E|]. split; [apply M|].
    assert (U2 : uniform p2) by (eapply set_thickness_uniform; [|exact E2]; apply translate_uniform; repeat split).
    rewrite (moved_length _ _ _ U2 M). destruct (set_thickness_shape _ _ _ E2) as (old & _ & -> & _). reflexivity.
Qed.

Lemma ov_camber_applied : forall refl f, exists st' b',
  apply_transformations refl ov_store (ov_blade None (Some [f])) = (st', b', Ok tt).
Proof.
  intros refl f. destruct (ov_good None (Some [f])) as (C & ND & F & NE).
  apply (apply_succeeds_steps refl ov_store _ 3 C NE ND F).
  intros i s r c P k sk S. destruct (ov_station _ _ _ _ _ _ _ _ _ S) as (Hi & ->).
  assert (Hr : r <> 0) by (rewrite Forall_forall in F; apply F; eapply nth_error_In, (st_radius _ _ _ _ _ _ _ _ S)).
  set (p1 := translate (- (499 / 2), 0) foil).
  assert (U1 : uniform p1) by (apply translate_uniform; repeat split).
  assert (EX : xup p1 = xdown p1) by reflexivity.
  destruct foil_ok as (_ & _ & NDf & Pf & old & Ho & No).
  assert (Q : exists p3, uniform p3 /\ List.length (xup p3) = 3%nat /\
     (if Nat.ltb i 1 then exists c, nth_error [f] i = Some c /\ set_camber_line_max c p1 = Ok p3 else p3 = p1)).
  { destruct (Nat.ltb_spec i 1) as [L|L].
    - destruct (set_camber_ok f p1 old EX U1) as (p3 & E3 & _ & X1 & _).
      + unfold p1, translate, vshift. cbn [xup]. apply NoDup_map_inj; [intros x y Q; cbn in Q; lra|exact NDf].
      + destruct Pf as (A & B & yu & yd & D & E & G). unfold p1, ref_position, translate, vshift; cbn [yup ydown snd].
        rewrite !first_map, !final_map, A, B, D, E. cbn [bind]. split; [f_equal; ring|]. split; [f_equal; ring|].
        eexists _, _. split; [reflexivity|]. split; [reflexivity|]. lra.
      + apply max_camber_translate_x. exact Ho.
      + exact No.
      + exists p3. split; [exact (set_camber_uniform _ _ _ EX U1 E3)|]. split; [rewrite X1; reflexivity|].
        exists f. split; auto. destruct i; [reflexivity|lia].
    - exists p1. split; auto. }
  destruct Q as (p3 & U3 & L3 & E3).
  destruct (section_ok (ov_blade None (Some [f])) refl i s r 1 P k sk foil (499 / 2, 0) p1 p1 p3 S Hr ltac:(repeat split) foil_reference foil_sized eq_refl E3 U3) as (q & E & M).
  exists q. split; [exact E|]. split; [apply M|]. rewrite (moved_length _ _ _ U3 M). exact L3.
Qed.
