(** Proofs: blades on the heap of arrays refine BladeModel.v. *)
From Coq Require Import Reals List ZArith Lra Lia Bool String.
From Verif Require Import Base ProfileModel ProfileSpec PpgModel HeapModel HeapSpec HeapProofs HeapProofs2 HeapProofs3
  BladeModel BladeSpec ProfileProofs BladeProofs BladeProofs2 HeapBladeModel HeapBladeSpec.
Import ListNotations.
Open Scope R_scope.

Definition agrees (m : profile -> res call) (f : profile -> res profile) : Prop :=
  forall p, (let* c := m p in value_call c p) = f p.

Lemma section_agrees b refl i : Forall2 agrees (section_calls b refl i) (section_steps b refl i).
Proof.
  unfold section_calls, section_steps.
  apply Forall2_app; [repeat constructor; intros p|].
  - destruct (reference_point p); reflexivity.
  - destruct (item (chords b) i); reflexivity.
  - apply Forall2_app; [destruct (thickness b); repeat constructor; intros p; destruct (item l i); reflexivity|].
    apply Forall2_app.
    { destruct (camber b); [|constructor]. destruct (Nat.ltb _ _); repeat constructor. intros p. destruct (item l i); reflexivity. }
    apply Forall2_app; [destruct refl; repeat constructor|].
    repeat constructor; intros p.
    + destruct (pitch_angle_at b i); reflexivity.
    + destruct (item (radii b) i); [|reflexivity]. destruct (item (skew b) i); reflexivity.
    + destruct (item (rake b) i); [|reflexivity]. destruct (induced_rake_at b i); reflexivity.
Qed.

Lemma run_calls_refined ms fs : Forall2 agrees ms fs -> forall h o p h' o' r,
  owns h o -> read (h, o) = Ok p -> run_calls ms (h, o) = ((h', o'), r) ->
  exists q, run_steps fs p = (q, r) /\ read (h', o') = Ok q /\ owns h' o' /\ framed h h' o o'.
Proof.
  induction 1 as [|m f ms fs A F IH]; intros h o p h' o' r Ow Rd E.
  - cbn in E. injection E as <- <- <-. exists p. split; [reflexivity|]. split; [auto|]. split; [auto|apply framed_refl].
  - cbn [run_calls run_steps] in *. rewrite Rd in E. cbn [bind] in E. rewrite <- (A p).
    destruct (m p) as [c|e]; cbn [bind].
    2:{ injection E as <- <- <-. exists p. split; [reflexivity|]. split; [auto|]. split; [auto|apply framed_refl]. }
    destruct (perform c (h, o)) as [[h1 o1] r1] eqn:Ep.
    destruct (perform_refined _ _ _ _ _ _ _ Ow Rd Ep) as (V & O1 & Fr).
    destruct (value_call c p) as [p1|e].
    + destruct V as [-> R1]. destruct (IH _ _ _ _ _ _ O1 R1 E) as (q & Es & Rq & Oq & Fq).
      exists q. split; [auto|]. split; [auto|]. split; [auto|]. eapply framed_trans; eauto.
    + destruct V as (-> & -> & ->). injection E as <- <- <-.
      exists p. split; [reflexivity|]. split; [auto|]. split; [auto|apply framed_refl].
Qed.

Lemma replace_apart h os s o h' o' :
  apart h os -> nth_error os s = Some o -> owns h' o' -> framed h h' o o' ->
  apart h' (replace_at os s o') /\
  forall j oj, j <> s -> nth_error os j = Some oj -> read (h', oj) = read (h, oj).
Proof.
  intros [Ow Sp] Eo O' (F1 & F2 & F3).
  assert (Other : forall j o2, s <> j -> nth_error os j = Some o2 ->
            forall b, In b (addresses o2) -> nth_error h' b = nth_error h b).
  { intros j o2 N E b Hb. apply F1; [eapply owns_bound; eauto|]. intros Hb'. eapply (Sp s j); eauto. }
  split; [split|].
  - intros j o2. rewrite replace_nth. destruct (Nat.eqb_spec s j) as [<-|N].
    + rewrite Eo. intros [= <-]. exact O'.
    + intros E. eapply owns_unchanged; [|eapply Ow; eauto]. eapply Other; eauto.
  - intros j1 j2 o1 o2 b N E1 E2 H1 H2. rewrite replace_nth in E1, E2.
    destruct (Nat.eqb_spec s j1) as [<-|N1].
    + rewrite Eo in E1. injection E1 as <-.
      destruct (Nat.eqb_spec s j2) as [|N2]; [congruence|].
      destruct (F2 b H1) as [H|H]; [eapply (Sp s j2); eauto|].
      pose proof (owns_bound _ _ _ (Ow _ _ E2) H2). lia.
    + destruct (Nat.eqb_spec s j2) as [<-|N2]; [|eapply (Sp j1 j2); eauto].
      rewrite Eo in E2. injection E2 as <-.
      destruct (F2 b H2) as [H|H]; [eapply (Sp j1 s); eauto|].
      pose proof (owns_bound _ _ _ (Ow _ _ E1) H1). lia.
  - intros j oj N E. apply read_unchanged. apply (Other j oj); auto.
Qed.

Lemma transform_refined b refl : forall is h os st w r,
  apart h os -> holds (h, os) st -> Forall (fun s => (s < List.length os)%nat) (sections b) ->
  transform_objects b refl is (h, os) = (w, r) ->
  exists st', transform_sections b refl is st = (st', r) /\ holds w st' /\ apart (fst w) (snd w) /\
    List.length (snd w) = List.length os.
Proof.
  induction is as [|i is IH]; intros h os st w r Ap Ho Bd E.
  - cbn in E. injection E as <- <-. exists st. split; [reflexivity|]. auto.
  - cbn [transform_objects transform_sections] in *. destruct (nth_error (sections b) i) as [s|] eqn:Es.
    2:{ injection E as <- <-. exists st. split; [reflexivity|]. auto. }
    cbn [fst snd] in E.
    assert (L : (s < List.length os)%nat).
    { rewrite Forall_forall in Bd. apply Bd. eapply nth_error_In; eauto. }
    destruct (nth_error os s) as [o|] eqn:Eo; [|apply nth_error_None in Eo; lia].
    destruct (run_calls (section_calls b refl i) (h, o)) as [[h1 o1] r1] eqn:Er.
    destruct (run_calls_refined _ _ (section_agrees b refl i) _ _ _ _ _ _ (proj1 Ap _ _ Eo) (Ho _ _ Eo) Er)
      as (q & Eq & Rq & Oq & Fq).
    rewrite Eq. destruct (replace_apart _ _ _ _ _ _ Ap Eo Oq Fq) as [Ap1 Oth].
    assert (Ho1 : holds (h1, replace_at os s o1) (upd st s q)).
    { intros j oj. cbn [fst snd]. rewrite replace_nth. unfold upd.
      destruct (Nat.eqb_spec s j) as [<-|N].
      - rewrite Eo, Nat.eqb_refl. intros [= <-]. exact Rq.
      - intros Ej. destruct (Nat.eqb_spec j s) as [->|_]; [congruence|]. rewrite (Oth j oj) by auto. exact (Ho _ _ Ej). }
    destruct r1 as [[]|e].
    + destruct (IH h1 (replace_at os s o1) (upd st s q) w r Ap1 Ho1) as (st' & A & B & C & D); auto.
      { rewrite replace_length. exact Bd. }
      exists st'. rewrite replace_length in D. auto.
    + injection E as <- <-. exists (upd st s q). split; [reflexivity|]. split; [auto|]. split; [auto|]. cbn. apply replace_length.
Qed.

Lemma mapM_ext_in {A B} (f g : A -> res B) l : (forall x, In x l -> f x = g x) -> mapM f l = mapM g l.
Proof.
  induction l as [|a l IH]; intros H; [reflexivity|]. cbn [mapM]. rewrite H by (left; auto).
  rewrite IH; [reflexivity|]. intros x Hx. apply H. right; auto.
Qed.

Lemma object_coords_read w st b :
  holds w st -> Forall (fun s => (s < List.length (snd w))%nat) (sections b) ->
  object_coords w b = cylinder_coords st b.
Proof.
  intros Ho Bd. unfold object_coords, cylinder_coords. f_equal. apply mapM_ext_in. intros [s r] H. cbn [fst snd].
  assert (L : (s < List.length (snd w))%nat).
  { rewrite Forall_forall in Bd. apply Bd. apply in_combine_l in H. apply in_rev. exact H. }
  destruct (nth_error (snd w) s) as [o|] eqn:Eo; [|apply nth_error_None in Eo; lia].
  rewrite (Ho _ _ Eo). reflexivity.
Qed.

Lemma apart_separate h os : apart h os -> separate os.
Proof.
  intros [Ow Sp]. unfold separate. revert Ow Sp. induction os as [|o os IH]; intros Ow Sp; cbn [flat_map]; [constructor|].
  assert (N1 : NoDup (addresses o)) by exact (proj1 (Ow 0%nat o eq_refl)).
  assert (N2 : NoDup (flat_map addresses os)).
  { apply IH; [intros i o1 E; exact (Ow (S i) o1 E)|].
    intros i j o1 o2 b N E1 E2. apply (Sp (S i) (S j) o1 o2 b); auto. }
  assert (D : forall b, In b (addresses o) -> ~ In b (flat_map addresses os)).
  { intros b H1 H2. apply in_flat_map in H2 as (o2 & H2 & H3). apply In_nth_error in H2 as [j E].
    apply (Sp 0%nat (S j) o o2 b) in H1; auto. }
  clear - N1 N2 D. induction (addresses o) as [|a l IHl]; [exact N2|].
  inversion N1; subst. constructor.
  - intros H. apply in_app_iff in H as [H|H]; [contradiction|]. apply (D a); [left; auto|auto].
  - apply IHl; auto. intros b H. apply D. right; auto.
Qed.

Theorem blade_refined refl h os b st w' b' r :
  separate os -> Forall (fun o => Forall (is_float h) (addresses o)) os ->
  holds (h, os) st -> Forall (fun s => (s < List.length os)%nat) (sections b) ->
  h_apply_transformations refl (h, os) b = (w', b', r) ->
  exists st', apply_transformations refl st b = (st', b', r) /\ holds w' st' /\
    separate (snd w') /\ List.length (snd w') = List.length os.
Proof.
  intros Se Fl Ho Bd E. unfold h_apply_transformations in E. unfold apply_transformations.
  destruct (transform_objects b refl (seq 0 (List.length (sections b))) (h, os)) as [w1 r1] eqn:Et.
  destruct (transform_refined _ _ _ _ _ _ _ _ (separate_apart _ _ Se Fl) Ho Bd Et) as (st1 & A & B & C & D).
  rewrite A. destruct r1 as [[]|e].
  - unfold planar_to_cylindrical.
    rewrite (object_coords_read _ _ _ B) in E by (rewrite D; exact Bd).
    destruct (cylinder_coords st1 b) as [[up down]|e]; injection E as <- <- <-; exists st1; (split; [reflexivity|]); split; auto; split; auto; eapply apart_separate; eauto.
  - injection E as <- <- <-. exists st1. split; [reflexivity|]. split; auto. split; auto. eapply apart_separate; eauto.
Qed.
