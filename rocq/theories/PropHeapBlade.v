(** C103: blades whose sections are objects with arrays. *)
From Coq Require Import Reals List ZArith Lra Lia.
From Verif Require Import Base ProfileModel ProfileSpec HeapModel HeapSpec BladeModel BladeSpec BladeProofs6
  HeapBladeModel HeapBladeSpec HeapBladeProofs HeapBladeProofs2 HeapBladeProofs3 HeapBladeProofs4 HeapBladeProofs5.
Import ListNotations.
Open Scope R_scope.

(** Section objects that share no arrays behave as the store of profiles of the
    other blade theorems; one object may serve at several radii. *)
Theorem C103_separate_sections : forall refl h os b st w' b' r,
  separate os -> Forall (fun o => Forall (is_float h) (addresses o)) os ->
  holds (h, os) st -> Forall (fun s => (s < List.length os)%nat) (sections b) ->
  h_apply_transformations refl (h, os) b = (w', b', r) ->
  exists st', apply_transformations refl st b = (st', b', r) /\ holds w' st' /\
    separate (snd w') /\ List.length (snd w') = List.length os.
Proof. exact blade_refined. Qed.
Print Assumptions C103_separate_sections.

(** The arrays the sections were made from are left centred, scaled and
    reflected, but not rotated; the sections go on with new arrays. *)
Theorem C103_arrays_left_behind : forall refl h os b w' b',
  separate os -> Forall (fun o => Forall (is_float h) (addresses o)) os ->
  NoDup (sections b) -> thickness b = None -> camber b = None ->
  h_apply_transformations refl (h, os) b = (w', b', Ok tt) ->
  forall i s r c P k sk o p ref, station b i s r c P k sk -> r <> 0 ->
    nth_error os s = Some o -> read (h, o) = Ok p -> uniform p -> reference_point p = Ok ref ->
    exists o' p1, nth_error (snd w') s = Some o' /\ Forall (new_in h) (addresses o') /\
      arrays_hold (fst w') o p1 /\ moved (fun a => if refl then pneg (sized c ref a) else sized c ref a) p p1.
Proof. exact arrays_left_behind. Qed.
Print Assumptions C103_arrays_left_behind.

(** The blade coordinates are the coordinates of the section objects, wound on
    the cylinders, whatever they share. *)
Theorem C103_coordinates : forall refl w b w' b', consistent b ->
  h_apply_transformations refl w b = (w', b', Ok tt) ->
  same_parameters b b' /\ same_faces b b' /\
  exists up down, coordinates b' = Built up down /\
    List.length up = List.length (sections b) /\ List.length down = List.length (sections b) /\
    forall i s r c P k sk, station b i s r c P k sk -> exists o q, nth_error (snd w') s = Some o /\ read (fst w', o) = Ok q /\
      nth_error up (List.length (sections b) - 1 - i) = Some (map (wrap r) (upper q)) /\
      nth_error down (List.length (sections b) - 1 - i) = Some (map (wrap r) (lower q)).
Proof. exact coordinates_of_objects. Qed.
Print Assumptions C103_coordinates.

(** Different section objects made from the same four arrays: section i gets the
    product of the first i + 1 chords, and is reflected i + 1 times. *)
Theorem C103_same_arrays : forall refl h o os b w' b' p ref,
  owns h o -> read (h, o) = Ok p -> uniform p -> reference_point p = Ok ref -> Forall (fun o' => o' = o) os ->
  consistent b -> NoDup (sections b) -> Forall (fun r => r <> 0) (radii b) -> thickness b = None -> camber b = None ->
  h_apply_transformations refl (h, os) b = (w', b', Ok tt) ->
  forall i s r c P k sk, station b i s r c P k sk ->
    exists o' q, nth_error (snd w') s = Some o' /\ read (fst w', o') = Ok q /\
      moved (fun a => seat r P k sk false (pscale (wear refl (chords b) (S i)) (psub a ref))) p q.
Proof. exact same_arrays. Qed.
Print Assumptions C103_same_arrays.

(** Nothing reports this. *)
Theorem C103_same_arrays_accepted : forall refl h o os b p,
  owns h o -> read (h, o) = Ok p -> uniform p -> closed p -> Forall (fun o' => o' = o) os ->
  consistent b -> sections b <> [] -> NoDup (sections b) -> Forall (fun s => (s < List.length os)%nat) (sections b) ->
  Forall (fun r => r <> 0) (radii b) -> thickness b = None -> camber b = None ->
  exists w' b', h_apply_transformations refl (h, os) b = (w', b', Ok tt).
Proof. exact same_arrays_total. Qed.
Print Assumptions C103_same_arrays_accepted.

(** Sections with one array for the upper and the lower abscissae: the chord is
    multiplied by the square of the chord length, the section is not centred and
    it is mirrored instead of reflected. *)
Theorem C103_shared_abscissae : forall refl h os b w' b',
  Forall (shares_abscissae h) os -> NoDup (flat_map three_arrays os) ->
  NoDup (sections b) -> thickness b = None -> camber b = None ->
  h_apply_transformations refl (h, os) b = (w', b', Ok tt) ->
  forall i s r c P k sk o p ref, station b i s r c P k sk -> r <> 0 ->
    nth_error os s = Some o -> read (h, o) = Ok p -> uniform p -> reference_point p = Ok ref ->
    exists o' q, nth_error (snd w') s = Some o' /\ read (fst w', o') = Ok q /\
      moved (fun a => seat r P k sk false (bent c refl ref a)) p q.
Proof. exact shared_abscissae. Qed.
Print Assumptions C103_shared_abscissae.

Theorem C103_shared_abscissae_accepted : forall refl h os b m,
  Forall (shares_abscissae h) os -> NoDup (flat_map three_arrays os) ->
  consistent b -> sections b <> [] -> NoDup (sections b) -> Forall (fun s => (s < List.length os)%nat) (sections b) ->
  Forall (fun r => r <> 0) (radii b) -> thickness b = None -> camber b = None ->
  (forall s o, In s (sections b) -> nth_error os s = Some o -> exists p ref, read (h, o) = Ok p /\ uniform p /\
     List.length (xup p) = m /\ reference_point p = Ok ref) ->
  exists w' b', h_apply_transformations refl (h, os) b = (w', b', Ok tt).
Proof. exact shared_abscissae_total. Qed.
Print Assumptions C103_shared_abscissae_accepted.

(** Examples: the blade with two stations, sections with their own arrays, with
    the same four arrays, and with one array for the abscissae. *)
Definition foil_arrays : list array :=
  [mkArray Float64 (xup foil3); mkArray Float64 (xdown foil3); mkArray Float64 (yup foil3); mkArray Float64 (ydown foil3)].
Definition own_sections : world := (foil_arrays ++ foil_arrays, [mkObject 0 1 2 3; mkObject 4 5 6 7]).
Definition same_sections : world := (foil_arrays, [mkObject 0 1 2 3; mkObject 0 1 2 3]).
Definition thin_sections : world := (foil_arrays ++ foil_arrays, [mkObject 0 0 2 3; mkObject 4 4 6 7]).

Ltac floats := repeat constructor; unfold is_float; cbn; eauto.

Example C103_example_separate : forall refl, exists w' b',
  separate (snd own_sections) /\ Forall (fun o => Forall (is_float (fst own_sections)) (addresses o)) (snd own_sections) /\
  holds own_sections foil_store /\ h_apply_transformations refl own_sections two_blade = (w', b', Ok tt).
Proof.
  intros refl.
  assert (A : separate (snd own_sections)) by (unfold separate; cbn; repeat constructor; cbn; lia).
  assert (B : Forall (fun o => Forall (is_float (fst own_sections)) (addresses o)) (snd own_sections)) by floats.
  assert (C : holds own_sections foil_store).
  { intros [|[|s]] o E; cbn in E; try (injection E as <-; reflexivity). destruct s; discriminate. }
  destruct (h_apply_transformations refl own_sections two_blade) as [[w' b'] r] eqn:E.
  assert (D : Forall (fun s => (s < List.length (snd own_sections))%nat) (sections two_blade)) by (repeat constructor).
  destruct (C103_separate_sections refl (fst own_sections) (snd own_sections) two_blade foil_store w' b' r A B C D E) as (st' & X & _).
  destruct (two_blade_applied refl) as (st1 & b1 & Y). rewrite X in Y. injection Y as _ _ ->.
  exists w', b'. auto.
Qed.

(** The second section of the two-station blade has chord 1/4; with shared arrays
    it gets 1/2 * 1/4, and the reflection is undone. *)
Example C103_example_same_arrays : exists w' b' o q,
  h_apply_transformations true same_sections two_blade = (w', b', Ok tt) /\
  nth_error (snd w') 1 = Some o /\ read (fst w', o) = Ok q /\
  moved (fun a => seat 2 4 (1 / 5) 10 false (pscale (1 / 8) (psub a (1 / 2, 0)))) foil3 q.
Proof.
  destruct two_blade_good as (C & NE & ND & F & T & K & U & S). destruct foil3_facts as (Uf & _ & Cf & Rf).
  assert (Ow : owns (fst same_sections) (mkObject 0 1 2 3)).
  { split; [repeat constructor; cbn; lia|floats]. }
  assert (Al : Forall (fun o' => o' = mkObject 0 1 2 3) (snd same_sections)) by (repeat constructor).
  assert (Bd : Forall (fun s => (s < List.length (snd same_sections))%nat) (sections two_blade)) by (repeat constructor).
  destruct (C103_same_arrays_accepted true _ _ _ two_blade foil3 Ow eq_refl Uf Cf Al C NE ND Bd F T K) as (w' & b' & E).
  destruct (C103_same_arrays true _ _ _ two_blade w' b' foil3 _ Ow eq_refl Uf Rf Al C ND F T K E _ _ _ _ _ _ _ S) as (o & q & A & B & M).
  exists w', b', o, q. split; [exact E|]. split; [exact A|]. split; [exact B|].
  destruct M as (M1 & M2 & M3). split; [exact M1|]. rewrite M2, M3.
  replace (wear true (chords two_blade) 2) with (1 / 8) by (unfold wear; cbn; field). auto.
Qed.

Example C103_example_shared_abscissae : forall refl, exists w' b',
  Forall (shares_abscissae (fst thin_sections)) (snd thin_sections) /\ NoDup (flat_map three_arrays (snd thin_sections)) /\
  h_apply_transformations refl thin_sections two_blade = (w', b', Ok tt).
Proof.
  intros refl. destruct two_blade_good as (C & NE & ND & F & T & K & U & S). destruct foil3_facts as (Uf & Lf & Cf & Rf).
  assert (A : Forall (shares_abscissae (fst thin_sections)) (snd thin_sections)).
  { repeat constructor; cbn; try lia; unfold is_float; cbn; eauto. }
  assert (B : NoDup (flat_map three_arrays (snd thin_sections))) by (cbn; repeat constructor; cbn; lia).
  assert (D : Forall (fun s => (s < List.length (snd thin_sections))%nat) (sections two_blade)) by (repeat constructor).
  destruct (C103_shared_abscissae_accepted refl (fst thin_sections) (snd thin_sections) two_blade 3 A B C NE ND D F T K) as (w' & b' & E).
  - intros s o _ Eo. exists foil3, (1 / 2, 0). split; [|auto].
    destruct s as [|[|s]]; cbn in Eo; try (injection Eo as <-; reflexivity). destruct s; discriminate.
  - exists w', b'. auto.
Qed.
