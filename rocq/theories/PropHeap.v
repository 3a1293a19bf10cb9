(** C05: array identity. *)
From Coq Require Import Reals List ZArith Lra Lia.
From Verif Require Import Base ProfileModel CustomModel PpgModel CustomProofs4 PropCustom HeapModel HeapSpec HeapProofs HeapProofs2 HeapProofs3.
Import ListNotations.
Open Scope R_scope.

(** A profile with four different float arrays behaves as the pure model says; a
    raising call leaves everything as it was; no other array is touched. *)
Theorem C05_owned_profile : forall c h o p h' o' r,
  owns h o -> read (h, o) = Ok p -> perform c (h, o) = ((h', o'), r) ->
  match value_call c p with
  | Ok p' => r = Ok tt /\ read (h', o') = Ok p'
  | Err e => r = Err e /\ h' = h /\ o' = o
  end /\
  owns h' o' /\
  ((forall b, (b < List.length h)%nat -> ~ In b (addresses o) -> nth_error h' b = nth_error h b) /\
   (forall b, In b (addresses o') -> In b (addresses o) \/ (List.length h <= b)%nat) /\
   (List.length h <= List.length h')%nat).
Proof. exact perform_refined. Qed.
Print Assumptions C05_owned_profile.

(** Profiles that share no arrays do not influence each other, in any
    interleaving of calls. *)
Theorem C05_separate_profiles : forall h os calls h' os' i o p,
  separate os -> Forall (fun o => Forall (is_float h) (addresses o)) os ->
  execute (h, os) calls = (h', os') ->
  nth_error os i = Some o -> read (h, o) = Ok p ->
  exists o', nth_error os' i = Some o' /\ read (h', o') = Ok (after (calls_of i calls) p).
Proof. exact separate_profiles. Qed.
Print Assumptions C05_separate_profiles.

Theorem C05_other_arrays : forall h os calls h' os' b,
  separate os -> Forall (fun o => Forall (is_float h) (addresses o)) os ->
  execute (h, os) calls = (h', os') ->
  (b < List.length h)%nat -> (forall o, In o os -> ~ In b (addresses o)) ->
  nth_error h' b = nth_error h b.
Proof. exact other_arrays_untouched. Qed.
Print Assumptions C05_other_arrays.

(** Without any assumption on the arrays: a call changes only arrays of the
    profile it is made on. *)
Theorem C05_frame : forall c h o h' o' r, perform c (h, o) = ((h', o'), r) ->
  (forall b, (b < List.length h)%nat -> ~ In b (addresses o) -> nth_error h' b = nth_error h b) /\
  (forall b, In b (addresses o') -> In b (addresses o) \/ (List.length h <= b)%nat) /\
  (List.length h <= List.length h')%nat.
Proof. exact perform_framed. Qed.
Print Assumptions C05_frame.

(** CustomProfile uses the caller's arrays. *)
Theorem C05_by_reference : forall american h a b c d h' o,
  h_custom_coordinates american (ByRef a) (ByRef b) (ByRef c) (ByRef d) h = (h', Ok o) ->
  h' = h /\ o = mkObject a b c d.
Proof. exact by_reference. Qed.
Print Assumptions C05_by_reference.

(** They follow every in-place method. *)
Theorem C05_caller_arrays_follow : forall american h a b c d h0 o p calls h' os',
  h_custom_coordinates american (ByRef a) (ByRef b) (ByRef c) (ByRef d) h = (h0, Ok o) ->
  NoDup [a; b; c; d] -> Forall (is_float h) [a; b; c; d] -> read (h, o) = Ok p ->
  Forall (fun x => fst x = 0%nat /\ in_place (snd x)) calls ->
  execute (h0, [o]) calls = (h', os') ->
  let q := after (map snd calls) p in
  contents h' a = Ok (xup q) /\ contents h' b = Ok (xdown q) /\ contents h' c = Ok (yup q) /\ contents h' d = Ok (ydown q).
Proof. exact caller_arrays_follow. Qed.
Print Assumptions C05_caller_arrays_follow.

(** Lists are copied, and coordinates computed from parameters are new. *)
Theorem C05_by_lists : forall american h l1 l2 l3 l4 h' o,
  h_custom_coordinates american (ByList l1) (ByList l2) (ByList l3) (ByList l4) h = (h', Ok o) ->
  owns h' o /\ read (h', o) = Ok (mkProfile l1 l2 l3 l4) /\
  Forall (fun b => (List.length h <= b)%nat) (addresses o) /\
  (forall b, (b < List.length h)%nat -> nth_error h' b = nth_error h b).
Proof. exact by_lists. Qed.
Print Assumptions C05_by_lists.

Theorem C05_by_parameters : forall h q h' o,
  h_custom_parameters q h = (h', Ok o) ->
  owns h' o /\ read (h', o) = coordinates_british q /\
  Forall (fun b => (List.length h <= b)%nat) (addresses o) /\
  (forall b, (b < List.length h)%nat -> nth_error h' b = nth_error h b).
Proof. exact by_parameters. Qed.
Print Assumptions C05_by_parameters.

(** The constructors raise exactly when the value model does. *)
Theorem C05_by_reference_outcome : forall american h a b c d p,
  read (h, mkObject a b c d) = Ok p ->
  h_custom_coordinates american (ByRef a) (ByRef b) (ByRef c) (ByRef d) h =
    (h, match custom_profile american (keyed p) with Ok _ => Ok (mkObject a b c d) | Err e => Err e end).
Proof. exact by_reference_outcome. Qed.
Print Assumptions C05_by_reference_outcome.

Theorem C05_by_lists_outcome : forall american h l1 l2 l3 l4,
  exists h' o, h_custom_coordinates american (ByList l1) (ByList l2) (ByList l3) (ByList l4) h =
    (h', match custom_profile american (keyed (mkProfile l1 l2 l3 l4)) with Ok _ => Ok o | Err e => Err e end).
Proof. exact by_lists_outcome. Qed.
Print Assumptions C05_by_lists_outcome.

Theorem C05_by_parameters_outcome : forall american h q,
  exists h' o, h_custom_parameters q h =
    (h', match custom_profile american (keyed_params q) with Ok _ => Ok o | Err e => Err e end).
Proof. exact by_parameters_outcome. Qed.
Print Assumptions C05_by_parameters_outcome.

(** Two profiles on the same arrays: both undergo all in-place calls. *)
Theorem C05_shared_arrays : forall calls h o h' os' p,
  owns h o -> read (h, o) = Ok p -> Forall (fun x => (fst x < 2)%nat /\ in_place (snd x)) calls ->
  execute (h, [o; o]) calls = (h', os') ->
  os' = [o; o] /\ read (h', o) = Ok (after (map snd calls) p).
Proof. exact shared_profiles. Qed.
Print Assumptions C05_shared_arrays.

(** An array that a profile uses several times is changed several times. *)
Theorem C05_translate_repeated_array : forall h o v b l,
  Forall (is_float h) (addresses o) -> nth_error h b = Some (mkArray Float64 l) ->
  exists h', perform (Translate v) (h, o) = ((h', o), Ok tt) /\
    nth_error h' b = Some (mkArray Float64
      (map (fun x => x + (INR (x_uses o b) * num_value (fst v) + INR (y_uses o b) * num_value (snd v))) l)).
Proof. exact translate_any_aliasing. Qed.
Print Assumptions C05_translate_repeated_array.

Theorem C05_scale_repeated_array : forall h o k b l,
  Forall (is_float h) (addresses o) -> nth_error h b = Some (mkArray Float64 l) ->
  exists h', perform (Scale k false) (h, o) = ((h', o), Ok tt) /\
    nth_error h' b = Some (mkArray Float64 (map (fun x => x * num_value k ^ (x_uses o b + y_uses o b)) l)).
Proof. exact scale_any_aliasing. Qed.
Print Assumptions C05_scale_repeated_array.

Theorem C05_reflect_repeated_array : forall h o b l,
  Forall (is_float h) (addresses o) -> nth_error h b = Some (mkArray Float64 l) ->
  exists h', perform Reflect (h, o) = ((h', o), Ok tt) /\
    nth_error h' b = Some (mkArray Float64 (map (fun x => x * (-1) ^ (x_uses o b + y_uses o b)) l)).
Proof. exact reflect_any_aliasing. Qed.
Print Assumptions C05_reflect_repeated_array.

Theorem C05_scale_shared_abscissae : forall h o k p ref,
  axu o = axd o -> NoDup [axu o; ayu o; ayd o] -> Forall (is_float h) (addresses o) ->
  read (h, o) = Ok p -> reference_point p = Ok ref ->
  exists h', perform (Scale k true) (h, o) = ((h', o), Ok tt) /\
    read (h', o) = Ok (mkProfile
      (map (fun x => (x - 2 * fst ref) * (num_value k) ^ 2 + 2 * fst ref) (xup p))
      (map (fun x => (x - 2 * fst ref) * (num_value k) ^ 2 + 2 * fst ref) (xdown p))
      (map (fun y => (y - snd ref) * num_value k + snd ref) (yup p))
      (map (fun y => (y - snd ref) * num_value k + snd ref) (ydown p))).
Proof. exact scale_shared_abscissae. Qed.
Print Assumptions C05_scale_shared_abscissae.

(** rotate and camber deformation bind new arrays. *)
Theorem C05_rotate_detaches : forall rad deg h o h1 o1 calls h2 os2,
  perform (Rotate rad deg) (h, o) = ((h1, o1), Ok tt) ->
  Forall (fun x => fst x = 0%nat) calls -> execute (h1, [o1]) calls = (h2, os2) ->
  owns h1 o1 /\ forall b, (b < List.length h)%nat -> nth_error h2 b = nth_error h b.
Proof. exact rotate_detaches. Qed.
Print Assumptions C05_rotate_detaches.

Theorem C05_camber_detaches_ordinates : forall pc h o h1 o1 p,
  perform (DeformCamberLine pc None) (h, o) = ((h1, o1), Ok tt) -> read (h, o) = Ok p ->
  (forall b, (b < List.length h)%nat -> nth_error h1 b = nth_error h b) /\
  (List.length h <= ayu o1 /\ List.length h <= ayd o1)%nat /\
  (xup p = xdown p -> axu o1 = axu o /\ axd o1 = axd o) /\
  (xup p <> xdown p -> List.length h <= axu o1 /\ List.length h <= axd o1)%nat.
Proof. exact deform_rebinds. Qed.
Print Assumptions C05_camber_detaches_ordinates.

(** Integer arrays: a float operand does not fit. *)
Theorem C05_integer_translate : forall h o v k1 k2 k3 k4,
  kind_at h (axu o) = Some k1 -> kind_at h (axd o) = Some k2 ->
  kind_at h (ayu o) = Some k3 -> kind_at h (ayd o) = Some k4 ->
  snd (perform (Translate v) (h, o)) =
    if (cannot k1 (fst v) || cannot k2 (fst v) || cannot k3 (snd v) || cannot k4 (snd v))%bool
    then Err TypeError else Ok tt.
Proof. exact translate_outcome. Qed.
Print Assumptions C05_integer_translate.

Theorem C05_integer_translate_half_done : forall h o l1 l2 vx y,
  nth_error h (axu o) = Some (mkArray Float64 l1) -> nth_error h (axd o) = Some (mkArray Int64 l2) ->
  exists h', perform (Translate (PyFloat vx, y)) (h, o) = ((h', o), Err TypeError) /\
    nth_error h' (axu o) = Some (mkArray Float64 (map (fun x => x + vx) l1)) /\
    forall b, b <> axu o -> nth_error h' b = nth_error h b.
Proof. exact translate_not_atomic. Qed.
Print Assumptions C05_integer_translate_half_done.

Theorem C05_integer_scale : forall h o k l p ref,
  nth_error h (axu o) = Some (mkArray Int64 l) -> read (h, o) = Ok p -> reference_point p = Ok ref ->
  perform (Scale k true) (h, o) = ((h, o), Err TypeError).
Proof. exact scale_integer. Qed.
Print Assumptions C05_integer_scale.

Theorem C05_integer_reflect : forall h o,
  (forall b, In b (addresses o) -> exists k, kind_at h b = Some k) ->
  snd (perform Reflect (h, o)) = Ok tt.
Proof. exact reflect_any_kind. Qed.
Print Assumptions C05_integer_reflect.

(** Examples: a thin plate with four arrays, with one array for both abscissae,
    and with integer ordinates of the lower surface. *)
Definition plate_heap : heap :=
  [mkArray Float64 [0; 1]; mkArray Float64 [0; 1]; mkArray Float64 [0; 0]; mkArray Float64 [0; 0];
   mkArray Int64 [0; 0]].
Definition plate4 : object := mkObject 0 1 2 3.
Definition plate_shared : object := mkObject 0 0 2 3.
Definition plate_integer : object := mkObject 0 1 2 4.

Example C05_example_owned : owns plate_heap plate4 /\ separate [plate4] /\
  read (plate_heap, plate4) = Ok (mkProfile [0; 1] [0; 1] [0; 0] [0; 0]).
Proof.
  split; [|split; [|reflexivity]].
  - split; [repeat constructor; cbn; lia|]. repeat constructor; unfold is_float; cbn; eauto.
  - unfold separate. cbn. repeat constructor; cbn; lia.
Qed.

Example C05_example_translated : exists h,
  execute (plate_heap, [plate4; plate4]) [(0%nat, Translate (PyFloat 1, PyInt 2)); (1%nat, Translate (PyFloat 1, PyInt 2))]
    = (h, [plate4; plate4]) /\
  read (h, plate4) = Ok (mkProfile [2; 3] [2; 3] [4; 4] [4; 4]).
Proof.
  eexists. split; [reflexivity|]. cbn. repeat f_equal; lra.
Qed.

(** Translating by (1, 0) moves the shared abscissae by 2. *)
Example C05_example_shared : exists h,
  perform (Translate (PyInt 1, PyInt 0)) (plate_heap, plate_shared) = ((h, plate_shared), Ok tt) /\
  read (h, plate_shared) = Ok (mkProfile [2; 3] [2; 3] [0; 0] [0; 0]).
Proof.
  eexists. split; [reflexivity|]. cbn. repeat f_equal; lra.
Qed.

Example C05_example_integer : exists h,
  perform (Translate (PyInt 1, PyFloat 1)) (plate_heap, plate_integer) = ((h, plate_integer), Err TypeError) /\
  read (h, plate_integer) = Ok (mkProfile [1; 2] [1; 2] [1; 1] [0; 0]).
Proof.
  eexists. split; [reflexivity|]. cbn. repeat f_equal; lra.
Qed.

(** A foil from the caller's arrays, from lists, and from parameters. *)
Definition foil_heap : heap :=
  [mkArray Float64 (xup cfoil); mkArray Float64 (xdown cfoil); mkArray Float64 (yup cfoil); mkArray Float64 (ydown cfoil)].
Example C05_example_constructed : forall american,
  h_custom_coordinates american (ByRef 0) (ByRef 1) (ByRef 2) (ByRef 3) foil_heap = (foil_heap, Ok plate4) /\
  (exists h o, h_custom_coordinates american (ByList (xup cfoil)) (ByList (xdown cfoil)) (ByList (yup cfoil))
     (ByList (ydown cfoil)) foil_heap = (h, Ok o)) /\
  exists h o, h_custom_parameters nparams foil_heap = (h, Ok o).
Proof.
  intros american. destruct (C13_example american) as [q E]. destruct (C13_example_params american) as [p Ep].
  split; [|split].
  - rewrite (C05_by_reference_outcome american foil_heap 0%nat 1%nat 2%nat 3%nat cfoil) by reflexivity. rewrite E. reflexivity.
  - destruct (C05_by_lists_outcome american foil_heap (xup cfoil) (xdown cfoil) (yup cfoil) (ydown cfoil)) as (h & o & X).
    change (mkProfile (xup cfoil) (xdown cfoil) (yup cfoil) (ydown cfoil)) with cfoil in X. rewrite E in X. eauto.
  - destruct (C05_by_parameters_outcome american foil_heap nparams) as (h & o & X). rewrite Ep in X. eauto.
Qed.

(** Rotating by 0 detaches a profile from shared arrays. *)
Example C05_example_rotated : exists h o,
  perform (Rotate (Some 0) None) (plate_heap, plate_shared) = ((h, o), Ok tt) /\ owns h o.
Proof.
  destruct (perform (Rotate (Some 0) None) (plate_heap, plate_shared)) as [[h o] r] eqn:E.
  assert (r = Ok tt) as -> by (cbn in E; congruence).
  exists h, o. split; [reflexivity|].
  exact (proj1 (C05_rotate_detaches _ _ _ _ _ _ [] h [o] E ltac:(constructor) eq_refl)).
Qed.
