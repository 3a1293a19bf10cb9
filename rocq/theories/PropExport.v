(** Properties C76 - C79: the exports of a blade. *)
From Coq Require Import String Ascii Reals List ZArith Lra Lia.
From Verif Require Import Base TextModel ProfileModel ProfileSpec BladeModel BladeSpec BladeProofs BladeProofs2 BladeProofs5 BladeProofs6
  PpgModel ExportModel ExportSpec ExportProofs ExportProofs2 ExportProofs3.
From Verif Require ParamsModel.
Import ListNotations.
Open Scope R_scope.

(** The simplest tools: a curve is the list of its points, every file can be
    written except "full". *)
Definition plain_tools : tools (list pt3) :=
  mkTools (fun ps => Ok ps) TypeError (fun n => negb (String.eqb n "full")).

(** ** C76 *)
Theorem C76_file_follows_coordinates : forall (edge : Type) (t : tools edge) surface refl st b st' b0 ms b' name d u l,
  equivariant surface -> build surface refl st b = (st', b0, Ok tt) -> Forall agreeing ms ->
  do_motions ms b0 = (b', Ok tt) -> writable t name = true ->
  exists up down fu fl fr ft gu gl, coordinates b' = Built up down /\
    blade_export_iges t name false st' (mkCad b' u l) = (mkCad b' u l, [(name, IgesFile [fu; fl; fr; ft] [])], Ok tt) /\
    blade_export_stl t name d (mkCad b' u l) = ([(name, StlFile (1 / 100) [fu; fl; fr; ft] d)], Ok tt) /\
    upper_face b' = Some fu /\ lower_face b' = Some fl /\ root_face b' = Some fr /\ tip_face b' = Some ft /\
    surface (map (map (scale3 1000)) up) = Ok gu /\ face_eq fu gu /\
    surface (map (map (scale3 1000)) down) = Ok gl /\ face_eq fl gl.
Proof. exact @pipeline. Qed.
Print Assumptions C76_file_follows_coordinates.

Theorem C76_file_follows_motions : forall (edge : Type) (t : tools edge) surface refl st b st' b0 ms b' name u l,
  build surface refl st b = (st', b0, Ok tt) -> Forall agreeing ms -> do_motions ms b0 = (b', Ok tt) -> writable t name = true ->
  exists T fs0 fs, similarity (ratios ms) T /\
    blade_export_iges t name false st' (mkCad b0 u l) = (mkCad b0 u l, [(name, IgesFile fs0 [])], Ok tt) /\
    blade_export_iges t name false st' (mkCad b' u l) = (mkCad b' u l, [(name, IgesFile fs [])], Ok tt) /\
    List.length fs0 = 4%nat /\ Forall2 (fun f g => face_eq (image T f) g) fs0 fs.
Proof. exact @exported_faces_moved. Qed.
Print Assumptions C76_file_follows_motions.

Theorem C76_with_curves : forall (edge : Type) (t : tools edge) name st b u0 l0 ps u l, generated b -> writable t name = true ->
  le_points st b = Ok ps -> curve t (map fst ps) = Ok u -> curve t (map snd ps) = Ok l ->
  exists fs, blade_export_iges t name false st (mkCad b u0 l0) = (mkCad b u0 l0, [(name, IgesFile fs [])], Ok tt) /\
    blade_export_iges t name true st (mkCad b u0 l0) = (mkCad b (Some u) (Some l), [(name, IgesFile fs [u; l])], Ok tt).
Proof. exact @export_with_curves. Qed.
Print Assumptions C76_with_curves.

Theorem C76_curves_succeed : forall (edge : Type) (t : tools edge) surface refl st b m name u0 l0,
  (forall g, exists f, surface g = Ok f) -> (forall ps, exists e, curve t ps = Ok e) -> (0 < m)%nat ->
  consistent b -> sections b <> [] -> NoDup (sections b) ->
  Forall (fun r => r <> 0) (radii b) -> thickness b = None -> camber b = None ->
  (forall s, In s (sections b) -> uniform (st s) /\ List.length (xup (st s)) = m /\
     exists ref, reference_point (st s) = Ok ref) -> writable t name = true ->
  exists st' b' ps u l fs, build surface refl st b = (st', b', Ok tt) /\ le_points st' b' = Ok ps /\
    curve t (map fst ps) = Ok u /\ curve t (map snd ps) = Ok l /\
    blade_export_iges t name true st' (mkCad b' u0 l0) = (mkCad b' (Some u) (Some l), [(name, IgesFile fs [u; l])], Ok tt).
Proof. exact @curves_succeed. Qed.
Print Assumptions C76_curves_succeed.

Theorem C76_failure_writes_nothing : forall (edge : Type) (t : tools edge) name inc st x x' fs e,
  blade_export_iges t name inc st x = (x', fs, Err e) -> fs = [] /\ the_blade x' = the_blade x.
Proof. exact @export_failure. Qed.
Print Assumptions C76_failure_writes_nothing.

Theorem C76_not_generated : forall (edge : Type) (t : tools edge) name inc st x d, ~ has_faces (the_blade x) ->
  (exists x' e, blade_export_iges t name inc st x = (x', [], Err e)) /\
  blade_export_iges t name false st x = (x, [], Err (null t)) /\
  blade_export_stl t name d x = ([], Err (null t)).
Proof. exact @export_not_generated. Qed.
Print Assumptions C76_not_generated.

(** Success does not mean that a file exists. *)
Theorem C76_silent_failure : forall (edge : Type) (t : tools edge) name st x d, has_faces (the_blade x) -> writable t name = false ->
  blade_export_iges t name false st x = (x, [], Ok tt) /\ blade_export_stl t name d x = ([], Ok tt).
Proof. exact @export_silent. Qed.
Print Assumptions C76_silent_failure.

Example C76_example :
  (exists st' b0, build point_surface true foil_store two_blade = (st', b0, Ok tt)) /\ equivariant point_surface /\
  Forall agreeing [Turn "x" 1; Resize (1 / 2); TurnDeg "z" 30] /\
  writable plain_tools "blade.iges" = true /\ writable plain_tools "full" = false /\ (exists b, generated b) /\
  (forall ps, exists e, curve plain_tools ps = Ok e) /\ ~ has_faces two_blade.
Proof.
  split; [apply two_blade_built|]. split; [apply point_surface_equivariant|]. split; [repeat constructor; cbn; auto; lra|].
  split; [reflexivity|]. split; [reflexivity|]. split; [apply two_blade_generated|]. split; [intros ps; exists ps; reflexivity|].
  intros (H & _). apply H. reflexivity.
Qed.

(** ** C77 *)
Theorem C77_curve_points : forall refl st b st' b' ps, consistent b ->
  apply_transformations refl st b = (st', b', Ok tt) -> le_points st' b' = Ok ps ->
  List.length ps = List.length (sections b) /\
  forall i s r c P k sk si, station b i s r c P k sk ->
    nth_error (sections b) (List.length (sections b) - 1 - i) = Some si ->
    exists m au al, marked (st' si) m /\ nth_error (upper (st' s)) m = Some au /\ nth_error (lower (st' s)) m = Some al /\
      nth_error ps (List.length (sections b) - 1 - i) = Some (scale3 1000 (wrap r au), scale3 1000 (wrap r al)).
Proof. exact curve_points. Qed.
Print Assumptions C77_curve_points.

Theorem C77_on_the_cylinders : forall refl st b st' b' ps, consistent b ->
  apply_transformations refl st b = (st', b', Ok tt) -> le_points st' b' = Ok ps ->
  forall i r u l, nth_error (radii b) i = Some r -> nth_error ps (List.length (sections b) - 1 - i) = Some (u, l) ->
    axis_distance u = 1000 * Rabs r /\ axis_distance l = 1000 * Rabs r.
Proof. exact curve_on_cylinder. Qed.
Print Assumptions C77_on_the_cylinders.

Theorem C77_common_index : forall refl st b st' b' ps m, consistent b ->
  apply_transformations refl st b = (st', b', Ok tt) -> le_points st' b' = Ok ps ->
  (forall s, In s (sections b) -> marked (st' s) m) ->
  forall i s r c P k sk, station b i s r c P k sk ->
    exists au al, nth_error (upper (st' s)) m = Some au /\ nth_error (lower (st' s)) m = Some al /\
      nth_error ps (List.length (sections b) - 1 - i) = Some (scale3 1000 (wrap r au), scale3 1000 (wrap r al)).
Proof. exact curve_same_index. Qed.
Print Assumptions C77_common_index.

(** In general the index is that of another section. *)
Theorem C77_own_section_refuted : exists st b st' b' ps i s r c P k sk m al u l,
  apply_transformations true st b = (st', b', Ok tt) /\ le_points st' b' = Ok ps /\
  station b i s r c P k sk /\ marked (st' s) m /\ nth_error (lower (st' s)) m = Some al /\
  nth_error ps (List.length (sections b) - 1 - i) = Some (u, l) /\ l <> scale3 1000 (wrap r al).
Proof.
  destruct wrong_section as (st' & b' & ps & m & al & u & l & H).
  exists mixed_store, mixed_blade, st', b', ps, 0%nat, 0%nat, 1, 1, 0, 0, 0, m, al, u, l. exact H.
Qed.
Print Assumptions C77_own_section_refuted.

Theorem C77_five_percent_with_reflection : forall refl st b st' b', consistent b -> NoDup (sections b) ->
  Forall (fun r => 0 < r) (radii b) -> Forall (fun c => 0 < c) (chords b) -> Forall (fun P => 0 < P) (pitch b) ->
  thickness b = None -> camber b = None ->
  (forall s, In s (sections b) -> uniform (st s) /\ flat_below (st s)) ->
  apply_transformations refl st b = (st', b', Ok tt) ->
  forall s m, In s (sections b) -> (marked (st' s) m <-> at_fraction (if refl then 5 / 100 else 95 / 100) (st s) m).
Proof. exact blade_flat_marked. Qed.
Print Assumptions C77_five_percent_with_reflection.

(** Without the reflection the curve runs near the trailing edge. *)
Theorem C77_leading_edge_refuted : exists st b st' b' s m, apply_transformations false st b = (st', b', Ok tt) /\
  In s (sections b) /\ marked (st' s) m /\ ~ at_fraction (5 / 100) (st s) m /\ at_fraction (95 / 100) (st s) m.
Proof. destruct not_the_leading_edge as (st' & b' & s & m & H). exists slab_store, two_blade, st', b', s, m. exact H. Qed.
Print Assumptions C77_leading_edge_refuted.

Theorem C77_curves_follow_motions : forall st b ms b' ps, generated b -> Forall agreeing ms -> do_motions ms b = (b', Ok tt) ->
  le_points st b = Ok ps ->
  exists T, similarity (ratios ms) T /\ faces_moved T b b' /\
    le_points st b' = Ok (map (fun q => (T (fst q), T (snd q))) ps).
Proof. exact motions_le_points. Qed.
Print Assumptions C77_curves_follow_motions.

Theorem C77_points_on_faces : forall surface refl st b st' b0 ms b' ps u l, interpolating surface -> equivariant surface ->
  build surface refl st b = (st', b0, Ok tt) -> Forall agreeing ms -> do_motions ms b0 = (b', Ok tt) ->
  le_points st' b' = Ok ps -> In (u, l) ps ->
  exists fu fl, upper_face b' = Some fu /\ lower_face b' = Some fl /\ fu u /\ fl l.
Proof. exact built_le_points_on_faces. Qed.
Print Assumptions C77_points_on_faces.

(** A mirrored blade keeps the curves of the original. *)
Theorem C77_mirrored_refuted : exists surface st b st' b0 b' ps u l fu, interpolating surface /\
  build surface false st b = (st', b0, Ok tt) /\
  blade_mirror [[0; 0; 0]; [0; 0; 1]] [] b0 = (b', Ok tt) /\ le_points st' b' = Ok ps /\ In (u, l) ps /\
  upper_face b' = Some fu /\ ~ fu u.
Proof.
  destruct mirrored_curve_off_the_face as (st' & b0 & b' & ps & u & l & fu & H).
  exists point_surface, plate_store, plate_blade, st', b0, b', ps, u, l, fu. split; [apply point_surface_interpolating|exact H].
Qed.
Print Assumptions C77_mirrored_refuted.

Example C77_example : exists st' b',
  apply_transformations true slab_store two_blade = (st', b', Ok tt) /\
  (forall s, In s (sections two_blade) -> marked (st' s) 1) /\ at_fraction (5 / 100) slab 1 /\ flat_below slab /\
  station two_blade 1 1 2 (1 / 4) 4 (1 / 5) 10 /\ interpolating point_surface.
Proof.
  destruct (slab_applied true) as (st' & b' & H). exists st', b'. split; auto.
  split; [intros s Hs; apply (slab_marked true st' b' s H Hs)|]. split; [apply slab_fraction|]. split; [apply slab_facts|].
  split; [constructor; reflexivity|apply point_surface_interpolating].
Qed.

(** ** C78 *)
Theorem C78_error_file_is_emptied : forall float_str distance d fs upper lower errors b up down ru rd pu pd, d <> CannotOpen ->
  check_errors upper lower = Ok tt ->
  sections b <> [] -> coordinates b = Built up down -> nth_error up 0 = Some ru -> nth_error down 0 = Some rd ->
  nth_error ru 0 = Some pu -> nth_error rd 0 = Some pd ->
  write_blade_errors float_str distance d fs upper lower errors None None b =
    (ParamsModel.put fs (errors ++ L ".txt") [], Err AttributeError).
Proof. exact errors_fail. Qed.
Print Assumptions C78_error_file_is_emptied.

(** A file that cannot be opened, a device that is full, other files. *)
Theorem C78_disk : forall float_str distance d fs upper lower errors gu gl b,
  (d = CannotOpen -> write_blade_errors float_str distance d fs upper lower errors gu gl b = (fs, Err IOError)) /\
  (forall g, g <> errors ++ L ".txt" -> fst (write_blade_errors float_str distance d fs upper lower errors gu gl b) g = fs g) /\
  (forall n text, write_blade_errors float_str distance Writable fs upper lower errors gu gl b = (ParamsModel.put fs (errors ++ L ".txt") text, Ok tt) ->
     write_blade_errors float_str distance (FullAfter n) fs upper lower errors gu gl b = (ParamsModel.put fs (errors ++ L ".txt") (firstn n text), Err IOError)).
Proof. exact errors_disk. Qed.
Print Assumptions C78_disk.

Theorem C78_argument_check : forall upper lower,
  (check_errors upper lower = Ok tt <-> exists s, s <> [] /\ (upper = Some s \/ lower = Some s)) /\
  (check_errors upper lower <> Ok tt -> check_errors upper lower = Err ValueError).
Proof. exact checks. Qed.
Print Assumptions C78_argument_check.

(** Were the two faces assigned, the file would list every point. *)
Theorem C78_report : forall float_str distance fs upper lower errors fu fl b up down, coordinates b = Built up down ->
  List.length up = List.length (sections b) -> List.length down = List.length (sections b) ->
  (forall f p, exists d, distance f p = Ok d) ->
  exists tu tl, write_blade_errors float_str distance Writable fs upper lower errors (Some fu) (Some fl) b =
      (ParamsModel.put fs (errors ++ L ".txt") (nl :: tu ++ tl), Ok tt) /\
    (forall a s, upper = Some (a :: s) -> reports float_str distance "UPPER FACE" fu up tu) /\
    (forall a s, lower = Some (a :: s) -> reports float_str distance "LOWER FACE" fl down tl) /\
    (upper = None \/ upper = Some [] -> tu = []) /\ (lower = None \/ lower = Some [] -> tl = []).
Proof. exact errors_report. Qed.
Print Assumptions C78_report.

Theorem C78_name_check : forall a, (check_string a = Ok tt <-> exists s, a = ParamsModel.AStr s) /\
  (check_string a <> Ok tt -> check_string a = Err TypeError).
Proof. exact string_check. Qed.
Print Assumptions C78_name_check.

Example C78_report_example : let distance := fun (_ : face) (_ : pt3) => Ok 0 in
  (forall f p, exists d, distance f p = Ok d) /\
  reports (fun _ => L "r") distance "UPPER FACE" (fun _ => True) [[(1, 2, 3); (4, 5, 6)]]
    (L "########## UPPER FACE ##########" ++ [nl; nl] ++ L "N_section		N_point			X_crds				Y_crds					Z_crds					DISTANCE" ++ [nl; nl] ++
     L "0			0			r			r			r			r" ++ [nl] ++ L "0			1			r			r			r			r" ++ [nl]).
Proof.
  split; [intros _ _; exists 0; reflexivity|].
  exists [[L "0			0			r			r			r			r" ++ [nl]; L "0			1			r			r			r			r" ++ [nl]]]. split; [|reflexivity].
  constructor; [|constructor]. constructor; [exists 0; split; reflexivity|]. constructor; [exists 0; split; reflexivity|]. constructor.
Qed.

Example C78_example : Writable <> CannotOpen /\ check_errors None (Some (L "lower")) = Ok tt /\
  check_errors None (Some []) = Err ValueError /\
  exists st' b', build point_surface false plate_store plate_blade = (st', b', Ok tt) /\
    exists up down ru rd pu pd, coordinates b' = Built up down /\ nth_error up 0 = Some ru /\ nth_error down 0 = Some rd /\
      nth_error ru 0 = Some pu /\ nth_error rd 0 = Some pd.
Proof.
  split; [discriminate|]. split; [reflexivity|]. split; [reflexivity|].
  destruct plate_built as (st' & b' & H). exists st', b'. split; auto.
  destruct (plate_points st' b' H) as (y & Hc & _). do 6 eexists. split; [exact Hc|]. repeat split; reflexivity.
Qed.

(** ** C79 *)
Theorem C79_plot : forall refl st b st' b' o, consistent b -> apply_transformations refl st b = (st', b', Ok tt) ->
  exists cs, blade_plot o b' = Ok (cs, if truthy_str o then o else None) /\
    List.length cs = (2 * List.length (sections b))%nat /\
    forall i s r c P k sk, station b i s r c P k sk ->
      nth_error cs (2 * (List.length (sections b) - 1 - i)) = Some (map (wrap r) (upper (st' s))) /\
      nth_error cs (2 * (List.length (sections b) - 1 - i) + 1) = Some (map (wrap r) (lower (st' s))).
Proof. exact plot_applied. Qed.
Print Assumptions C79_plot.

Theorem C79_not_generated : forall o b, coordinates b = NoCoords -> blade_plot o b = Err ValueError.
Proof. exact plot_not_built. Qed.
Print Assumptions C79_not_generated.

Example C79_example : coordinates two_blade = NoCoords /\ consistent two_blade /\
  exists st' b', apply_transformations true foil_store two_blade = (st', b', Ok tt).
Proof. split; [reflexivity|]. split; [repeat split|apply two_blade_applied]. Qed.
