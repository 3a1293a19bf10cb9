(** Property C104: the sections ReversePropellerBladeX cuts and shows. *)
From Coq Require Import Reals List Lra Lia.
From Verif Require Import Base ProfileModel ProfileSpec BladeModel BladeSpec ReverseModel ReverseSpec ReverseProofs7 ChordModel CamberModel ReconstructModel SliceModel SliceSpec SliceProofs SliceProofs2.
Import ListNotations.
Open Scope R_scope.

(** Every radius: the edges of the section, the wires of all, the odd and the even ones, and what is read off them. *)
Theorem C104_section : forall (F E C : Type) (cylinder : R -> res (list (F * pt3))) (cut_edges : F -> res (list E)) (make_wire : list E -> res cwire)
  (tops bottoms : cwire -> pt3 -> pt3 -> list pt3) (middle : pt3 -> pt3 -> pt3 -> pt3 -> res pt3) (fit : list pt3 -> res C)
  (cubic : list R -> list R -> res (R -> res R))
  radii n v r, new_bladex F E C cylinder cut_edges make_wire tops bottoms middle fit cubic radii n = Ok (v, r) ->
  forall j radius, nth_error radii j = Some radius -> exists s fs f es w wt wb cam c T air top bottom,
    nth_error (pitch_list r) j = Some (s_pitch s) /\ nth_error (chord_length_list r) j = Some (s_chord s) /\
    nth_error (r_xup r) j = Some (linspace 0 1 n) /\ nth_error (r_yup r) j = Some (s_yup s) /\ nth_error (r_ydown r) j = Some (s_ydown s) /\
    cylinder radius = Ok fs /\ last_radial fs f /\ cut_edges f = Ok es /\
    make_wire es = Ok w /\ make_wire (odds es) = Ok wt /\ make_wire (evens es) = Ok wb /\
    nth_error (v_wires F C v) j = Some w /\ nth_error (v_cambers F C v) j = Some c /\ fit cam = Ok c /\
    let le := unroll radius (cw_value wt (cw_last wt)) in let te := unroll radius (cw_value wt 0) in
    camber_points (tops wt) (bottoms wb) middle 500 radius (cw_value wt (cw_last wt)) (cw_value wt 0) = Ok cam /\
    0 < pdist le te /\ mirror_similarity (/ pdist le te) T /\ T le = (0, 0) /\ T te = (1, 0) /\ s_chord s = pdist le te / 1000 /\
    equidistant w 1000 air /\ equidistant wt n top /\ equidistant wb n bottom /\
    s_airfoil s = map (fun p => T (unroll_positive radius p)) air /\
    exists top' bottom', upside (map (fun p => T (unroll radius p)) top) (map (fun p => T (unroll radius p)) bottom) top' bottom' /\
      surface_from cubic n top' (s_top s) (s_yup s) /\ surface_from cubic n bottom' (s_bottom s) (s_ydown s).
Proof. exact bladex_section. Qed.
Print Assumptions C104_section.

(** The object of C59 and C60, with the cut computed rather than given. *)
Theorem C104_as_modelled : forall (F E C : Type) (cylinder : R -> res (list (F * pt3))) (cut_edges : F -> res (list E)) (make_wire : list E -> res cwire)
  (tops bottoms : cwire -> pt3 -> pt3 -> list pt3) (middle : pt3 -> pt3 -> pt3 -> pt3 -> res pt3) (fit : list pt3 -> res C)
  (cubic : list R -> list R -> res (R -> res R))
  radii n v r, new_bladex F E C cylinder cut_edges make_wire tops bottoms middle fit cubic radii n = Ok (v, r) ->
  reverse_bladex cubic (slice F E C cylinder cut_edges make_wire tops bottoms middle fit) radii n = Ok r /\
  List.length (v_wires F C v) = List.length radii /\ List.length (v_cambers F C v) = List.length radii /\
  forall j radius, nth_error radii j = Some radius -> exists lat w c ct, cut_at F E C cylinder cut_edges make_wire tops bottoms middle fit n radius = Ok (lat, w, c, ct) /\ slice F E C cylinder cut_edges make_wire tops bottoms middle fit radius n = Ok ct /\
    nth_error (v_wires F C v) j = Some w /\ nth_error (v_cambers F C v) j = Some c.
Proof. exact bladex_cut. Qed.
Print Assumptions C104_as_modelled.

(** The edges of the blade are the ends of the upper points, if the wire starts at parameter 0. *)
Theorem C104_ends : forall (F E C : Type) (cylinder : R -> res (list (F * pt3))) (cut_edges : F -> res (list E)) (make_wire : list E -> res cwire)
  (tops bottoms : cwire -> pt3 -> pt3 -> list pt3) (middle : pt3 -> pt3 -> pt3 -> pt3 -> res pt3) (fit : list pt3 -> res C)
  n radius ct, (2 <= n)%nat -> slice F E C cylinder cut_edges make_wire tops bottoms middle fit radius n = Ok ct ->
  (forall es wt, make_wire es = Ok wt -> measured wt /\ cw_first wt = 0) ->
  nth_error (c_top ct) 0 = Some (c_te ct) /\ nth_error (c_top ct) (n - 1) = Some (c_le ct).
Proof. exact bladex_ends. Qed.
Print Assumptions C104_ends.

Theorem C104_failures : forall (F E C : Type) (cylinder : R -> res (list (F * pt3))) (cut_edges : F -> res (list E)) (make_wire : list E -> res cwire)
  (tops bottoms : cwire -> pt3 -> pt3 -> list pt3) (middle : pt3 -> pt3 -> pt3 -> pt3 -> res pt3) (fit : list pt3 -> res C)
  (cubic : list R -> list R -> res (R -> res R))
  radius radii n fs, cylinder radius = Ok fs ->
  (Forall (fun g => fst (fst (snd g)) <> 0) fs -> new_bladex F E C cylinder cut_edges make_wire tops bottoms middle fit cubic (radius :: radii) n = Err TypeError) /\
  (forall f e w x, last_radial fs f -> cut_edges f = Ok [e] -> make_wire [e] = Ok w -> make_wire [] = Err x -> new_bladex F E C cylinder cut_edges make_wire tops bottoms middle fit cubic (radius :: radii) n = Err x) /\
  (forall f es w wt wb cam c, last_radial fs f -> cut_edges f = Ok es -> make_wire es = Ok w -> make_wire (odds es) = Ok wt -> make_wire (evens es) = Ok wb ->
     camber_points (tops wt) (bottoms wb) middle 500 radius (cw_value wt (cw_last wt)) (cw_value wt 0) = Ok cam -> fit cam = Ok c ->
     new_bladex F E C cylinder cut_edges make_wire tops bottoms middle fit cubic (radius :: radii) 1 = Err OtherException).
Proof. exact bladex_fails. Qed.
Print Assumptions C104_failures.

Theorem C104_succeeds : forall (F E C : Type) (cylinder : R -> res (list (F * pt3))) (cut_edges : F -> res (list E)) (make_wire : list E -> res cwire)
  (tops bottoms : cwire -> pt3 -> pt3 -> list pt3) (middle : pt3 -> pt3 -> pt3 -> pt3 -> res pt3) (fit : list pt3 -> res C)
  (cubic : list R -> list R -> res (R -> res R))
  radii n, total_interpolant cubic -> (2 <= n <= 500)%nat ->
  (forall radius, In radius radii -> radius <> 0 /\ exists fs f es w wt wb cam c, cylinder radius = Ok fs /\ last_radial fs f /\ cut_edges f = Ok es /\
     make_wire es = Ok w /\ make_wire (odds es) = Ok wt /\ make_wire (evens es) = Ok wb /\
     camber_points (tops wt) (bottoms wb) middle 500 radius (cw_value wt (cw_last wt)) (cw_value wt 0) = Ok cam /\ cam <> [] /\ fit cam = Ok c /\
     snd (unroll radius (cw_value wt (cw_last wt))) <> snd (unroll radius (cw_value wt 0))) ->
  exists v r, new_bladex F E C cylinder cut_edges make_wire tops bottoms middle fit cubic radii n = Ok (v, r).
Proof. exact bladex_total. Qed.
Print Assumptions C104_succeeds.

Theorem C104_faces_in_step : forall (F E C : Type) (cylinder : R -> res (list (F * pt3))) (cut_edges : F -> res (list E)) (make_wire : list E -> res cwire)
  (tops bottoms : cwire -> pt3 -> pt3 -> list pt3) (middle : pt3 -> pt3 -> pt3 -> pt3 -> res pt3) (fit : list pt3 -> res C)
  (cubic : list R -> list R -> res (R -> res R))
  radii n v r, new_bladex F E C cylinder cut_edges make_wire tops bottoms middle fit cubic radii n = Ok (v, r) ->
  (forall radius fs, In radius radii -> cylinder radius = Ok fs -> exists f, only_radial fs f) ->
  List.length (v_faces F C v) = List.length radii /\
  forall j radius, nth_error radii j = Some radius -> exists fs f, cylinder radius = Ok fs /\ last_radial fs f /\ nth_error (v_faces F C v) j = Some f.
Proof. exact views_in_step. Qed.
Print Assumptions C104_faces_in_step.

Theorem C104_display : forall (F E C : Type) (cylinder : R -> res (list (F * pt3))) (cut_edges : F -> res (list E)) (make_wire : list E -> res cwire)
  (tops bottoms : cwire -> pt3 -> pt3 -> list pt3) (middle : pt3 -> pt3 -> pt3 -> pt3 -> res pt3) (fit : list pt3 -> res C)
  (cubic : list R -> list R -> res (R -> res R))
  radii n v r, new_bladex F E C cylinder cut_edges make_wire tops bottoms middle fit cubic radii n = Ok (v, r) ->
  (forall radius fs, In radius radii -> cylinder radius = Ok fs -> exists f, only_radial fs f) ->
  forall radius window,
  (~ In radius radii -> forall k, display_cylinder F C window v k radii radius = ([], Err ValueError) /\ display_section F C window v k radii radius = ([], Err ValueError)) /\
  (In radius radii -> exists fs f w c, cylinder radius = Ok fs /\ last_radial fs f /\ (exists es, cut_edges f = Ok es /\ make_wire es = Ok w) /\
     (forall e, window = Err e -> display_cylinder F C window v NdArray radii radius = ([], Err e) /\ display_section F C window v NdArray radii radius = ([], Err e)) /\
     (window = Ok tt -> display_cylinder F C window v NdArray radii radius = ([Blade F C; Surface F C f; Wire F C w], Ok tt) /\
        display_section F C window v NdArray radii radius = ([Surface F C f; Wire F C w; Green F C c], Ok tt))).
Proof. exact displayed. Qed.
Print Assumptions C104_display.

Example C104_example : (exists v r, new_bladex nat nat (list pt3) a_cylinder two_edges wire_of_edges at_point at_point the_point the_points table [50] 40 = Ok (v, r)) /\
  only_radial [(0%nat, (1, 0, 0)); (1%nat, (-1, 0, 0)); (2%nat, (0, 0, 1))] 2%nat /\
  (forall es wt, wire_of_edges es = Ok wt -> measured wt /\ cw_first wt = 0).
Proof.
  split; [apply a_total; lia|]. split; [apply a_only|]. intros [|e es] wt H; [discriminate|]. injection H as <-. split; [split; reflexivity|reflexivity].
Qed.

(** One edge only: nothing is left for the lower wire. *)
Example C104_single_edge : new_bladex nat nat (list pt3) a_cylinder (fun _ => Ok [0%nat]) wire_of_edges at_point at_point the_point the_points table [50] 40 = Err RuntimeError.
Proof.
  eapply bladex_fails; [reflexivity|apply a_radial|reflexivity|reflexivity|reflexivity].
Qed.
