(** C101, C102: the solid read from a file; text forms and display. *)
From Coq Require Import Reals ZArith Ascii String.
From Coq Require Import List.
From Verif Require Import Base TextModel TextProofs ParamsModel BladeModel BladeSpec BladeProofs BladeProofs6 PrintModel PrintSpec SolidModel PrintProofs.
Import ListNotations.

(** All faces of the file are sewn exactly if the first root is a face or no
    other root has faces. *)
Theorem C101_all_faces : forall sew mk s l x, extract_solid sew mk (s :: l) = Ok x ->
  (flat_map (explore Face) (added x) = flat_map (explore Face) (s :: l) <->
   kind_of s = Face \/ forall t, In t l -> explore Face t = []).
Proof. exact all_sewn. Qed.
Print Assumptions C101_all_faces.
Theorem C101_order_refuted : exists x y, extract_solid sew_all (fun l => Some (Shape Solid 10 l)) [box; cap] = Ok x /\
  extract_solid sew_all (fun l => Some (Shape Solid 10 l)) [cap; box] = Ok y /\
  flat_map (explore Face) (added x) = [Shape Face 3 []; Shape Face 4 []] /\
  flat_map (explore Face) (added y) = [cap; Shape Face 3 []; Shape Face 4 []].
Proof. exact order_matters. Qed.
Print Assumptions C101_order_refuted.
Theorem C101_solid : forall sew mk roots x, extract_solid sew mk roots = Ok x ->
  let sewn := sew (added x) in
  ((kind_of sewn = Compound /\ shells x = explore Shell sewn) \/ (kind_of sewn = Shell /\ shells x = [sewn])) /\
  ((exists v, mk (shells x) = Some v /\ solid x = v) \/ (mk (shells x) = None /\ solid x = sewn)).
Proof. exact solid_of. Qed.
Print Assumptions C101_solid.
Theorem C101_loose_face_refuted : exists x f,
  extract_solid (fun l => Shape Compound 0 [Shape Shell 7 [Shape Face 3 []]; cap]) (fun l => Some (Shape Solid 10 l)) [cap; box] = Ok x /\
  In f (flat_map (explore Face) (added x)) /\ ~ In f (explore Face (solid x)).
Proof. exact loose_face. Qed.
Print Assumptions C101_loose_face_refuted.

(** The text of a parameter file, arrays printed on one line. *)
Theorem C102_params_lines : forall F show, (forall l, no_nl (show l)) -> forall p, split_nl (params_text F show p) = params_lines show p.
Proof. exact params_text_lines. Qed.
Print Assumptions C102_params_lines.
Theorem C102_same_params : forall F show, (forall l, no_nl (show l)) -> forall p q, params_text F show p = params_text F show q <->
  show_optional F show (ParamsModel.radii _ p) = show_optional F show (ParamsModel.radii _ q) /\
  forall k, show_optional F show (at_key (parameters _ p) k) = show_optional F show (at_key (parameters _ q) k) /\
    at_key (degree _ p) k = at_key (degree _ q) k /\ at_key (npoints _ p) k = at_key (npoints _ q) k /\
    at_key (nbasis _ p) k = at_key (nbasis _ q) k /\ show (at_key (deformations _ p) k) = show (at_key (deformations _ q) k).
Proof. exact same_text. Qed.
Print Assumptions C102_same_params.
Example C102_params_example : forall l : list Z, no_nl (match l with [] => L "[]" | x :: _ => show_int x end).
Proof. intros [|x l]; [exact (no_nl_lit "[]" eq_refl) | exact (no_nl_int x)]. Qed.
Theorem C102_blade_text : forall show b, consistent b -> Forall (fun r => r <> 0%R) (BladeModel.radii b) ->
  exists s, blade_text show b = Ok s.
Proof. exact blade_text_ok. Qed.
Print Assumptions C102_blade_text.
Theorem C102_blade_lines : forall show b s, (forall l, no_nl (show l)) -> blade_text show b = Ok s ->
  exists a i, pitch_angles b = Ok a /\ induced_rake b = Ok i /\
  split_nl s = [ L "Blade number of sections = " ++ show_int (Z.of_nat (List.length (sections b)));
    L "Blade radii sections = " ++ show (BladeModel.radii b);
    L "Chord lengths of the sectional profiles = " ++ show (chords b);
    L "Radial distribution of the pitch (in unit lengths) = " ++ show (pitch b);
    L "Radial distribution of the rake (in unit length) = " ++ show (rake b);
    L "Radial distribution of the skew angles (in degrees) = " ++ show (skew b);
    L "Pitch angles (in radians) for the sections = " ++ show a;
    L "Induced rake from skew (in unit length) for the sections = " ++ show i ].
Proof. exact blade_text_lines. Qed.
Print Assumptions C102_blade_lines.
Example C102_blade_example : exists s, blade_text (fun l => show_int (Z.of_nat (List.length l))) two_blade = Ok s.
Proof. exact text_example. Qed.
(** The window opens exactly if all four faces were generated. *)
Theorem C102_display : forall e b fs r, display_blade e b = (fs, r) ->
  (r = Ok tt <-> exists u l t o, upper_face b = Some u /\ lower_face b = Some l /\ root_face b = Some o /\ tip_face b = Some t /\ fs = [u; l; o; t]) /\
  (r = Ok tt \/ r = Err e) /\
  (exists rest, [upper_face b; lower_face b; root_face b; tip_face b] = map Some fs ++ rest /\ (r = Err e -> hd_error rest = Some None)).
Proof. exact display_all. Qed.
Print Assumptions C102_display.
Example C102_display_example : display_blade ValueError two_blade = ([], Err ValueError).
Proof. reflexivity. Qed.
