(** Vocabulary of the propeller properties; nothing here occurs in the model. *)
From Coq Require Import String Reals List ZArith.
From Verif Require Import Base ProfileModel BladeModel BladeSpec ObjModel PropellerModel.
Import ListNotations.
Open Scope R_scope.

Arguments shaft {solid shaft_t}. Arguments blades {solid shaft_t}. Arguments cached_solid {solid shaft_t}.
Arguments cached_shape {solid shaft_t}. Arguments shaft_solid {solid shaft_t}. Arguments blades_solid {solid shaft_t}.
Arguments mkProp {solid shaft_t}. Arguments perform {solid shaft_t}. Arguments get_solid {solid shaft_t}. Arguments get_shape {solid shaft_t}.
Arguments make_shaft {solid shaft_t}. Arguments make_solid {solid shaft_t}. Arguments fuse {solid shaft_t}. Arguments sew {solid shaft_t}.
Arguments sew_faces {solid shaft_t}. Arguments writable {solid shaft_t}. Arguments mesh_of {solid shaft_t}. Arguments window {solid shaft_t}.
Arguments new_propeller {solid shaft_t}. Arguments Solid_ {solid shaft_t}. Arguments Shape_ {solid shaft_t}. Arguments Display {solid shaft_t}.
Arguments ExportIges {solid shaft_t}. Arguments ExportStl {solid shaft_t}. Arguments TmpStl {solid shaft_t}. Arguments GenerateObj {solid shaft_t}.
Arguments GenerateObjBlades {solid shaft_t}. Arguments AssignBlades {solid shaft_t}. Arguments AssignShaft {solid shaft_t}.
Arguments AssignShaftSolid {solid shaft_t}. Arguments AssignBladesSolid {solid shaft_t}. Arguments Solid {solid}. Arguments Nothing {solid}.
Arguments Iges {solid}. Arguments Stl {solid}. Arguments StlCompound {solid}. Arguments Obj {solid}. Arguments mkCad {solid shaft_t}.

(** A history: every access happens in a world of its own. *)
Fixpoint after {S T} (h : list (cad S T * access S T)) (p : propeller S T) : propeller S T :=
  match h with
  | [] => p
  | (k, a) :: h' => after h' (fst (fst (perform k a p)))
  end.
(** No attribute is assigned from outside which the class does not set. *)
Definition only_methods {S T} (h : list (cad S T * access S T)) : Prop :=
  Forall (fun x => match snd x with AssignShaftSolid _ | AssignBladesSolid _ => False | _ => True end) h.

(** Point [m] of section [s] of the upper (or lower) surface of a blade. *)
Definition blade_point (b : blade) (top : bool) (s m : nat) (q : pt3) : Prop :=
  exists up down l, coordinates b = Built up down /\ nth_error (if top then up else down) s = Some l /\ nth_error l m = Some q.
(** The four faces of a blade. *)
Definition four_faces (b : blade) (u l t r : face) : Prop :=
  upper_face b = Some u /\ lower_face b = Some l /\ tip_face b = Some t /\ root_face b = Some r.
Definition sum3 (l : list pt3) : pt3 := fold_right add3 (0, 0, 0) l.
(** The blade has its four faces and they make this solid. *)
Definition has_solid {S T} (k : cad S T) (o : own_blade) (x : S) : Prop :=
  exists u l t r, four_faces (snd o) u l t r /\ make_solid k [u; l; t; r] = Ok x.
