(** Vocabulary for whole profile objects; nothing here occurs in the model. *)
From Coq Require Import String Reals List ZArith.
From Verif Require Import Base ProfileModel AirfoilModel.
Import ListNotations.
Open Scope R_scope.

(** The outcome is one the model describes: no division by zero and no unusual
    argument occurred. *)
Definition described {A} (r : res A) : Prop := r <> Err NonFinite /\ r <> Err Unmodelled.

(** A program calling methods one after the other, catching exceptions. *)
Inductive runs (am : profile -> R -> list R -> R -> list R -> res (list R)) (cu : list R -> list R -> list R -> res (list R))
  : airfoil -> list call -> airfoil -> Prop :=
| runs_nil : forall a, runs am cu a [] a
| runs_cons : forall a c a1 r cs a2, perform am cu c a = (a1, r) -> described r -> runs am cu a1 cs a2 -> runs am cu a (c :: cs) a2.

(** What a call does to the coordinates: the given result, or an exception that
    leaves them alone. *)
Definition does am cu (c : call) (a : airfoil) (r : res profile) : Prop :=
  match r with
  | Ok p => exists a', perform am cu c a = (a', Ok Nothing) /\ coords a' = Ok p
  | Err e => exists a', perform am cu c a = (a', Err e) /\ coords a' = coords a
  end.
Definition answers {A} am cu (c : call) (a : airfoil) (f : A -> answer) (r : res A) : Prop :=
  exists a', perform am cu c a = (a', match r with Ok x => Ok (f x) | Err e => Err e end) /\ coords a' = coords a.

(** Everything but the kept lines and edges agrees. *)
Definition alike (a b : airfoil) : Prop :=
  sort a = sort b /\ a_xup a = a_xup b /\ a_xdown a = a_xdown b /\ a_yup a = a_yup b /\ a_ydown a = a_ydown b /\ stored a = stored b.

(** The call moves or deforms the coordinates. *)
Definition moves (c : call) : Prop :=
  match c with Translate _ | Reflect | Scale _ _ | Rotate _ _ | SetThicknessMax _ => True | _ => False end.
(** The calls that show a kept line. *)
Definition shows_lines (c : call) : Prop :=
  match c with Plot o => o_chord o = true \/ o_camber o = true | _ => False end.
(** The number of points with which a call computes the chord line. *)
Inductive chord_with : call -> option Z -> Prop :=
| cw_compute : forall n, chord_with (ComputeChordLine n) n
| cw_max : forall n, chord_with (MaxCamber n) n
| cw_set : forall m, chord_with (SetCamberLineMax m) (Some 500%Z).
(** The call replaces the parameters. *)
Definition sets_parameters (c : call) : Prop :=
  match c with GenerateParameters _ | AssignParameters _ => True | _ => False end.

(** All lengths and heights multiplied. *)
Definition enlarged (k : R) (q : params) : params :=
  mkParams (k * chord_length q) (chord_percentage q) (k * camber_max q) (camber_percentage q) (k * thickness_max q) (thickness_percentage q).

(** Where a picture goes: a nonempty file name, or the screen. *)
Inductive aimed : outfile -> target -> Prop :=
| aim_none : aimed NoFile Shown
| aim_empty : aimed (FileName "") Shown
| aim_false : aimed (NotAString false) Shown
| aim_file : forall s, s <> ""%string -> aimed (FileName s) (Saved s).
(** The picture of a profile with given lines and reference point. *)
Definition picture (o : plot_options) (p : profile) (ch ca : line) (r : pt) : list drawing :=
  (if o_profile o then [Curve "Upper profile" (xup p, yup p); Curve "Lower profile" (xdown p, ydown p)] else []) ++
  (if o_chord o then [Curve "Chord line" ch] else []) ++
  (if o_camber o then [Curve "Camber line" ca] else []) ++
  (if o_ref o then [Dot r] else []).
(** A line that can be drawn. *)
Definition drawable (l : line) : Prop := List.length (fst l) = List.length (snd l).
(** Everything the options ask for is there. *)
Definition can_show (o : plot_options) (a : airfoil) (p : profile) (ch ca : line) (r : pt) : Prop :=
  coords a = Ok p /\
  (o_profile o = true -> drawable (xup p, yup p) /\ drawable (xdown p, ydown p)) /\
  (o_chord o = true -> chord a = Is ch /\ drawable ch) /\
  (o_camber o = true -> camber a = Is ca /\ drawable ca) /\
  (o_ref o = true -> reference_point p = Ok r).
(** A convention that generate_coordinates knows. *)
Definition known (cv : option string) : Prop := cv = None \/ cv = Some "british"%string \/ cv = Some "american"%string.
(** Calls that start by computing the edges. *)
Definition asks_edges (c : call) : Prop :=
  match c with ReferencePoint | ComputeChordLine _ | MaxCamber _ | SetCamberLineMax _ | Scale _ true => True | _ => False end.
