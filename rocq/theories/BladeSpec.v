(** Vocabulary of the blade properties; nothing here occurs in the model. *)
From Coq Require Import Reals List String.
From Verif Require Import Base ProfileModel ProfileSpec BladeModel.
Import ListNotations.
Open Scope R_scope.

(** The sections, radii, chords, pitch, rake and skew have the same number of entries. *)
Definition consistent (b : blade) : Prop :=
  List.length (radii b) = List.length (sections b) /\ List.length (chords b) = List.length (sections b) /\
  List.length (pitch b) = List.length (sections b) /\ List.length (rake b) = List.length (sections b) /\
  List.length (skew b) = List.length (sections b).

(** The data of one radial station. *)
Record station (b : blade) (i s : nat) (r c P k sk : R) : Prop := mkStation {
  st_section : nth_error (sections b) i = Some s;
  st_radius : nth_error (radii b) i = Some r;
  st_chord : nth_error (chords b) i = Some c;
  st_pitch : nth_error (pitch b) i = Some P;
  st_rake : nth_error (rake b) i = Some k;
  st_skew : nth_error (skew b) i = Some sk }.

(** Profile centred on its reference point and scaled to the chord. *)
Definition sized (c : R) (ref a : pt) : pt := pscale c (psub a ref).
(** Section seated at a radius: optional point reflection, rotation by
    90 degrees minus the pitch angle, skew along the circumference, rake along
    the axis. *)
Definition seat (r P k sk : R) (refl : bool) (a : pt) : pt :=
  padd (- (k + sk * (PI / 180) * P / (2 * PI)), - (r * (sk * (PI / 180))))
       (prot (PI / 2 - atan (P / (2 * PI * r))) (if refl then pneg a else a)).
(** The plane wound on the cylinder of radius r around the x axis. *)
Definition wrap (r : R) (a : pt) : pt3 := (fst a, r * sin (snd a / r), r * cos (snd a / r)).

(** [q] is the profile [p] with every surface point moved by [f]. *)
Definition moved (f : pt -> pt) (p q : profile) : Prop :=
  uniform q /\ upper q = map f (upper p) /\ lower q = map f (lower p).

(** Same parameters (everything except what is generated). *)
Definition same_parameters (b c : blade) : Prop :=
  sections b = sections c /\ radii b = radii c /\ chords b = chords c /\ pitch b = pitch c /\
  rake b = rake c /\ skew b = skew c /\ thickness b = thickness c /\ camber b = camber c.
Definition same_faces (b c : blade) : Prop :=
  upper_face b = upper_face c /\ lower_face b = lower_face c /\
  tip_face b = tip_face c /\ root_face b = root_face c.

(** Euclidean space. *)
Definition norm3 (a : pt3) : R := sqrt (dot3 a a).
Definition dist3 (a b : pt3) : R := norm3 (sub3 a b).
Definition neg3 (a : pt3) : pt3 := scale3 (-1) a.

(** Equality of faces as point sets. *)
Definition face_eq (f g : face) : Prop := forall q, f q <-> g q.
Definition oface_eq (f g : option face) : Prop :=
  match f, g with
  | Some f', Some g' => face_eq f' g'
  | None, None => True
  | _, _ => False
  end.
(** Every face of [c] is the image under [T] of the same face of [b]. *)
Definition faces_moved (T : pt3 -> pt3) (b c : blade) : Prop :=
  oface_eq (option_map (image T) (upper_face b)) (upper_face c) /\
  oface_eq (option_map (image T) (lower_face b)) (lower_face c) /\
  oface_eq (option_map (image T) (tip_face b)) (tip_face c) /\
  oface_eq (option_map (image T) (root_face b)) (root_face c).
(** Every coordinate of [c] is the image under [T] of that of [b]. *)
Definition coords_moved (T : pt3 -> pt3) (b c : blade) : Prop :=
  exists up down, coordinates b = Built up down /\
    coordinates c = Built (map (map T) up) (map (map T) down).
Definition has_faces (b : blade) : Prop :=
  upper_face b <> None /\ lower_face b <> None /\ tip_face b <> None /\ root_face b <> None.
(** Generated blade: coordinates and four faces. *)
Definition generated (b : blade) : Prop :=
  (exists up down, coordinates b = Built up down) /\ has_faces b.

(** Linear map multiplying all distances by [k]. *)
Definition similarity (k : R) (T : pt3 -> pt3) : Prop :=
  (forall a b, T (add3 a b) = add3 (T a) (T b)) /\
  (forall x a, T (scale3 x a) = scale3 x (T a)) /\
  (forall a b, dist3 (T a) (T b) = k * dist3 a b).

(** Rotations about the coordinate axes, in degrees or radians, and scalings. *)
Inductive motion : Type :=
| Turn (axis : string) (rad : R) | TurnDeg (axis : string) (deg : R) | Resize (k : R).
Definition do_motion (m : motion) (b : blade) : blade * res unit :=
  match m with
  | Turn ax a => blade_rotate None (Some a) ax b
  | TurnDeg ax d => blade_rotate (Some d) None ax b
  | Resize k => blade_scale k b
  end.
Fixpoint do_motions (ms : list motion) (b : blade) : blade * res unit :=
  match ms with
  | [] => (b, Ok tt)
  | m :: ms' => match do_motion m b with
                | (b', Ok _) => do_motions ms' b'
                | (b', Err e) => (b', Err e)
                end
  end.
(** About x or z, and with a non-zero factor. *)
Definition agreeing (m : motion) : Prop :=
  match m with
  | Turn ax _ | TurnDeg ax _ => ax = "x"%string \/ ax = "z"%string
  | Resize k => k <> 0
  end.
(** Product of the absolute scaling factors. *)
Definition ratio (m : motion) : R := match m with Resize k => Rabs k | _ => 1 end.
Definition ratios (ms : list motion) : R := fold_right Rmult 1 (map ratio ms).

(** The four faces are the surfaces through 1000 times the current coordinates. *)
Definition faces_agree (surface : list (list pt3) -> res face) (b : blade) : Prop :=
  exists up down fu fl ft fr lu ld su sd gu gl gt gr,
    coordinates b = Built up down /\
    upper_face b = Some fu /\ lower_face b = Some fl /\ tip_face b = Some ft /\ root_face b = Some fr /\
    final up = Ok lu /\ final down = Ok ld /\ first up = Ok su /\ first down = Ok sd /\
    surface (map (map (scale3 1000)) up) = Ok gu /\ surface (map (map (scale3 1000)) down) = Ok gl /\
    surface (map (map (scale3 1000)) [lu; ld]) = Ok gt /\ surface (map (map (scale3 1000)) [su; sd]) = Ok gr /\
    face_eq fu gu /\ face_eq fl gl /\ face_eq ft gt /\ face_eq fr gr.
(** Interpolating a moved grid gives the moved face (for every linear similarity). *)
Definition equivariant (surface : list (list pt3) -> res face) : Prop :=
  forall k T g f, k <> 0 -> similarity k T -> surface g = Ok f ->
    exists f', surface (map (map T) g) = Ok f' /\ face_eq f' (image T f).

(** The plane through [o] with normal [n]. *)
Definition on_plane (o n a : pt3) : Prop := dot3 (sub3 a o) n = 0.

(** Every use of section object [s], in the order of the loop: each one starts
    from the profile left by the previous one. *)
Inductive visits (b : blade) (refl : bool) (s : nat) : list nat -> profile -> profile -> Prop :=
| v_nil : forall p, visits b refl s [] p p
| v_skip : forall i is p q, nth_error (sections b) i <> Some s ->
    visits b refl s is p q -> visits b refl s (i :: is) p q
| v_use : forall i is r c P k sk ref p p' q, station b i s r c P k sk ->
    reference_point p = Ok ref -> moved (fun a => seat r P k sk refl (sized c ref a)) p p' ->
    visits b refl s is p' q -> visits b refl s (i :: is) p q.

(** The surfaces meet in the leading and in the trailing edge. *)
Definition closed (p : profile) : Prop :=
  exists le te, first (upper p) = Ok le /\ first (lower p) = Ok le /\
    final (upper p) = Ok te /\ final (lower p) = Ok te.

(** The blade with other camber values. *)
Definition with_camber (cs : list R) (b : blade) : blade :=
  mkBlade (sections b) (radii b) (chords b) (pitch b) (rake b) (skew b) (thickness b) (Some cs)
    (coordinates b) (upper_face b) (lower_face b) (tip_face b) (root_face b).

(** Chord along the x direction, closed leading edge. *)
Definition level (p : profile) : Prop :=
  exists y0 yu yd, first (yup p) = Ok y0 /\ first (ydown p) = Ok y0 /\
    final (yup p) = Ok yu /\ final (ydown p) = Ok yd /\ (yu + yd) / 2 = y0.

(** Rotation of space about a coordinate axis (the code's orientation for y). *)
Definition turn (axis : string) (t : R) (p : pt3) : pt3 :=
  let '(x, y, z) := p in
  if String.eqb axis "x" then (x, cos t * y - sin t * z, sin t * y + cos t * z) else
  if String.eqb axis "y" then (cos t * x - sin t * z, y, sin t * x + cos t * z) else
  (cos t * x - sin t * y, sin t * x + cos t * y, z).
Definition is_axis (s : string) : Prop := s = "x"%string \/ s = "y"%string \/ s = "z"%string.

(** Reflection in the plane through [o] with (not necessarily unit) normal [n]. *)
Definition reflection (o n p : pt3) : pt3 :=
  sub3 p (scale3 (2 * dot3 (sub3 p o) n / dot3 n n) n).
Definition as_list (p : pt3) : list R := let '(x, y, z) := p in [x; y; z].
Definition zero3 : pt3 := (0, 0, 0).
(** [n] upper and [m] lower points. *)
Definition counted (n m : nat) (p : profile) : Prop :=
  List.length (xup p) = n /\ List.length (yup p) = n /\ List.length (xdown p) = m /\ List.length (ydown p) = m.
