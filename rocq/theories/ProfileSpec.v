(** Vocabulary of the profile properties; nothing here occurs in the model. *)
From Coq Require Import Reals List.
From Verif Require Import Base ProfileModel.
Import ListNotations.
Open Scope R_scope.

(** All surface points, upper surface first. *)
Definition upper (p : profile) : list pt := combine (xup p) (yup p).
Definition lower (p : profile) : list pt := combine (xdown p) (ydown p).
Definition points (p : profile) : list pt := upper p ++ lower p.

(** Every abscissa has an ordinate. *)
Definition paired (p : profile) : Prop :=
  List.length (xup p) = List.length (yup p) /\ List.length (xdown p) = List.length (ydown p).
(** Four equally long arrays. *)
Definition uniform (p : profile) : Prop :=
  List.length (xup p) = List.length (yup p) /\ List.length (xdown p) = List.length (ydown p) /\
  List.length (xup p) = List.length (xdown p).

(** Euclidean plane. *)
Definition padd (a b : pt) : pt := (fst a + fst b, snd a + snd b).
Definition psub (a b : pt) : pt := (fst a - fst b, snd a - snd b).
Definition pscale (k : R) (a : pt) : pt := (k * fst a, k * snd a).
Definition pneg (a : pt) : pt := (- fst a, - snd a).
Definition pnorm (a : pt) : R := sqrt (fst a * fst a + snd a * snd a).
Definition pdist (a b : pt) : R := pnorm (psub a b).
(** Rotation of the plane by an angle about the origin. *)
Definition prot (t : R) (a : pt) : pt :=
  (cos t * fst a - sin t * snd a, sin t * fst a + cos t * snd a).
(** The line through a and b. *)
Definition collinear (a b c : pt) : Prop :=
  (fst b - fst a) * (snd c - snd a) = (snd b - snd a) * (fst c - fst a).

(** Rigid moves a caller can apply, and their execution in sequence. *)
Inductive move : Type := MTranslate (v : pt) | MRotateRad (a : R) | MRotateDeg (d : R) | MReflect.
Definition do_move (m : move) (p : profile) : res profile :=
  match m with
  | MTranslate v => Ok (translate v p)
  | MRotateRad a => rotate (Some a) None p
  | MRotateDeg d => rotate None (Some d) p
  | MReflect => Ok (reflect p)
  end.
Fixpoint do_moves (ms : list move) (p : profile) : res profile :=
  match ms with
  | [] => Ok p
  | m :: ms' => let* q := do_move m p in do_moves ms' q
  end.

(** Mean line and local thickness of two ordinate arrays. *)
Definition mean (a b : list R) : list R := map2 (fun x y => (x + y) / 2) a b.
Definition gap (a b : list R) : list R := map2 (fun x y => Rabs (x - y)) a b.
(** Pointwise order of two lists. *)
Definition above (a b : list R) : Prop := forall i x y, nth_error a i = Some x -> nth_error b i = Some y -> y <= x.

(** Closed at the leading edge, which is on the x axis, and trailing edge
    midpoint on the x axis. *)
Definition ref_position (p : profile) : Prop :=
  first (yup p) = Ok 0 /\ first (ydown p) = Ok 0 /\
  exists yu yd, final (yup p) = Ok yu /\ final (ydown p) = Ok yd /\ yu + yd = 0.
