(** Vocabulary for the reverse propeller; nothing here occurs in the model. *)
From Coq Require Import Reals List Permutation.
From Verif Require Import Base ProfileModel ProfileSpec BladeModel ReverseModel.
Import ListNotations.
Open Scope R_scope.

(** Twice the oriented area of a triangle. *)
Definition area2 (a b c : pt) : R :=
  (fst b - fst a) * (snd c - snd a) - (fst c - fst a) * (snd b - snd a).
(** Multiplies distances by [k] and reverses the orientation. *)
Definition mirror_similarity (k : R) (T : pt -> pt) : Prop :=
  (forall a b, pdist (T a) (T b) = k * pdist a b) /\
  (forall a b c, area2 (T a) (T b) (T c) = - (k * k) * area2 a b c).
(** Order by the first coordinate, then by the second. *)
Definition lex (p q : pt) : Prop := fst p < fst q \/ (fst p = fst q /\ snd p <= snd q).
(** A list in which neighbours are related. *)
Inductive ordered {A} (P : A -> A -> Prop) : list A -> Prop :=
| o_nil : ordered P []
| o_one : forall a, ordered P [a]
| o_more : forall a b l, P a b -> ordered P (b :: l) -> ordered P (a :: b :: l).
(** First and last entry moved to the abscissae 0 and 1 (a list of at least two). *)
Definition pinned (l m : list pt) : Prop :=
  exists p q mid, l = p :: mid ++ [q] /\ m = (0, snd p) :: mid ++ [(1, snd q)].
(** First and last entry set to zero. *)
Definition zeroed (l m : list R) : Prop := exists a b mid, l = a :: mid ++ [b] /\ m = 0 :: mid ++ [0].
(** The interpolant passes through its nodes (distinct abscissae). *)
Definition interpolates (cubic : list R -> list R -> res (R -> res R)) : Prop :=
  forall xs ys f i x y, NoDup xs -> cubic xs ys = Ok f -> nth_error xs i = Some x -> nth_error ys i = Some y -> f x = Ok y.
(** Every interpolation succeeds. *)
Definition total_interpolant (cubic : list R -> list R -> res (R -> res R)) : Prop :=
  forall xs ys, exists f, cubic xs ys = Ok f /\ forall x, exists y, f x = Ok y.
(** [nodes] are the points [l] sorted and pinned, [ys] the [n] values of their
    interpolant, the ends replaced by zero. *)
Definition surface_from (cubic : list R -> list R -> res (R -> res R)) (n : nat) (l nodes : list pt) (ys : list R) : Prop :=
  exists sorted f vs, Permutation sorted l /\ ordered lex sorted /\ pinned sorted nodes /\
    cubic (map fst nodes) (map snd nodes) = Ok f /\ mapM f (linspace 0 1 n) = Ok vs /\ zeroed vs ys.
(** Both surfaces are mirrored if the largest deviation of the first is negative. *)
Definition upside (top bottom top' bottom' : list pt) : Prop :=
  exists k p, nth_error top k = Some p /\ (forall q, In q top -> Rabs (snd q) <= Rabs (snd p)) /\
   (forall j q, (j < k)%nat -> nth_error top j = Some q -> Rabs (snd q) < Rabs (snd p)) /\
   let m := fun q : pt => (fst q, - snd q) in
   ((snd p < 0 /\ top' = map m top /\ bottom' = map m bottom) \/ (0 <= snd p /\ top' = top /\ bottom' = bottom)).
(** A point of a profile in the frame of its chord. *)
Definition in_chord (le : pt) (L : R) (a : pt) : pt := pscale (/ L) (psub a le).
(** The section at radius [r] (in m; in mm for the slice) is read exactly on the
    two rows of blade coordinates: edges, upper and lower points. *)
Definition true_slice (slice : R -> nat -> res cut) (n : nat) (r : R) (rowu rowd : list pt3) : Prop :=
  exists ct a z, slice (1000 * r) n = Ok ct /\ first rowu = Ok a /\ final rowu = Ok z /\
    c_le ct = scale3 1000 a /\ c_te ct = scale3 1000 z /\
    c_top ct = map (scale3 1000) rowu /\ c_bottom ct = map (scale3 1000) rowd.
(** Profile of unit chord with the leading edge in the origin, on [n] equally
    spaced abscissae, the upper surface not below the chord. *)
Definition unit_foil (n : nat) (p : profile) : Prop :=
  xup p = linspace 0 1 n /\ xdown p = linspace 0 1 n /\ List.length (yup p) = n /\ List.length (ydown p) = n /\
  first (yup p) = Ok 0 /\ first (ydown p) = Ok 0 /\ final (yup p) = Ok 0 /\ final (ydown p) = Ok 0 /\
  Forall (fun y => 0 <= y) (yup p) /\ Exists (fun y => 0 < y) (yup p).
(** [l] is a selection of the points of [m] satisfying [P], sorted stably by the
    first coordinate. *)
Definition selected_by_x (P : pt -> Prop) (m l : list pt) : Prop :=
  exists kept, (forall p, In p kept <-> In p m /\ P p) /\ Permutation l kept /\
    ordered (fun a b : pt => fst a <= fst b) l /\
    forall x, filter (fun q => if Req_EM_T (fst q) x then true else false) l =
              filter (fun q => if Req_EM_T (fst q) x then true else false) kept.
