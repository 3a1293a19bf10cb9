(** Vocabulary for the shafts and faces; nothing here occurs in the model. *)
From Coq Require Import Reals List String Ascii.
From Coq Require Import List.
From Verif Require Import Base ShaftModel.
Import ListNotations.

Definition contains (s : string) (c : ascii) : Prop := In c (list_ascii_of_string s).
(** [p] is a path whose last component is a name that does not consist of dots
    only, a dot and the extension [ext]. *)
Definition has_extension (p ext : string) : Prop :=
  exists dir stem, p = (dir ++ stem ++ "." ++ ext)%string /\
    (dir = ""%string \/ exists d, dir = (d ++ "/")%string) /\
    ~ contains stem "/" /\ ~ contains ext "/" /\ ~ contains ext "." /\
    exists c, contains stem c /\ c <> "."%char.
Open Scope R_scope.
(** Euclidean length. *)
Definition length3 (v : pt3) : R := let '(x, y, z) := v in sqrt (x * x + y * y + z * z).
Definition diff3 (a b : pt3) : pt3 := let '(a1, a2, a3) := a in let '(b1, b2, b3) := b in (a1 - b1, a2 - b2, a3 - b3).
Definition along (o v : pt3) (t : R) : pt3 := let '(a, b, c) := o in let '(x, y, z) := v in (a + t * x, b + t * y, c + t * z).
Definition perpendicular (a b : pt3) : Prop :=
  let '(a1, a2, a3) := a in let '(b1, b2, b3) := b in a1 * b1 + a2 * b2 + a3 * b3 = 0.
(** Points within [r] of a foot on the axis from [o] in the direction of [v], the
    foot at most [h] away from [o]. *)
Definition in_cylinder (o v : pt3) (r h : R) (p : pt3) : Prop :=
  exists t, let foot := along o v t in
    0 <= t * length3 v <= h /\ perpendicular (diff3 p foot) v /\ length3 (diff3 p foot) <= r.
(** Rows of points as an array with one block of three rows per section. *)
Definition same_length (n : nat) (rows : list (list pt3)) : Prop := Forall (fun r => List.length r = n) rows.
Definition coordinate (d : nat) (p : pt3) : R :=
  let '(x, y, z) := p in match d with 0%nat => x | 1%nat => y | _ => z end.
Definition blocks (n : nat) (rows : list (list pt3)) : narray :=
  mkArr [List.length rows; 3%nat; n]
    (fun i => match i with [s; d; k] => coordinate d (nth k (nth s rows []) (0, 0, 0)) | _ => 0 end).
(** One section as a 2-D array of three rows. *)
Definition block (row : list pt3) : narray :=
  mkArr [3%nat; List.length row] (fun i => match i with [d; k] => coordinate d (nth k row (0, 0, 0)) | _ => 0 end).
(** The points as the rows of a 2-D array. *)
Definition by_rows (row : list pt3) : narray :=
  mkArr [List.length row; 3%nat] (fun i => match i with [k; d] => coordinate d (nth k row (0, 0, 0)) | _ => 0 end).
(** [f] is the face of the first curve in the surface through the curves
    interpolating the rows. *)
Definition lofted {edge face} (curve : R -> list pt3 -> res edge) (through : R -> nat -> list edge -> res (edge -> res face))
    (deg : nat) (tol : R) (rows : list (list pt3)) (f : face) : Prop :=
  exists e edges made, Forall2 (fun row c => curve tol row = Ok c) rows (e :: edges) /\
    through tol deg (e :: edges) = Ok made /\ made e = Ok f.
