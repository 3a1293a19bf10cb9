(** Vocabulary for the exports of a blade; nothing here occurs in the model. *)
From Coq Require Import String Ascii Reals List ZArith.
From Verif Require Import Base TextModel ProfileModel ProfileSpec BladeModel BladeSpec.
Import ListNotations.
Open Scope R_scope.

(** [k] is the first index at which [xs] is nearest to [t]. *)
Definition first_nearest (xs : list R) (t : R) (k : nat) : Prop :=
  exists x, nth_error xs k = Some x /\
    (forall j y, nth_error xs j = Some y -> Rabs (x - t) <= Rabs (y - t)) /\
    (forall j y, (j < k)%nat -> nth_error xs j = Some y -> Rabs (x - t) < Rabs (y - t)).

(** [lo] and [hi] are the smallest and largest entry. *)
Definition extent (xs : list R) (lo hi : R) : Prop :=
  In lo xs /\ In hi xs /\ forall x, In x xs -> lo <= x <= hi.

(** The position singled out by the docstring: 95% of the way along the x axis. *)
Definition marked (p : profile) (k : nat) : Prop :=
  exists lo hi, extent (xdown p) lo hi /\ first_nearest (xdown p) (lo + 95 / 100 * (hi - lo)) k.

(** Distance from the axis. *)
Definition axis_distance (p : pt3) : R := let '(_, y, z) := p in sqrt (y * y + z * z).

(** [k] is the sample nearest to the fraction [q] of the chord, counted from the
    smallest abscissa (the leading edge of a profile). *)
Definition at_fraction (q : R) (p : profile) (k : nat) : Prop :=
  exists lo hi, extent (xdown p) lo hi /\ first_nearest (xdown p) (lo + q * (hi - lo)) k.
(** The lower surface is a horizontal line. *)
Definition flat_below (p : profile) : Prop := exists y0, forall y, In y (ydown p) -> y = y0.

(** The surface contains the points it is made from. *)
Definition interpolating (surface : list (list pt3) -> res face) : Prop :=
  forall g f row a, surface g = Ok f -> In row g -> In a row -> f a.

(** A list with the index of every element. *)
Definition numbered {A} (l : list A) : list (nat * A) := combine (seq 0 (List.length l)) l.

(** One row of the report on the distances: section, point, three coordinates in
    millimetres, distance. *)
Definition tab3 : str := ["009"; "009"; "009"]%char.
Definition report_row (float_str : R -> str) (i j : nat) (p : pt3) (d : R) : str :=
  let '(x, y, z) := p in
  show_int (Z.of_nat i) ++ tab3 ++ show_int (Z.of_nat j) ++ tab3 ++ float_str (1000 * x) ++ tab3 ++
  float_str (1000 * y) ++ tab3 ++ float_str (1000 * z) ++ tab3 ++ float_str d ++ [nl].
(** [text] is the part of the report on the face [f]: a title, the names of the
    columns and a row for every point, section by section. *)
Definition reports (float_str : R -> str) (distance : face -> pt3 -> res R) (title : string) (f : face) (grid : list (list pt3)) (text : str) : Prop :=
  exists rows : list (list str),
    Forall2 (fun r ls => Forall2 (fun q l => exists d, distance f (scale3 1000 (snd q)) = Ok d /\
                                              l = report_row float_str (fst r) (fst q) (snd q) d) (numbered (snd r)) ls)
            (numbered grid) rows /\
    text = L "########## " ++ L title ++ L " ##########" ++ [nl; nl] ++
           L "N_section" ++ ["009"; "009"]%char ++ L "N_point" ++ tab3 ++ L "X_crds" ++ "009"%char :: tab3 ++
           L "Y_crds" ++ "009"%char :: "009"%char :: tab3 ++ L "Z_crds" ++ "009"%char :: "009"%char :: tab3 ++ L "DISTANCE" ++ [nl; nl] ++
           List.concat (List.concat rows).
