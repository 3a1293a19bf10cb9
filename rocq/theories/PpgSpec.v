(** A reader for PPG files; nothing here occurs in the model. *)
From Coq Require Import Reals List ZArith Ascii String.
From Verif Require Import Base TextModel FormatSpec BladeModel BladeSpec.
Import ListNotations.
Open Scope R_scope.

Fixpoint after (prefix s : str) : option str :=
  match prefix, s with
  | [], _ => Some s
  | a :: p, c :: t => if ascii_dec a c then after p t else None
  | _ :: _, [] => None
  end.
Fixpoint all_some {A} (l : list (option A)) : option (list A) :=
  match l with
  | [] => Some []
  | Some a :: l' => match all_some l' with Some r => Some (a :: r) | None => None end
  | None :: _ => None
  end.
(** A line of numbers. *)
Definition numbers (line : str) : option (list R) := all_some (map read_number (words line)).
(** A line holding a number and a count. *)
Definition number_and_count (line : str) : option (R * Z) :=
  match words line with
  | [a; c] => match read_number a, parse_int c with Some x, Some n => Some (x, n) | _, _ => None end
  | _ => None
  end.

(** A profile: radius, number of points, abscissas, upper and lower ordinates. *)
Record ppg_section := mkSection { p_radius : R; p_count : Z; p_x : list R; p_up : list R; p_down : list R }.
(** The radial table, the profiles and the hub offsets. *)
Record document := mkDocument { d_rows : list (list R); d_profiles : list ppg_section; d_hub : list (list R) }.

Fixpoint read_profiles (n : nat) (ls : list str) : option (list ppg_section * list str) :=
  match n with
  | O => Some ([], ls)
  | S n' =>
      match ls with
      | l1 :: l2 :: l3 :: l4 :: ls' =>
          match number_and_count l1, numbers l2, numbers l3, numbers l4, read_profiles n' ls' with
          | Some (r, c), Some xs, Some us, Some ds, Some (ps, rest) => Some (mkSection r c xs us ds :: ps, rest)
          | _, _, _, _, _ => None
          end
      | _ => None
      end
  end.
(** [key] followed by a whole number. *)
Definition count_after (key : str) (line : str) : option Z :=
  match after key line with Some w => parse_int w | None => None end.

(** Ten header lines, the sixth of which holds the number of sections; the
    table; the profiles; the number of hub offsets; the offsets. *)
Definition read_ppg (text : str) : option document :=
  let ls := split_nl text in
  match nth_error ls 5 with
  | None => None
  | Some l =>
  match count_after (L "number of radial sections         = ") l with
  | None => None
  | Some z =>
  let n := Z.to_nat z in
  let body := skipn 10 ls in
  match all_some (map numbers (firstn n body)), read_profiles n (skipn n body) with
  | Some rows, Some (profs, h :: hub) =>
      match count_after (L "number of Hub offsets = ") h, all_some (map numbers hub) with
      | Some k, Some offs => if Z.eqb k (Z.of_nat (List.length hub)) then Some (mkDocument rows profs offs) else None
      | _, _ => None
      end
  | _, _ => None
  end end end.

(** How a number given by the caller appears. *)
Definition shows (float_str : R -> str) (x : pynum) (w : str) : Prop :=
  match x with PyInt z => parse_int w = Some z | PyFloat r => w = float_str r end.
(** The ten lines before the table. *)
Definition header_of (float_str : R -> str) (D H nb : pynum) (n : nat) (ls : list str) : Prop :=
  exists d h k c1 c2 c3, ls =
    [L "propeller id       = SVA"; L "propeller diameter = " ++ d; L "hub diameter       = " ++ h; L "number of blades   = " ++ k;
     L "'Elica PPTC workshop'"; L "number of radial sections         = " ++ c1; L "number of radial sections         = " ++ c2;
     L "number of sectional profiles      = " ++ c3; L "description of sectional profiles = BNF";
     L "            r/R            c/D      skew[deg]         rake/D            P/D            t/C            f/C"] /\
    shows float_str D d /\ shows float_str H h /\ shows float_str nb k /\
    parse_int c1 = Some (Z.of_nat n) /\ parse_int c2 = Some (Z.of_nat n) /\ parse_int c3 = Some (Z.of_nat n).
(** The hub in the file, in units of 1/10000: a cylinder of radius 0.305 that is
    closed downstream, whatever the caller's hub diameter. *)
Definition stock_hub : list (Z * Z) :=
  [(-30000, 3050); (-5700, 3050); (-4900, 3050); (-4100, 3050); (-3300, 3050); (-2500, 3050); (-1700, 3050); (2300, 3050);
   (3100, 2850); (3900, 2656); (4700, 2432); (5500, 2124); (6300, 1684); (7100, 1080); (7900, 0)]%Z.

(** A length in the file: made non-dimensional with the diameter, unless the
    caller says it already is. *)
Definition in_diameters (normalized : bool) (D x : R) : R := if normalized then x else x / D.
Definition in_radii (normalized : bool) (D r : R) : R := if normalized then r else r / (D / 2).

(** The four lengths divided by the diameter or radius, all else as before. *)
Definition nondimensional (D : R) (b b' : blade) : Prop :=
  radii b' = map (in_radii false D) (radii b) /\ chords b' = map (in_diameters false D) (chords b) /\
  pitch b' = map (in_diameters false D) (pitch b) /\ rake b' = map (in_diameters false D) (rake b) /\
  sections b' = sections b /\ skew b' = skew b /\ thickness b' = thickness b /\ camber b' = camber b /\
  coordinates b' = coordinates b /\ same_faces b b'.
