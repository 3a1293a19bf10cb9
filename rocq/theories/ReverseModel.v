(** Model of reversepropeller/basereversepropeller.py, reversepropellerbladex.py
    and of the planar part of reversepropeller.py.

    What OpenCASCADE computes from the IGES file (solid, cylinder, section
    curves, points sampled on them) is a parameter of the model: [slice] and, for
    the class ReversePropeller, [sample], [voronoi] and [camber_line]. *)
From Coq Require Import Reals List Bool.
From Verif Require Import Base PathModel.
Import ListNotations.
Open Scope R_scope.

(** np.arctan2. *)
Definition arctan2 (y x : R) : R :=
  if Rlt_dec 0 x then atan (y / x)
  else if Rlt_dec x 0 then (if Rle_dec 0 y then atan (y / x) + PI else atan (y / x) - PI)
  else if Rlt_dec 0 y then PI / 2 else if Rlt_dec y 0 then - (PI / 2) else 0.

(** Axial coordinate and arc length, the angle in (-pi, pi]
    (reversepropellerbladex.py 280-288, 346-347). *)
Definition unroll (radius : R) (p : pt3) : pt :=
  let '(x, y, z) := p in (x, radius * arctan2 y z).
(** The same with the angle in [0, 2 pi) (reversepropeller.py 403-415, 431-437,
    457-463; reversepropellerbladex.py 299-303, 321-326). *)
Definition unroll_positive (radius : R) (p : pt3) : pt :=
  let '(x, y, z) := p in
  let theta := arctan2 y z in
  (x, radius * (if Rlt_dec theta 0 then theta + 2 * PI else theta)).

(** What _extract_parameters_and_transform_profile finds
    (basereversepropeller.py 198-204, 220, 246-249). *)
Record frame : Type := mkFrame { angle : R; skew_y : R; induced : R; rake_x : R; chord : R }.

(** np.tan in a denominator: 1 / tan = cos / sin; a zero tangent makes numpy
    divide by zero.  (For a right angle the tangent of the code is huge, not
    infinite.) *)
Definition over_tan (x a : R) : res R :=
  if Req_EM_T (sin a) 0 then Err NonFinite else Ok (x * cos a / sin a).

(** .dot(rotation_matrix.transpose()) (basereversepropeller.py 228-243). *)
Definition rotate_point (a : R) (p : pt) : pt :=
  (cos (- a) * fst p + - sin (- a) * snd p, sin (- a) * fst p + cos (- a) * snd p).
(** Skew, induced rake and rake subtracted (basereversepropeller.py 206-226). *)
Definition centre (skew ind rk : R) (p : pt) : pt := (fst p - ind - rk, snd p - skew).
(** basereversepropeller.py 198-249 and the mid-chord of
    reversepropellerbladex.py 329-331. *)
Definition frame_of (le te : pt) : res frame :=
  let a := arctan2 (snd le - snd te) (fst le - fst te) in
  let mid := ((fst le + fst te) / 2, (snd le + snd te) / 2) in
  let* ind := over_tan (snd mid) a in
  let rk := fst mid - ind in
  let l := rotate_point a (centre (snd mid) ind rk le) in
  let t := rotate_point a (centre (snd mid) ind rk te) in
  let c := sqrt ((fst l - fst t) * (fst l - fst t) + (snd l - snd t) * (snd l - snd t)) in
  Ok (mkFrame a (snd mid) ind rk c).
(** A point of the section or camber line through all the steps
    (basereversepropeller.py 206-268); a zero chord makes numpy divide by zero. *)
Definition normalise (f : frame) (p : pt) : res pt :=
  let q := rotate_point (angle f) (centre (skew_y f) (induced f) (rake_x f) p) in
  let* x := fdiv (fst q) (chord f) in let* y := fdiv (snd q) (chord f) in
  Ok (- x + 1 / 2, y).
(** The edges and the mid-chord, of which only the first coordinate is divided
    by the chord (basereversepropeller.py 253-255). *)
Definition normalise_edge (f : frame) (p : pt) : res pt :=
  let q := rotate_point (angle f) (centre (skew_y f) (induced f) (rake_x f) p) in
  let* x := fdiv (fst q) (chord f) in Ok (- x + 1 / 2, snd q).

(** l[0, 0] = x and l[-1, 0] = x. *)
Definition set_first_x (x : R) (l : list pt) : res (list pt) :=
  match l with [] => Err IndexError | p :: l' => Ok ((x, snd p) :: l') end.
Fixpoint set_last_x (x : R) (l : list pt) : res (list pt) :=
  match l with
  | [] => Err IndexError
  | p :: l' => match l' with [] => Ok [(x, snd p)] | _ => let* r := set_last_x x l' in Ok (p :: r) end
  end.
Definition pin_ends (l : list pt) : res (list pt) :=
  let* l1 := set_first_x 0 l in set_last_x 1 l1.
(** np.sort(..., order=['f0']): by the first coordinate, ties by the second. *)
Definition lex_le (p q : pt) : bool :=
  if Rlt_dec (fst p) (fst q) then true
  else if Req_EM_T (fst p) (fst q) then (if Rle_dec (snd p) (snd q) then true else false) else false.
Fixpoint insert (p : pt) (l : list pt) : list pt :=
  match l with [] => [p] | q :: l' => if lex_le p q then p :: q :: l' else q :: insert p l' end.
Fixpoint lex_sort (l : list pt) : list pt :=
  match l with [] => [] | p :: l' => insert p (lex_sort l') end.

(** l[0] = 0.0; l[-1] = 0.0. *)
Fixpoint zero_last (l : list R) : res (list R) :=
  match l with
  | [] => Err IndexError
  | y :: l' => match l' with [] => Ok [0] | _ => let* r := zero_last l' in Ok (y :: r) end
  end.
Definition zero_ends (l : list R) : res (list R) :=
  match l with [] => Err IndexError | _ :: l' => zero_last (0 :: l') end.

(** What is kept for one section. *)
Record section : Type := mkSection {
  s_frame : frame;
  s_pitch : R; s_skew_angle : R; s_skew : R; s_rake : R; s_chord : R;
  s_le : pt; s_te : pt; s_mid : pt;
  s_camber : list pt; s_airfoil : list pt;
  s_top : list pt; s_bottom : list pt;
  s_x : list R; s_yup : list R; s_ydown : list R }.

(** The object built by the constructor (basereversepropeller.py 76-103): the six
    lists and the four arrays, one row per section. *)
Record reversed : Type := mkReversed {
  radii_list : list R;
  pitch_angles_list : list R; pitch_list : list R; skew_angles_list : list R;
  skew_list : list R; rake_list : list R; chord_length_list : list R;
  r_xup : list (list R); r_xdown : list (list R); r_yup : list (list R); r_ydown : list (list R) }.
Definition collect (radii : list R) (l : list section) : reversed :=
  mkReversed radii (map (fun s => angle (s_frame s)) l) (map s_pitch l) (map s_skew_angle l) (map s_skew l)
    (map s_rake l) (map s_chord l) (map s_x l) (map s_x l) (map s_yup l) (map s_ydown l).

Section Reverse.
(** scipy.interpolate.interp1d(x, y, kind='cubic'): the construction and the
    evaluation can raise. *)
Variable cubic : list R -> list R -> res (R -> res R).

(** Frame, normalised edges, camber line and section points
    (basereversepropeller.py 186-280).  Returns the frame, the points and f_camber. *)
Definition extract (le te : pt) (camber airfoil : list pt)
  : res (frame * (pt * pt * pt) * (list pt * list pt) * (R -> res R)) :=
  let* f := frame_of le te in
  let* air := mapM (normalise f) airfoil in
  let* cam := mapM (normalise f) camber in
  let* l := normalise_edge f le in let* t := normalise_edge f te in
  let* m := normalise_edge f ((fst le + fst te) / 2, (snd le + snd te) / 2) in
  let* cam1 := pin_ends cam in
  let cam2 := lex_sort cam1 in
  let* fc := cubic (map fst cam2) (map snd cam2) in
  Ok (f, (l, t, m), (cam2, air), fc).

(** The interpolated surfaces (reversepropellerbladex.py 412-447,
    reversepropeller.py 524-559): nodes and values. *)
Definition resample (n : nat) (top bottom : list pt)
  : res (list pt * list pt * (list R * list R * list R)) :=
  let* top1 := pin_ends (lex_sort top) in
  let* bot1 := pin_ends (lex_sort bottom) in
  let xs := linspace 0 1 n in
  let* f_top := cubic (map fst top1) (map snd top1) in
  let* f_bot := cubic (map fst bot1) (map snd bot1) in
  let* yu := mapM f_top xs in let* yu := zero_ends yu in
  let* yd := mapM f_bot xs in let* yd := zero_ends yd in
  Ok (top1, bot1, (xs, yu, yd)).

(** ** ReversePropellerBladeX *)
(** What the section of the blade with one cylinder yields: the ends of the top
    wire, the 500 camber points, the points of the whole section, and the [n]
    points of the top and of the bottom wire (reversepropellerbladex.py 113-268,
    and the sampling in 299-303, 315-320, 338-346, 351-359). *)
Record cut : Type := mkCut {
  c_le : pt3; c_te : pt3; c_camber : list pt3; c_airfoil : list pt3; c_top : list pt3; c_bottom : list pt3 }.

(** _transform_top_and_bottom (reversepropellerbladex.py 378-410): as [normalise],
    then the final check which of the two is on top. *)
Definition negate_y (l : list pt) : list pt := map (fun p => (fst p, - snd p)) l.
Definition transform_top_bottom (f : frame) (top bottom : list pt) : res (list pt * list pt) :=
  let* t := mapM (normalise f) top in
  let* b := mapM (normalise f) bottom in
  let* i := argmax (map (fun p => Rabs (snd p)) t) in
  let* y := item (map snd t) i in
  if Rlt_dec y 0 then Ok (negate_y t, negate_y b) else Ok (t, b).

(** One round of the constructor's loop (reversepropellerbladex.py 54-110) with
    _store_properties (364-376).  Simplification: more than 500 points are
    Unmodelled (there are 500 camber points). *)
Definition section_bladex (slice : R -> nat -> res cut) (n : nat) (radius : R) : res section :=
  if Nat.ltb n 2 then Err Unmodelled else
  if Nat.ltb 500 n then Err Unmodelled else
  let* c := slice radius n in
  let le := unroll radius (c_le c) in let te := unroll radius (c_te c) in
  let* r := extract le te (map (unroll_positive radius) (firstn n (c_camber c)))
                    (map (unroll_positive radius) (c_airfoil c)) in
  let '(f, (l, t, m), (cam, air), _) := r in
  let* p := over_tan (2 * PI * radius) (angle f) in
  let* q := fdiv (skew_y f) radius in
  let* k := over_tan (skew_y f) (angle f) in
  let rk := - (rake_x f + induced f - k) / 1000 in
  let* tb := transform_top_bottom f (map (unroll radius) (c_top c)) (map (unroll radius) (c_bottom c)) in
  let* rs := resample n (fst tb) (snd tb) in
  let '(nt, nb, (xs, yu, yd)) := rs in
  Ok (mkSection f (Rabs p / 1000) (- q * 180 / PI) (skew_y f / 1000) rk (chord f / 1000)
        l t m cam air nt nb xs yu yd).

(** ReversePropellerBladeX(filename, radii_list, n). *)
Definition reverse_bladex (slice : R -> nat -> res cut) (radii : list R) (n : nat) : res reversed :=
  let* l := mapM (section_bladex slice n) radii in Ok (collect radii l).

(** ** ReversePropeller *)
(** sorted(points, key=x): stable (reversepropeller.py 237). *)
Fixpoint insert_x (p : pt) (l : list pt) : list pt :=
  match l with [] => [p] | q :: l' => if Rle_dec (fst p) (fst q) then p :: q :: l' else q :: insert_x p l' end.
Fixpoint sort_x (l : list pt) : list pt :=
  match l with [] => [] | p :: l' => insert_x p (sort_x l') end.
(** if point_inside_polygon(...): append (reversepropeller.py 229-236). *)
Fixpoint keep_inside (poly : list pt) (l : list pt) : res (list pt) :=
  match l with
  | [] => Ok []
  | p :: l' =>
      let* b := point_inside_polygon (fst p) (snd p) poly true in
      let* r := keep_inside poly l' in Ok (if b then p :: r else r)
  end.
(** _camber_points and _voronoi_points (reversepropeller.py 190-244): the points
    of the Voronoi map kept for the camber line. *)
Definition camber_candidates (voronoi : list pt -> res (list pt)) (radius : R) (pts : list pt3) : res (list pt) :=
  let poly := map (unroll_positive radius) pts in
  let* vs := voronoi poly in
  let* inside := keep_inside poly vs in Ok (sort_x inside).
(** The points wound back on the cylinder for the spline (reversepropeller.py
    257-263). *)
Definition wind (radius : R) (p : pt) : res pt3 :=
  let* t := fdiv (snd p) radius in Ok (fst p, radius * sin t, radius * cos t).
(** The edges are exchanged if the trailing edge has the larger axial coordinate
    (reversepropeller.py 368-374). *)
Definition order_edges (le te : pt3) : pt3 * pt3 :=
  if Rlt_dec (fst (fst le)) (fst (fst te)) then (te, le) else (le, te).

(** _store_properties and the split by the camber line (reversepropeller.py
    467-523). *)
Fixpoint split_camber (fc : R -> res R) (l : list pt) : res (list pt * list pt) :=
  match l with
  | [] => Ok ([], [])
  | p :: l' =>
      if Rlt_dec (5 / 1000) (fst p) then
        if Rlt_dec (fst p) (995 / 1000) then
          let* y := fc (Rmin (Rmax (fst p) 0) 1) in
          let* r := split_camber fc l' in
          Ok (if Rlt_dec y (snd p) then (p :: fst r, snd r) else (fst r, p :: snd r))
        else split_camber fc l'
      else split_camber fc l'
  end.
(** One round of the constructor's loop (reversepropeller.py 116-153).
    [sample] gives the 1200 points of the section, [camber_line] the edges found
    and the 500 points of the full camber line, [around] the 1000 points of the
    section. *)
Definition section_voronoi (sample around : R -> res (list pt3)) (voronoi : list pt -> res (list pt))
    (camber_line : R -> list pt3 -> res (pt3 * pt3 * (pt3 -> pt3 -> res (list pt3)))) (n : nat) (radius : R) : res section :=
  if Nat.ltb n 2 then Err Unmodelled else
  let* pts := sample radius in
  let* cand := camber_candidates voronoi radius pts in
  let* spline := mapM (wind radius) cand in
  let* found := camber_line radius spline in
  let '(le0, te0, full) := found in
  let (le3, te3) := order_edges le0 te0 in
  let* cam3 := full le3 te3 in
  let* air3 := around radius in
  let* r := extract (unroll_positive radius le3) (unroll_positive radius te3)
                    (map (unroll_positive radius) cam3) (map (unroll_positive radius) air3) in
  let '(f, (l, t, m), (cam, air), fc) := r in
  let* p := over_tan (2 * PI * radius) (angle f) in
  let* q := fdiv (skew_y f) radius in
  let* k := over_tan (skew_y f - PI * radius) (angle f) in
  let rk := - (rake_x f + induced f - k) / 1000 in
  let* tb := split_camber fc air in
  let* rs := resample n (l :: t :: fst tb) (l :: t :: snd tb) in
  let '(nt, nb, (xs, yu, yd)) := rs in
  Ok (mkSection f (Rabs p / 1000) ((q - PI) * 180 / PI) ((skew_y f - PI * radius) / 1000) rk (chord f / 1000)
        l t m cam air nt nb xs yu yd).
(** ReversePropeller(filename, radii_list, n). *)
Definition reverse_voronoi sample around voronoi camber_line (radii : list R) (n : nat) : res reversed :=
  let* l := mapM (section_voronoi sample around voronoi camber_line n) radii in Ok (collect radii l).
End Reverse.
