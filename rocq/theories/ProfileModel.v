(** Model of profile/baseprofile.py (class BaseProfile) on immutable lists.
    Array identity is ignored here; see HeapModel.v for the in-place version.
    A method that raises leaves the coordinates unchanged (all raises happen
    before the first assignment), hence the result type [res profile]. *)
From Coq Require Import Reals List ZArith String.
From Verif Require Import Base RbfModel.
Import ListNotations.
Open Scope R_scope.

(** baseprofile.py 21-30: the four coordinate arrays.  chord_line, camber_line,
    leading_edge and trailing_edge are caches recomputed by every method that
    reads them except plot; the model returns them as results instead
    (AirfoilModel.v keeps them as attributes; C96_refinement relates the two). *)
Record profile : Type := mkProfile {
  xup : list R; xdown : list R; yup : list R; ydown : list R }.

(** Numeric constant 1e-4 of baseprofile.py 201, 205. *)
Definition edge_tol : R := 1 / 10000.

(** baseprofile.py 188-217: leading edge and trailing edge. *)
Definition update_edges (p : profile) : res (pt * pt) :=
  let* xu0 := first (xup p) in
  let* xd0 := first (xdown p) in
  if Rlt_dec edge_tol (Rabs (xu0 - xd0)) then Err ValueError else
  let* xun := final (xup p) in
  let* xdn := final (xdown p) in
  if Rlt_dec edge_tol (Rabs (xun - xdn)) then Err ValueError else
  let* yu0 := first (yup p) in
  let* yun := final (yup p) in
  let* ydn := final (ydown p) in
  let te_y := if Req_EM_T yun ydn then yun else 0.5 * (yun + ydn) in
  Ok ((xu0, yu0), (xun, te_y)).

(** baseprofile.py 491-504. *)
Definition reference_point (p : profile) : res pt :=
  let* e := update_edges p in
  Ok (0.5 * (fst (fst e) + fst (snd e)), 0.5 * (snd (fst e) + snd (snd e))).

(** baseprofile.py 714-723. *)
Definition translate (v : pt) (p : profile) : profile :=
  mkProfile (vshift (fst v) (xup p)) (vshift (fst v) (xdown p))
            (vshift (snd v) (yup p)) (vshift (snd v) (ydown p)).

(** baseprofile.py 725-733. *)
Definition reflect (p : profile) : profile :=
  mkProfile (vscale (-1) (xup p)) (vscale (-1) (xdown p))
            (vscale (-1) (yup p)) (vscale (-1) (ydown p)).

(** baseprofile.py 750-753 and 756-759: the four [*= factor]. *)
Definition scale_coords (k : R) (p : profile) : profile :=
  mkProfile (vscale k (xup p)) (vscale k (xdown p))
            (vscale k (yup p)) (vscale k (ydown p)).

(** baseprofile.py 735-759. *)
Definition scale (factor : R) (translate_ : bool) (p : profile) : res profile :=
  if translate_ then
    let* ref := reference_point p in
    let p1 := translate (- fst ref, - snd ref) p in
    let p2 := scale_coords factor p1 in
    Ok (translate ref p2)
  else Ok (scale_coords factor p).

(** baseprofile.py 679-693: angle selection; returns (cosine, sine). *)
Definition rotation_angle (rad deg : option R) : res (R * R) :=
  match rad, deg with
  | Some _, Some _ => Err ValueError
  | Some a, None => Ok (cos a, sin a)
  | None, Some d => Ok (cos (radians d), sin (radians d))
  | None, None => Err ValueError
  end.

(** baseprofile.py 693, 704-707: one rotated coordinate. *)
Definition rot_x (c s x y : R) : R := c * x + - s * y.
Definition rot_y (c s x y : R) : R := s * x + c * y.

(** baseprofile.py 640-712.  The loop runs over the number of *upper* points
    for both surfaces: a shorter lower surface raises IndexError, surplus lower
    points keep the 0 of [np.zeros].  [np.vstack] requires equal lengths. *)
Definition rotate (rad deg : option R) (p : profile) : res profile :=
  let* cs := rotation_angle rad deg in
  let c := fst cs in let s := snd cs in
  if negb (Nat.eqb (List.length (xup p)) (List.length (yup p))) then Err ValueError else
  if negb (Nat.eqb (List.length (xdown p)) (List.length (ydown p))) then Err ValueError else
  let n := List.length (xup p) in
  if Nat.ltb (List.length (xdown p)) n then Err IndexError else
  let pad := zeros (List.length (xdown p) - n) in
  Ok (mkProfile
        (map2 (rot_x c s) (xup p) (yup p))
        (map2 (rot_x c s) (firstn n (xdown p)) (firstn n (ydown p)) ++ pad)
        (map2 (rot_y c s) (xup p) (yup p))
        (map2 (rot_y c s) (firstn n (xdown p)) (firstn n (ydown p)) ++ pad)).

(** baseprofile.py 219-275.  [radius] is 1.0 by default. *)
Definition interpolate_coordinates (num : pynum) (radius : R) (p : profile)
  : res (list R * list R * list R * list R) :=
  match num with
  | PyFloat _ => Err TypeError
  | PyInt z =>
      if Z.leb z 0 then Err ValueError else
      if Rle_dec radius 0 then Err ValueError else
      let n := Z.to_nat z in
      let* xu0 := first (xup p) in
      let* xun := final (xup p) in
      let xx_up := linspace xu0 xun n in
      let* yy_up := reconstruct_1d (xup p) (yup p) xx_up (zeros n)
                      "beckert_wendland_c2_basis" radius in
      let* xd0 := first (xdown p) in
      let* xdn := final (xdown p) in
      let xx_down := linspace xd0 xdn n in
      let* yy_down := reconstruct_1d (xdown p) (ydown p) xx_down (zeros n)
                        "beckert_wendland_c2_basis" radius in
      Ok (xx_up, xx_down, yy_up, yy_down)
  end.

(** baseprofile.py 296-302, 339-345, 394-400, 582-588: default number of
    interpolated points if the abscissae of the two surfaces differ. *)
Definition resolve_n (n : option Z) (p : profile) : res (option Z) :=
  let* same := arrays_equal (xup p) (xdown p) in
  match same, n with
  | false, None => Ok (Some 500%Z)
  | _, _ => Ok n
  end.

(** [if n_interpolated_points:] -- None and 0 are false. *)
Definition truthy (n : option Z) : option Z :=
  match n with Some z => if Z.eqb z 0 then None else Some z | None => None end.

(** baseprofile.py 277-317; a line is (abscissae, ordinates). *)
Definition compute_chord_line (n : option Z) (p : profile) : res (list R * list R) :=
  let* e := update_edges p in
  let '((lx, ly), (tx, ty)) := e in
  let* aratio := fdiv (ty - ly) (tx - lx) in
  let* n' := resolve_n n p in
  match truthy n' with
  | Some z =>
      if Z.ltb z 0 then Err ValueError else
      let xs := linspace lx tx (Z.to_nat z) in
      Ok (xs, map (fun x => aratio * (x - lx) + ly) xs)
  | None => Ok (xup p, map (fun x => aratio * (x - lx) + ly) (xup p))
  end.

(** baseprofile.py 319-356. *)
Definition compute_camber_line (n : option Z) (p : profile) : res (list R * list R) :=
  let* n' := resolve_n n p in
  match truthy n' with
  | Some z =>
      let* q := interpolate_coordinates (PyInt z) 1 p in
      let '(_, xx_down, yy_up, yy_down) := q in
      let* ys := vzip (fun a b => 0.5 * (a + b)) yy_up yy_down in
      Ok (xx_down, ys)
  | None =>
      let* ys := vzip (fun a b => 0.5 * (a + b)) (ydown p) (yup p) in
      if Nat.eqb (List.length (xup p)) (List.length ys) then Ok (xup p, ys) else Err ValueError
  end.

(** baseprofile.py 358-413. *)
Definition deform_camber_line (percent : R) (n : option Z) (p : profile) : res profile :=
  let* cl := compute_camber_line n p in
  let scaling := percent / 100 + 1 in
  let cy := vscale scaling (snd cl) in
  let* n' := resolve_n n p in
  let* q :=
    match truthy n' with
    | Some z =>
        let* r := interpolate_coordinates (PyInt z) 1 p in
        let '(a, b, c, d) := r in Ok (mkProfile a b c d)
    | None => Ok p
    end in
  let* half := vzip (fun a b => 0.5 * Rabs (a - b)) (yup q) (ydown q) in
  let* yu := vzip Rplus cy half in
  let* yd := vzip Rminus cy half in
  Ok (mkProfile (xup q) (xdown q) yu yd).

(** baseprofile.py 545-599. *)
Definition max_thickness (n : option Z) (p : profile) : res R :=
  let* n' := resolve_n n p in
  match truthy n' with
  | Some z =>
      let* q := interpolate_coordinates (PyInt z) 1 p in
      let '(_, _, yy_up, yy_down) := q in
      let* t := vzip (fun a b => Rabs (a - b)) yy_up yy_down in
      vmax t
  | None =>
      let* t := vzip (fun a b => Rabs (a - b)) (yup p) (ydown p) in
      vmax t
  end.

(** Euclidean norm of a 2D difference ([np.linalg.norm], baseprofile.py 629). *)
Definition norm2 (dx dy : R) : R := sqrt (dx * dx + dy * dy).

(** baseprofile.py 601-638; the default argument is [Some 500]. *)
Definition max_camber (n : option Z) (p : profile) : res R :=
  let* chord := compute_chord_line n p in
  let* camb := compute_camber_line n p in
  let* dx := vzip Rminus (fst chord) (fst camb) in
  let* dy := vzip Rminus (snd chord) (snd camb) in
  let* d := vzip norm2 dx dy in
  let* m := vmax d in
  let* i := argmax d in
  let* cy := item (snd camb) i in
  let* hy := item (snd chord) i in
  Ok (if Rlt_dec cy hy then m * -1 else m).

(** baseprofile.py 415-444. *)
Definition set_camber_line_max (camber_max : R) (p : profile) : res profile :=
  let* old := max_camber (Some 500%Z) p in
  let* percent := fdiv (100 * (camber_max - old)) old in
  deform_camber_line percent None p.

(** baseprofile.py 447-457. *)
Definition set_thickness_max (thickness_max : R) (p : profile) : res profile :=
  let* old := max_thickness None p in
  let ratio := if Req_EM_T old 0 then 0 else thickness_max / old in
  Ok (mkProfile (xup p) (xdown p) (vscale ratio (yup p)) (vscale ratio (ydown p))).

(** Foil parameters computed by baseprofile.py 42-76. *)
Record params : Type := mkParams {
  chord_length : R; chord_percentage : list R;
  camber_max : R; camber_percentage : list R;
  thickness_max : R; thickness_percentage : list R }.

(** [a / c] for an array and a non-zero scalar; empty arrays divide freely. *)
Definition vdiv (v : list R) (c : R) : res (list R) :=
  mapM (fun x => fdiv x c) v.

(** baseprofile.py 42-76.  [american] stands for _compute_thickness_american
    (506-543, modelled in AmericanModel.v): an arbitrary function of the profile and of the chord and camber
    parameters already stored.  An unknown convention leaves [_thickness]
    unbound (UnboundLocalError, a NameError). *)
Definition generate_parameters
  (american : profile -> R -> list R -> R -> list R -> res (list R))
  (convention : string) (p : profile) : res params :=
  let* e := update_edges p in
  let '((lx, ly), (tx, ty)) := e in
  let chord := norm2 (lx - tx) (ly - ty) in
  let* mn := vmin (xup p) in
  let* cperc := vdiv (map (fun x => x - mn) (xup p)) chord in
  let* cam := vzip (fun a b => (a + b) / 2) (yup p) (ydown p) in
  let* cm := vmax cam in
  let cmax := Rabs cm in
  let* camperc := if Req_EM_T cmax 0 then Ok (zeros (List.length (xup p))) else vdiv cam cmax in
  let* th :=
    if String.eqb convention "british" then vzip (fun a b => Rabs (a - b)) (yup p) (ydown p)
    else if Req_EM_T cmax 0 then vzip (fun a b => Rabs (a - b)) (yup p) (ydown p)
    else if String.eqb convention "american" then american p chord cperc cmax camperc
    else Err NameError in
  let* tmax := vmax th in
  let* tperc := if Req_EM_T tmax 0 then Ok (zeros (List.length (xup p))) else vdiv th tmax in
  Ok (mkParams chord cperc cmax camperc tmax tperc).
