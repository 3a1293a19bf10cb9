(** Model of profile/customprofile.py (class CustomProfile). *)
From Coq Require Import Reals List ZArith String.
From Verif Require Import Base ProfileModel.
Import ListNotations.
Open Scope R_scope.

(** A keyword argument value.  Simplification: arrays are one-dimensional;
    a number where an array is expected, or an array where a number is
    expected, gives [Unmodelled]. *)
Inductive kval : Type := KNone | KArr (l : list R) | KNum (x : R).
(** Keyword arguments; Python guarantees distinct keys. *)
Definition kwargs : Type := list (string * kval).

Fixpoint kw_get (k : string) (kw : kwargs) : res kval :=
  match kw with
  | [] => Err KeyError
  | (k', v) :: kw' => if String.eqb k k' then Ok v else kw_get k kw'
  end.
Definition mem_str (k : string) (l : list string) : bool := existsb (String.eqb k) l.
(** customprofile.py 50, 60: [set(kwargs.keys()) == set(names)]. *)
Definition same_keys (kw : kwargs) (names : list string) : bool :=
  forallb (fun k => mem_str k names) (map fst kw) && forallb (fun k => mem_str k (map fst kw)) names.

Definition coord_keys : list string := ["xup"; "yup"; "xdown"; "ydown"]%string.
Definition param_keys : list string :=
  ["chord_perc"; "camber_perc"; "thickness_perc"; "camber_max"; "thickness_max"; "chord_len"]%string.

(** customprofile.py 221-241: None check and conversion to an array. *)
Definition need_array (v : kval) : res (list R) :=
  match v with KNone => Err ValueError | KArr l => Ok l | KNum _ => Err Unmodelled end.
Definition need_number (v : kval) : res R :=
  match v with KNone => Err ValueError | KNum x => Ok x | KArr _ => Err Unmodelled end.

(** [a\[1:-1\]] (customprofile.py 254). *)
Definition interior {A} (l : list A) : list A := removelast (tl l).

(** [np.isclose(a, b, atol=1e-6)] with the default rtol = 1e-5
    (customprofile.py 257-268). *)
Definition isclose (a b : R) : bool :=
  if Rle_dec (Rabs (a - b)) (1 / 1000000 + 1 / 100000 * Rabs b) then true else false.

(** Elementwise comparison with numpy broadcasting of one-element arrays
    (customprofile.py 253-255).  Broadcasting in the arithmetic of
    generate_parameters is not modelled: unequal lengths stop there with
    ValueError. *)
Definition greater_equal (a b : list R) : res (list bool) :=
  let ge x y := if Rle_dec y x then true else false in
  match a, b with
  | [x], _ => Ok (map (fun y => ge x y) b)
  | _, [y] => Ok (map (fun x => ge x y) a)
  | _, _ => vzip ge a b
  end.

(** customprofile.py 242-268, after the None checks and conversions. *)
Definition check_coordinates (p : profile) : res unit :=
  if negb (Nat.eqb (List.length (xup p)) (List.length (yup p))) then Err ValueError else
  if negb (Nat.eqb (List.length (xdown p)) (List.length (ydown p))) then Err ValueError else
  let* ge := greater_equal (interior (yup p)) (interior (ydown p)) in
  if negb (forallb (fun b => b) ge) then Err ValueError else
  let* xd0 := first (xdown p) in let* xu0 := first (xup p) in
  if negb (isclose xd0 xu0) then Err ValueError else
  let* xdn := final (xdown p) in let* xun := final (xup p) in
  if negb (isclose xdn xun) then Err ValueError else
  let* yd0 := first (ydown p) in let* yu0 := first (yup p) in
  if negb (isclose yd0 yu0) then Err ValueError else
  let* ydn := final (ydown p) in let* yun := final (yup p) in
  if negb (isclose ydn yun) then Err ValueError else Ok tt.

(** customprofile.py 149-196.  [np.asarray(x, dtype=float)] is the identity
    here. *)
Definition check_parameters (q : params) : res unit :=
  if Rlt_dec (camber_max q) 0 then Err ValueError else
  if Rlt_dec (thickness_max q) 0 then Err ValueError else
  if negb (Nat.eqb (List.length (camber_percentage q)) (List.length (chord_percentage q))) then Err ValueError else
  if negb (Nat.eqb (List.length (thickness_percentage q)) (List.length (chord_percentage q))) then Err ValueError else
  Ok tt.

(** customprofile.py 89-99. *)
Definition coordinates_british (q : params) : res profile :=
  let xs := vscale (chord_length q) (chord_percentage q) in
  let cam := vscale (camber_max q) (camber_percentage q) in
  let half := map (fun t => thickness_max q / 2 * t) (thickness_percentage q) in
  let* yu := vzip Rplus cam half in
  let* yd := vzip Rminus cam half in
  Ok (mkProfile xs xs yu yd).

(** customprofile.py 109-115: slopes of the camber line, m\[0\] = 0. *)
Fixpoint slopes_from (camber_max chord_length c0 x0 : R) (cs xs : list R) : res (list R) :=
  match cs, xs with
  | c :: cs', x :: xs' =>
      let* a := fdiv ((c - c0) * camber_max) (x - x0) in
      let* m := fdiv a chord_length in
      let* rest := slopes_from camber_max chord_length c x cs' xs' in
      Ok (m :: rest)
  | _, _ => Ok []
  end.
Definition slopes (q : params) : res (list R) :=
  match camber_percentage q, chord_percentage q with
  | c :: cs, x :: xs =>
      let* rest := slopes_from (camber_max q) (chord_length q) c x cs xs in Ok (0 :: rest)
  | _, _ => Ok []
  end.

(** [a\[1\] = v]. *)
Definition set1 (v : R) (l : list R) : list R :=
  match l with a :: _ :: l' => a :: v :: l' | _ => l end.

(** customprofile.py 101-133.  All percentage arrays have the same length
    (check_parameters). *)
Definition orth_camber_coordinates (q : params) : res profile :=
  let* m := slopes q in
  let ang := map atan m in
  let xs := vscale (chord_length q) (chord_percentage q) in
  let cam := vscale (camber_max q) (camber_percentage q) in
  let* ts := vzip (fun t a => t * sin a * thickness_max q / 2) (thickness_percentage q) ang in
  let* tc := vzip (fun t a => thickness_max q / 2 * t * cos a) (thickness_percentage q) ang in
  let* xu := vzip Rminus xs ts in
  let* xd := vzip Rplus xs ts in
  let* yu := vzip Rplus cam tc in
  let* yd := vzip Rminus cam tc in
  let* x1 := item xu 1 in
  if Rlt_dec x1 0 then
    let eps := / 10000000000000000 in
    let* a := item xu 2 in let* b := item xd 2 in
    let* c := item yu 2 in let* d := item yd 2 in
    Ok (mkProfile (set1 (a - eps) xu) (set1 (b - eps) xd) (set1 (c - eps) yu) (set1 (d - eps) yd))
  else Ok (mkProfile xu xd yu yd).

(** customprofile.py 135-147.  [curve x y t] is the scipy RBFInterpolator
    through (x, y) evaluated at t (baseprofile.py 476-489); not modelled, an
    arbitrary function. *)
Definition coordinates_american
  (curve : list R -> list R -> list R -> res (list R)) (q : params) : res profile :=
  let* o := orth_camber_coordinates q in
  let* yd := curve (xdown o) (ydown o) (vscale (chord_length q) (chord_percentage q)) in
  let* yu := vzip (fun c y => 2 * camber_max q * c - y) (camber_percentage q) yd in
  Ok (mkProfile (xup o) (xdown o) yu yd).

Section Custom.
Variable american : profile -> R -> list R -> R -> list R -> res (list R).

(** customprofile.py 47-78: constructor; the object holds coordinates and
    parameters. *)
Definition custom_profile (kw : kwargs) : res (profile * params) :=
  if same_keys kw coord_keys then
    let* vxu := kw_get "xup" kw in let* vyu := kw_get "yup" kw in
    let* vxd := kw_get "xdown" kw in let* vyd := kw_get "ydown" kw in
    let* xu := need_array vxu in let* xd := need_array vxd in
    let* yu := need_array vyu in let* yd := need_array vyd in
    let p := mkProfile xu xd yu yd in
    let* _ := check_coordinates p in
    let* q := generate_parameters american "british" p in
    Ok (p, q)
  else if same_keys kw param_keys then
    let* v1 := kw_get "chord_perc" kw in let* v2 := kw_get "camber_perc" kw in
    let* v3 := kw_get "thickness_perc" kw in let* v4 := kw_get "camber_max" kw in
    let* v5 := kw_get "thickness_max" kw in let* v6 := kw_get "chord_len" kw in
    let* cp := need_array v1 in let* ca := need_array v2 in let* th := need_array v3 in
    let* cm := need_number v4 in let* tm := need_number v5 in let* cl := need_number v6 in
    let q := mkParams cl cp cm ca tm th in
    let* _ := check_parameters q in
    let* p := coordinates_british q in
    Ok (p, q)
  else Err RuntimeError.
End Custom.
