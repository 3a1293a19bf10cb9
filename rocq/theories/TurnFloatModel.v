(** Rotation of a blade about an axis in binary64 arithmetic (blade.py 369-445).
    Simplification: coordinates only; the CAD faces (447-477) are in BladeModel. *)
From Coq Require Import Reals ZArith List Bool String.
From Flocq Require Import Core BinarySingleNaN.
From Verif Require Import Base PpgFloatModel FloatModel PitchFloatModel RakeFloatModel.
Import ListNotations.

Open Scope nat_scope.
(** A column of [blade_coordinates_up] (blade.py 442-445). *)
Definition point64 : Type := (b64 * b64 * b64)%type.
(** The literal 1 (blade.py 429-438). *)
Definition one64 : b64 := @B754_finite 53 1024 false 4503599627370496 (-52) eq_refl.

(** One term of a sum in [np.einsum] (blade.py 442-445); the product may be fused with the addition. *)
Definition step64 (fused : bool) (acc a x : b64) : b64 := if fused then ffma a x acc else fadd acc (fmul a x).

(** One entry of the product (blade.py 442-445): three terms in order, from zero. *)
Definition entry64 (fused : nat -> bool) (row p : point64) : b64 :=
  let '(a, b, c) := row in
  let '(x, y, z) := p in
  step64 (fused 2) (step64 (fused 1) (step64 (fused 0) zero64 a x) b y) c z.

(** blade.py 428-440: the rows of the matrix, the integers converted to float64. *)
Definition matrix64 (axis : string) (cosine sine : b64) : res (point64 * point64 * point64) :=
  if String.eqb axis "x" then Ok ((one64, zero64, zero64), (zero64, cosine, fneg sine), (zero64, sine, cosine)) else
  if String.eqb axis "y" then Ok ((cosine, zero64, fneg sine), (zero64, one64, zero64), (sine, zero64, cosine)) else
  if String.eqb axis "z" then Ok ((cosine, fneg sine, zero64), (sine, cosine, zero64), (zero64, zero64, one64)) else
  Err ValueError.

(** blade.py 442-445 on one point *)
Definition turn_point64 (fused : nat -> nat -> bool) (m : point64 * point64 * point64) (p : point64) : point64 :=
  (entry64 (fused 0) (fst (fst m)) p, entry64 (fused 1) (snd (fst m)) p, entry64 (fused 2) (snd m) p).

(** The entries of an array with their indices (blade.py 442-445). *)
Definition indexed {A} (l : list A) : list (nat * A) := combine (seq 0 (List.length l)) l.

(** blade.py 442-445 on one surface; which products are fused is arbitrary for every entry. *)
Definition turn_surface64 (fused : nat -> nat -> nat -> nat -> bool) (m : point64 * point64 * point64) (s : list (list point64)) : list (list point64) :=
  map (fun ks => map (fun lp => turn_point64 (fused (fst ks) (fst lp)) m (snd lp)) (indexed (snd ks))) (indexed s).

(** blade.py 406-445.  [np.sin] and [np.cos] are the parameters [sn] and [cs]. *)
Definition turn64 (fused : bool -> nat -> nat -> nat -> nat -> bool) (sn cs : b64 -> b64) (deg_angle rad_angle : option b64) (axis : string)
    (up down : list (list point64)) : res (list (list point64) * list (list point64)) :=
  match up with
  | [] => Err ValueError
  | _ =>
    match deg_angle, rad_angle with
    | Some _, Some _ => Err ValueError
    | None, None => Err ValueError
    | Some d, None => let* m := matrix64 axis (cs (radians64 d)) (sn (radians64 d)) in
        Ok (turn_surface64 (fused true) m up, turn_surface64 (fused false) m down)
    | None, Some t => let* m := matrix64 axis (cs t) (sn t) in
        Ok (turn_surface64 (fused true) m up, turn_surface64 (fused false) m down)
    end
  end.
