(** Rake induced by the skew of the blade sections in binary64 arithmetic (blade.py 243-253). *)
From Coq Require Import Reals ZArith List Bool.
From Flocq Require Import Core BinarySingleNaN.
From Verif Require Import Base PpgFloatModel FloatModel SectionFloatModel PitchFloatModel.
Import ListNotations.

(** [np.radians] (blade.py 252): numpy multiplies by pi/180 rounded once. *)
Definition c180 : b64 := @B754_finite 53 1024 false 6333186975989760 (-45) eq_refl.
Definition radians64 (x : b64) : b64 := fmul x (fdiv64 pi64 c180).

(** blade.py 252-253: [np.arctan] and [np.tan] are the parameters [at64] and [tn64];
    simplification: functions of the number alone, and arrays of different lengths are an error. *)
Definition induced_rake64 (at64 tn64 : b64 -> b64) (pitch radii skew_angles : list b64) : res (list b64) :=
  let* arm := vzip fmul radii (map radians64 skew_angles) in
  let* angles := pitch_angles64 at64 pitch radii in
  vzip fmul arm (map tn64 angles).
