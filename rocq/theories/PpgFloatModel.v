(** The two length conversions of export_ppg in binary64 (blade.py 942-963),
    rounding to nearest even; one array element. *)
From Coq Require Import Reals ZArith.
From Flocq Require Import Core BinarySingleNaN.

Definition b64 := binary_float 53 1024.
Definition prec64 : Prec_gt_0 53 := eq_refl.
Definition emax64 : Prec_lt_emax 53 1024 := eq_refl.
Definition fmul : b64 -> b64 -> b64 := @Bmult 53 1024 prec64 emax64 mode_NE.
Definition fdiv64 : b64 -> b64 -> b64 := @Bdiv 53 1024 prec64 emax64 mode_NE.
(** The literal 2. *)
Definition two64 : b64 := @B754_finite 53 1024 false 4503599627370496 (-51) eq_refl.

(** blade.py 948-951: a radius, and a chord length, pitch or rake. *)
Definition norm_radius (D r : b64) : b64 := fdiv64 (fmul r two64) D.
Definition norm_length (D c : b64) : b64 := fdiv64 c D.
(** blade.py 960-963. *)
Definition abs_radius (D r : b64) : b64 := fdiv64 (fmul r D) two64.
Definition abs_length (D c : b64) : b64 := fmul c D.
