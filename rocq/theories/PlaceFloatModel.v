(** A scaled section set at its pitch, skew and rake in binary64 arithmetic (blade.py 348-365). *)
From Coq Require Import Reals ZArith List Bool.
From Flocq Require Import Core BinarySingleNaN.
From Verif Require Import Base PpgFloatModel FloatModel PitchFloatModel RakeFloatModel.
Import ListNotations.

(** blade.py 241, one entry of [pitch_angles] *)
Definition pitch_angle64 (at64 : b64 -> b64) (pitch radius : b64) : b64 := at64 (fdiv64 pitch (fmul (fmul two64 pi64) radius)).
(** blade.py 252-253, one entry of [induced_rake] *)
Definition skew_rake64 (at64 tn64 : b64 -> b64) (pitch radius skew : b64) : b64 :=
  fmul (fmul radius (radians64 skew)) (tn64 (pitch_angle64 at64 pitch radius)).

(** blade.py 348-365 for one section, after the scaling and without the changes of thickness and
    camber (340-346).  [how] as in FloatModel.rotate64; numpy's functions are parameters. *)
Definition place64 (how : bool -> bool -> nat -> dot_order) (at64 tn64 sn cs : b64 -> b64) (refl : bool) (pitch radius skew rake : b64) (section : fprofile) : res fprofile :=
  let section := if refl then reflect64 section else section in
  let angle := fsub (fdiv64 pi64 two64) (pitch_angle64 at64 pitch radius) in
  let* section := rotate64 how (cs angle) (sn angle) section in
  let section := translate64 (zero64, fmul (fneg radius) (radians64 skew)) section in
  Ok (translate64 (fneg (fadd rake (skew_rake64 at64 tn64 pitch radius skew)), zero64) section).
