(** Vocabulary for section parameters in binary64. *)
From Coq Require Import Reals ZArith List.
From Flocq Require Import Core BinarySingleNaN.
From Verif Require Import PpgFloatModel ProfileModel FloatModel FloatSpec SectionFloatModel.
Import ListNotations.
Open Scope R_scope.

(** All entries are numbers. *)
Definition number_parameters (s : fparams) : Prop :=
  Forall is_number (pchord s) /\ Forall is_number (pcamber s) /\ Forall is_number (pthick s) /\
  is_number (pcmax s) /\ is_number (ptmax s) /\ is_number (plen s).
(** The three arrays are equally long. *)
Definition same_lengths (s : fparams) : Prop :=
  length (pcamber s) = length (pchord s) /\ length (pthick s) = length (pchord s).
(** No coordinate comes near the overflow threshold. *)
Definition moderate (s : fparams) : Prop :=
  Forall (fun c => Rabs (real c * real (plen s)) <= huge / 4) (pchord s) /\
  Forall (fun c => Rabs (real c * real (pcmax s)) <= huge / 4) (pcamber s) /\
  Forall (fun t => Rabs (real t * (real (ptmax s) / 2)) <= huge / 4) (pthick s).
