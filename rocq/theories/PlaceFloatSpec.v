(** Vocabulary for the placement of a section in binary64. *)
From Coq Require Import Reals.
From Verif Require Import PpgFloatModel FloatModel FloatSpec.
Open Scope R_scope.

(** A sine or cosine never above 1. *)
Definition at_most_one (f : b64 -> b64) : Prop := forall t, is_number t -> Rabs (real (f t)) <= 1.
