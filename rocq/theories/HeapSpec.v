(** Notions used in the statements about array identity. *)
From Coq Require Import Reals List ZArith.
From Verif Require Import Base ProfileModel CustomModel PpgModel HeapModel.
Import ListNotations.
Open Scope R_scope.

(** What a method does to the four coordinate lists (the pure model). *)
Definition value_call (c : call) (p : profile) : res profile :=
  match c with
  | Translate v => Ok (translate (num_value (fst v), num_value (snd v)) p)
  | Reflect => Ok (reflect p)
  | Scale k t => scale (num_value k) t p
  | Rotate rad deg => rotate rad deg p
  | DeformCamberLine pc n => deform_camber_line pc n p
  | SetCamberLineMax m => set_camber_line_max m p
  | SetThicknessMax t => set_thickness_max t p
  end.

(** The coordinates after a sequence of calls; a raising call changes nothing. *)
Definition after (calls : list call) (p : profile) : profile :=
  fold_left (fun p c => match value_call c p with Ok p' => p' | Err _ => p end) calls p.

(** The calls made on profile number i. *)
Definition calls_of (i : nat) (calls : list (nat * call)) : list call :=
  map snd (filter (fun x => Nat.eqb (fst x) i) calls).

Definition addresses (o : object) : list nat := [axu o; axd o; ayu o; ayd o].

(** The address holds an array of floats. *)
Definition is_float (h : heap) (a : nat) : Prop := exists l, nth_error h a = Some (mkArray Float64 l).

(** The profile has four different float arrays. *)
Definition owns (h : heap) (o : object) : Prop :=
  NoDup (addresses o) /\ Forall (is_float h) (addresses o).

(** No array belongs to two of the profiles, or twice to one. *)
Definition separate (os : list object) : Prop := NoDup (flat_map addresses os).

(** The methods that change the arrays in place. *)
Definition in_place (c : call) : Prop :=
  match c with Translate _ | Reflect | Scale _ _ | SetThicknessMax _ => True | _ => False end.

(** How often an array serves as abscissae, and as ordinates, of a profile. *)
Definition times (a b : nat) : nat := if Nat.eqb a b then 1 else 0.
Definition x_uses (o : object) (a : nat) : nat := times (axu o) a + times (axd o) a.
Definition y_uses (o : object) (a : nat) : nat := times (ayu o) a + times (ayd o) a.

(** The element type of an array, and whether an operand does not fit in it. *)
Definition kind_at (h : heap) (b : nat) : option dtype := option_map kind (nth_error h b).
Definition cannot (k : dtype) (v : pynum) : bool :=
  match k, v with Int64, PyFloat _ => true | _, _ => false end.
