(** Common vocabulary of the model.

    Nothing in this file models a BladeX function by itself; the definitions
    give the meaning of the Python / numpy primitives used by the code.  Each
    comment names one place in /repo/bladex where the primitive is used. *)
From Coq Require Import Reals List ZArith String.
Import ListNotations.
Open Scope R_scope.

(** Python exceptions as values.  [NonFinite] is not a Python exception: it
    marks a numpy operation whose IEEE result would be inf or nan (division by
    zero); numpy continues silently there, the model stops.  [Unmodelled] marks
    argument shapes outside the model; no theorem claims anything about it. *)
Inductive exn : Set :=
| ValueError | TypeError | IndexError | AttributeError | RuntimeError
| NameError | KeyError | LinAlgError | ConfigError | IOError | OtherException
| NonFinite | Unmodelled.

(** Result of a call that may raise (any method with a [raise] statement,
    e.g. profile/baseprofile.py 201-207). *)
Inductive res (A : Type) : Type :=
| Ok (a : A)
| Err (e : exn).
Arguments Ok {A} a.
Arguments Err {A} e.

(** Python sequencing: an exception aborts the rest of the body. *)
Definition bind {A B} (m : res A) (k : A -> res B) : res B :=
  match m with Ok a => k a | Err e => Err e end.
Notation "'let*' x ':=' m 'in' k" := (bind m (fun x => k))
  (at level 61, x pattern, m at next level, right associativity).

Definition is_ok {A} (m : res A) : Prop := exists a, m = Ok a.

(** [for x in l] collecting results (e.g. blade.py 278-293). *)
Fixpoint mapM {A B} (f : A -> res B) (l : list A) : res (list B) :=
  match l with
  | [] => Ok []
  | a :: l' => let* b := f a in let* bs := mapM f l' in Ok (b :: bs)
  end.

(** Python numbers where the code tests [isinstance(., int)] or
    [isinstance(., float)] (profile/baseprofile.py 249,
    profile/nacaprofile.py 80-83). *)
Inductive pynum : Type :=
| PyInt (z : Z)
| PyFloat (x : R).

(** Points. *)
Definition pt : Type := (R * R)%type.
Definition pt3 : Type := (R * R * R)%type.

(** [a + c], [k * a] for an array and a scalar (baseprofile.py 720-758). *)
Definition vshift (c : R) (v : list R) : list R := map (fun x => x + c) v.
Definition vscale (k : R) (v : list R) : list R := map (fun x => x * k) v.

(** Elementwise binary operation on the common prefix. *)
Fixpoint map2 {A B C} (f : A -> B -> C) (a : list A) (b : list B) : list C :=
  match a, b with
  | x :: a', y :: b' => f x y :: map2 f a' b'
  | _, _ => []
  end.

(** numpy elementwise binary operation: shapes must agree.  Simplification:
    broadcasting of length-1 arrays is not modelled (ValueError instead). *)
Definition vzip {A B C} (f : A -> B -> C) (a : list A) (b : list B)
  : res (list C) :=
  if Nat.eqb (List.length a) (List.length b) then Ok (map2 f a b) else Err ValueError.

(** [a\[0\]], [a\[-1\]] (baseprofile.py 201-217). *)
Definition first {A} (l : list A) : res A :=
  match l with [] => Err IndexError | x :: _ => Ok x end.
Fixpoint final {A} (l : list A) : res A :=
  match l with
  | [] => Err IndexError
  | [x] => Ok x
  | _ :: l' => final l'
  end.
(** [a\[i\]] for a non-negative index. *)
Definition item {A} (l : list A) (i : nat) : res A :=
  match nth_error l i with Some x => Ok x | None => Err IndexError end.

(** True division of floats: x / 0 is inf or nan in numpy. *)
Definition fdiv (x y : R) : res R :=
  if Req_EM_T y 0 then Err NonFinite else Ok (x / y).

(** [np.max] (baseprofile.py 62, 72, 598, 632); ValueError on an empty array. *)
Definition vmax (l : list R) : res R :=
  match l with
  | [] => Err ValueError
  | x :: l' => Ok (fold_left Rmax l' x)
  end.
(** [np.min] (baseprofile.py 58). *)
Definition vmin (l : list R) : res R :=
  match l with
  | [] => Err ValueError
  | x :: l' => Ok (fold_left Rmin l' x)
  end.

(** [np.argmax]: index of the first maximal entry (baseprofile.py 633).
    [argmax_from best besti i l] scans [l] whose first index is [i]. *)
Fixpoint argmax_from (best : R) (besti i : nat) (l : list R) : nat :=
  match l with
  | [] => besti
  | x :: l' => if Rlt_dec best x then argmax_from x i (S i) l'
               else argmax_from best besti (S i) l'
  end.
Definition argmax (l : list R) : res nat :=
  match l with
  | [] => Err ValueError
  | x :: l' => Ok (argmax_from x 0 1 l')
  end.

(** [np.linspace(a, b, n)] (baseprofile.py 254, 305): n samples; for n = 1
    the single sample is [a] (the step is then irrelevant, as i = 0). *)
Definition linspace (a b : R) (n : nat) : list R :=
  map (fun i => a + INR i * ((b - a) / INR (n - 1))) (seq 0 n).

(** [np.zeros(n)]. *)
Definition zeros (n : nat) : list R := repeat 0 n.

(** [np.radians]. *)
Definition radians (d : R) : R := d * (PI / 180).

(** Dot product on the common prefix ([np.dot], and the inner loop of
    ndinterpolator.py 252-253). *)
Fixpoint dot (a b : list R) : R :=
  match a, b with
  | x :: a', y :: b' => x * y + dot a' b'
  | _, _ => 0
  end.

(** Matrix times vector. *)
Definition matvec (A : list (list R)) (x : list R) : list R :=
  map (fun row => dot row x) A.

(** Array equality [(a == b).all()] for arrays of the same shape; arrays of
    different shape cannot be compared (numpy >= 1.25 raises ValueError). *)
Fixpoint list_eqb (a b : list R) : bool :=
  match a, b with
  | [], [] => true
  | x :: a', y :: b' => if Req_EM_T x y then list_eqb a' b' else false
  | _, _ => false
  end.
Definition arrays_equal (a b : list R) : res bool :=
  if Nat.eqb (List.length a) (List.length b) then Ok (list_eqb a b) else Err ValueError.
