(** Model of the reconstruct_* methods of basereversepropeller.py and of the
    index used by the display_* methods. *)
From Coq Require Import Reals List String Bool.
From Coq Require Import List.
From Verif Require Import Base ProfileModel CustomModel BladeModel ReverseModel.
Import ListNotations.
Open Scope R_scope.

(** The attributes of a reversed propeller which the methods read; the
    constructor sets none of the last three (basereversepropeller.py 76-103,
    line 83 is a comment).  An entry of recons_sections which is no profile is
    [None]. *)
Record robject : Type := mkRObject {
  values : reversed;
  num_sections : option nat;
  recons_sections : option (list (option profile));
  recons_blade : option (store * blade) }.
(** The object after the constructor. *)
Definition fresh (v : reversed) : robject := mkRObject v None None None.

Section Reconstruct.
(** The American-convention solver of CustomProfile (not used for coordinates). *)
Variable american : profile -> R -> list R -> R -> list R -> res (list R).
(** Propeller(Shaft(path), blade, n): the constructor (propeller.py). *)
Variable make_propeller : string -> store * blade -> nat -> res unit.

(** l[j] = x. *)
Fixpoint assign {A} (l : list A) (j : nat) (x : A) : res (list A) :=
  match l, j with
  | [], _ => Err IndexError
  | _ :: l', 0%nat => Ok (x :: l')
  | y :: l', S j' => let* r := assign l' j' x in Ok (y :: r)
  end.
(** CustomProfile(xup=self.xup[j, :], ...) (basereversepropeller.py 318-322). *)
Definition row_profile (v : reversed) (j : nat) : res profile :=
  let* xu := item (r_xup v) j in let* yu := item (r_yup v) j in
  let* xd := item (r_xdown v) j in let* yd := item (r_ydown v) j in
  let* r := custom_profile american
     [("xup"%string, KArr xu); ("yup"%string, KArr yu); ("xdown"%string, KArr xd); ("ydown"%string, KArr yd)] in
  Ok (fst r).
(** The loop (basereversepropeller.py 317-322, 332-337): the new object is made
    before recons_sections is looked up.  The state reached is returned as well. *)
Fixpoint fill (js : list nat) (o : robject) : robject * res unit :=
  match js with
  | [] => (o, Ok tt)
  | j :: js' =>
      match row_profile (values o) j with
      | Err e => (o, Err e)
      | Ok p =>
          match recons_sections o with
          | None => (o, Err AttributeError)
          | Some l =>
              match assign l j (Some p) with
              | Err e => (o, Err e)
              | Ok l' => fill js' (mkRObject (values o) (num_sections o) (Some l') (recons_blade o))
              end
          end
      end
  end.
(** basereversepropeller.py 309-323. *)
Definition reconstruct_sections (o : robject) : robject * res (list (option profile)) :=
  match num_sections o with
  | None => (o, Err AttributeError)
  | Some n =>
      match fill (seq 0 n) o with
      | (o1, Err e) => (o1, Err e)
      | (o1, Ok _) => match recons_sections o1 with None => (o1, Err AttributeError) | Some l => (o1, Ok l) end
      end
  end.
(** Every slot holds a profile. *)
Fixpoint all_profiles (l : list (option profile)) : option (list profile) :=
  match l with
  | [] => Some []
  | None :: _ => None
  | Some p :: l' => match all_profiles l' with None => None | Some ps => Some (p :: ps) end
  end.
(** basereversepropeller.py 325-346.  The Blade has no method
    generate_iges_blade, so the last line raises AttributeError; by then the new
    blade is stored and its sections are transformed.  Simplifications: slots
    without a profile are Unmodelled; the slots are different objects; the views
    on the rows of xup, ... shared with the profiles are not tracked. *)
Definition reconstruct_blade (o : robject) : robject * res unit :=
  match num_sections o with
  | None => (o, Err AttributeError)
  | Some n =>
      match fill (seq 0 n) o with
      | (o1, Err e) => (o1, Err e)
      | (o1, Ok _) =>
          match recons_sections o1 with
          | None => (o1, Err AttributeError)
          | Some l =>
              match all_profiles l with
              | None => (o1, Err Unmodelled)
              | Some ps =>
                  let v := values o1 in
                  let st := fun i => nth i ps (mkProfile [] [] [] []) in
                  match new_blade (seq 0 (List.length ps)) (map (fun r => r / 1000) (radii_list v))
                          (chord_length_list v) (pitch_list v) (rake_list v) (skew_angles_list v) None None with
                  | Err e => (o1, Err e)
                  | Ok b =>
                      let '(st', b', r) := apply_transformations true st b in
                      let o2 := mkRObject v (num_sections o1) (Some (map (fun i => Some (st' i)) (seq 0 (List.length ps)))) (Some (st', b')) in
                      match r with Err e => (o2, Err e) | Ok _ => (o2, Err AttributeError) end
                  end
              end
          end
      end
  end.
(** basereversepropeller.py 348-358: Shaft() only stores the path; Propeller has
    no method generate_iges. *)
Definition reconstruct_propeller (shaft : string) (n : nat) (o : robject) : robject * res unit :=
  match recons_blade o with
  | None => (o, Err AttributeError)
  | Some b => (o, let* _ := make_propeller shaft b n in Err AttributeError)
  end.

(** Calls of the three methods, and assignments to the three attributes by the
    user of the object. *)
Inductive call : Type :=
| CallSections | CallBlade | CallPropeller (shaft : string) (n : nat)
| SetNum (n : nat) | SetSections (l : list (option profile)) | SetBlade (b : store * blade).
Definition perform (c : call) (o : robject) : robject * res unit :=
  match c with
  | CallSections => let (o', r) := reconstruct_sections o in (o', let* _ := r in Ok tt)
  | CallBlade => reconstruct_blade o
  | CallPropeller sh n => reconstruct_propeller sh n o
  | SetNum n => (mkRObject (values o) (Some n) (recons_sections o) (recons_blade o), Ok tt)
  | SetSections l => (mkRObject (values o) (num_sections o) (Some l) (recons_blade o), Ok tt)
  | SetBlade b => (mkRObject (values o) (num_sections o) (recons_sections o) (Some b), Ok tt)
  end.
(** A history: the outcomes of the calls, each one caught by the caller. *)
Fixpoint history (cs : list call) (o : robject) : robject * list (res unit) :=
  match cs with
  | [] => (o, [])
  | c :: cs' => let (o1, r) := perform c o in let (o2, rs) := history cs' o1 in (o2, r :: rs)
  end.
End Reconstruct.

(** What radii_list is: the documented list, or an array. *)
Inductive radii_kind : Type := PyList | NdArray.
(** radius in radii_list; np.where(...)[0][0] (basereversepropeller.py 365-367,
    378-380).  Comparing a list with a Python float gives False, from which
    np.where extracts nothing (IndexError, in recent numpy ValueError:
    OtherException here). *)
Fixpoint index_of (x : R) (l : list R) : option nat :=
  match l with
  | [] => None
  | y :: l' => if Req_EM_T y x then Some 0%nat else option_map S (index_of x l')
  end.
Definition display_index (k : radii_kind) (rl : list R) (radius : R) : res nat :=
  match index_of radius rl with
  | None => Err ValueError
  | Some i => match k with PyList => Err OtherException | NdArray => Ok i end
  end.
