(** Blade.apply_transformations with array identity: the sections are profile
    objects whose coordinates are arrays on the heap of HeapModel.v.  Numerical
    results are those of BladeModel.v. *)
From Coq Require Import Reals List ZArith String.
From Verif Require Import Base ProfileModel PpgModel HeapModel BladeModel.
Import ListNotations.
Open Scope R_scope.

(** blade.py 333-364: the method calls on section [i], in order.  A call is
    chosen when the profile has the coordinates left by the previous ones:
    line 335 reads the reference point.  The vectors of lines 360 and 364 are
    lists of an int and a float.  Simplification: the blade's own arrays hold
    floats. *)
Definition section_calls (b : blade) (refl : bool) (i : nat) : list (profile -> res call) :=
  [ (fun p => let* ref := reference_point p in
              Ok (Translate (PyFloat (- fst ref), PyFloat (- snd ref))));
    (fun _ => let* c := item (chords b) i in Ok (Scale (PyFloat c) true)) ]
  ++ match thickness b with
     | None => []
     | Some ts => [ fun _ => let* t := item ts i in Ok (SetThicknessMax t) ]
     end
  ++ match camber b with
     | None => []
     | Some cs =>
         if Nat.ltb i (List.length (sections b) - 1)
         then [ fun _ => let* c := item cs i in Ok (SetCamberLineMax c) ]
         else []
     end
  ++ (if refl then [ fun _ => Ok Reflect ] else [])
  ++ [ (fun _ => let* a := pitch_angle_at b i in Ok (Rotate (Some (PI / 2 - a)) None));
       (fun _ => let* r := item (radii b) i in
                 let* s := item (skew b) i in
                 Ok (Translate (PyInt 0, PyFloat (- r * radians s))));
       (fun _ => let* k := item (rake b) i in
                 let* ir := induced_rake_at b i in
                 Ok (Translate (PyFloat (- (k + ir)), PyInt 0))) ].

(** Statements in sequence on one section; an exception ends the sequence. *)
Fixpoint run_calls (l : list (profile -> res call)) (s : state) : state * res unit :=
  match l with
  | [] => (s, Ok tt)
  | m :: l' =>
      match (let* p := read s in m p) with
      | Err e => (s, Err e)
      | Ok c => match perform c s with
                | (s', Ok _) => run_calls l' s'
                | (s', Err e) => (s', Err e)
                end
      end
  end.

(** blade.py 333-364: the loop; the sections are positions in the list of
    profile objects of the program. *)
Fixpoint transform_objects (b : blade) (refl : bool) (is : list nat) (w : world)
  : world * res unit :=
  match is with
  | [] => (w, Ok tt)
  | i :: is' =>
      match nth_error (sections b) i with
      | None => (w, Err IndexError)
      | Some s =>
          match nth_error (snd w) s with
          | None => (w, Err Unmodelled)
          | Some o =>
              let '((h, o'), r) := run_calls (section_calls b refl i) (fst w, o) in
              let w' := (h, replace_at (snd w) s o') in
              match r with
              | Ok _ => transform_objects b refl is' w'
              | Err e => (w', Err e)
              end
          end
      end
  end.

(** blade.py 255-296: the arrays are read, the coordinates of the blade are new
    arrays. *)
Definition object_coords (w : world) (b : blade) : res (list (list pt3) * list (list pt3)) :=
  let* ud := mapM (fun sr : nat * R =>
        let* p := match nth_error (snd w) (fst sr) with
                  | Some o => read (fst w, o)
                  | None => Err Unmodelled
                  end in
        let* u := cylinder_section (snd sr) (xup p) (yup p) in
        let* d := cylinder_section (snd sr) (xdown p) (ydown p) in
        Ok (u, d)) (combine (rev (sections b)) (rev (radii b))) in
  let up := map fst ud in
  let down := map snd ud in
  if (stackable down && stackable up)%bool then Ok (up, down) else Err ValueError.

(** blade.py 298-367. *)
Definition h_apply_transformations (refl : bool) (w : world) (b : blade)
  : world * blade * res unit :=
  match transform_objects b refl (seq 0 (List.length (sections b))) w with
  | (w', Err e) => (w', b, Err e)
  | (w', Ok _) =>
      match object_coords w' b with
      | Ok (up, down) => (w', set_coords (Built up down) b, Ok tt)
      | Err e => (w', set_coords Failed b, Err e)
      end
  end.
