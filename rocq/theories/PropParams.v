(** Properties C30 - C34 and C70: parameter files. *)
From Coq Require Import List ZArith Ascii String Bool Arith Lia.
From Verif Require Import Base TextModel TextSpec ParamsModel ParamsSpec ParamsProofs2 ParamsProofs3 ParamsProofs4.
Import ListNotations.

(** An object used by the examples: three radii, only pitch given. *)
Definition sample_params : params Z :=
  Build_params Z (Some [3; 5; 9]%Z) (Build_dict None (Some [-2; 0; 14]%Z) None None None)
    (Build_dict 2 1 1 3 1)%Z (same_for_all 3%Z) (same_for_all 500%Z)
    (Build_dict [1; -7] [0] [0] [5; 6; 7] [12])%Z.
Definition sample_fits : forall k, fits_key 3 sample_params k.
Proof. intros k. split; [|destruct k; reflexivity]. intros v. destruct k; simpl; intros H; try discriminate; injection H as <-; auto. Qed.

(** ** C30 *)
Theorem C30_round_trip : forall F (cd : codec F) fs p f fs' p' q, write_parameters F cd fs p (AStr f) = (fs', (p', Ok tt)) ->
  populated p' -> all_printable cd p' -> read_parameters F cd fs' q (AStr f) = (fs', (p', Ok tt)).
Proof. exact round_trip. Qed.
Print Assumptions C30_round_trip.

(** What is written, line by line. *)
Theorem C30_written_lines : forall F (cd : codec F) fs p f fs' p', write_parameters F cd fs p (AStr f) = (fs', (p', Ok tt)) -> populated p' ->
  fs' f = Some (text_of (parameter_lines cd p')).
Proof. exact written_text. Qed.
Print Assumptions C30_written_lines.

(** The whole file written for [sample_params]. *)
Definition sample_text : string := "
[Original parameters]
# This section describes the radial distributions of the parameters:
# ""chord lengths"", ""pitch"", ""rake"", ""skew angles"", and ""camber""
# at given radial sections.

Radial sections =  3
                   5
                   9

Radial distribution of chord =  0
                                0
                                0

Radial distribution of pitch =  -2
                                0
                                14

Radial distribution of rake =   0
                                0
                                0

Radial distribution of skew =   0
                                0
                                0

Radial distribution of camber = 0
                                0
                                0


[Chord B-Spline]
# This section describes the B-Spline construction of the RADII -- CHORD curve.

# degree of the B-Spline curve
spline degree: 3

# number of points to be evaluated with the B-Spline interpolation
spline npoints: 500

# number of the control points
number of control points: 2

# Y-deformations of the control points.
control points Y-deformations =  1
                                 -7


[Pitch B-Spline]
# This section describes the B-Spline construction of the RADII -- PITCH curve.

# degree of the B-Spline curve
spline degree: 3

# number of points to be evaluated with the B-Spline interpolation
spline npoints: 500

# number of the control points
number of control points: 1

# Y-deformations of the control points.
control points Y-deformations =  0


[Rake B-Spline]
# This section describes the B-Spline construction of the RADII -- RAKE curve.

# degree of the B-Spline curve
spline degree: 3

# number of points to be evaluated with the B-Spline interpolation
spline npoints: 500

# number of the control points
number of control points: 1

# Y-deformations of the control points.
control points Y-deformations =  0


[Skew B-Spline]
# This section describes the B-Spline construction of the RADII -- SKEW curve.

# degree of the B-Spline curve
spline degree: 3

# number of points to be evaluated with the B-Spline interpolation
spline npoints: 500

# number of the control points
number of control points: 3

# Y-deformations of the control points.
control points Y-deformations =  5
                                 6
                                 7


[Camber B-Spline]
# This section describes the B-Spline construction of the RADII -- CAMBER curve.

# degree of the B-Spline curve
spline degree: 3

# number of points to be evaluated with the B-Spline interpolation
spline npoints: 500

# number of the control points
number of control points: 1

# Y-deformations of the control points.
control points Y-deformations =  12
".
Example C30_example_text : forall fs, fst (write_parameters Z int_codec fs sample_params (AStr (L "a.prm"))) (L "a.prm") = Some (L sample_text).
Proof. intros fs. rewrite (write_ok Z int_codec fs sample_params (L "a.prm") [3; 5; 9]%Z eq_refl sample_fits). reflexivity. Qed.

Theorem C30_empty_objects_are_not_read_back : forall F (cd : codec F) fs p f fs' p' q,
  write_parameters F cd fs p (AStr f) = (fs', (p', Ok tt)) -> ~ populated p' ->
  read_parameters F cd fs' q (AStr f) <> (fs', (p', Ok tt)).
Proof. exact unpopulated_lost. Qed.
Print Assumptions C30_empty_objects_are_not_read_back.

Theorem C30_integers_are_printable : forall n, printable int_codec n.
Proof. exact int_printable. Qed.
Print Assumptions C30_integers_are_printable.

Example C30_example : forall fs q, exists fs' p', write_parameters Z int_codec fs sample_params (AStr (L "a.prm")) = (fs', (p', Ok tt)) /\
  read_parameters Z int_codec fs' q (AStr (L "a.prm")) = (fs', (p', Ok tt)) /\ at_key (parameters Z p') Skew = Some [0; 0; 0]%Z.
Proof.
  intros fs q. pose proof (write_ok Z int_codec fs sample_params (L "a.prm") [3; 5; 9]%Z eq_refl sample_fits) as W.
  do 2 eexists. split; [exact W|]. split; [|reflexivity].
  eapply C30_round_trip; [exact W| |apply int_all_printable].
  split; [discriminate|]. intros []; discriminate.
Qed.

(** ** C31 *)
Theorem C31_successful_read : forall F (cd : codec F) fs q f fs' p, read_parameters F cd fs q (AStr f) = (fs', (p, Ok tt)) ->
  consistent p /\ populated p /\ (forall g, g <> f -> fs' g = fs g) /\ (fs f <> None -> fs' f = fs f) /\
  (forall q', read_parameters F cd fs' q' (AStr f) = (fs', (p, Ok tt))) /\
  write_parameters F cd fs' p (AStr f) = (put fs' f (show_params F cd p), (p, Ok tt)).
Proof. exact read_inv. Qed.
Print Assumptions C31_successful_read.

Theorem C31_numbers_come_from_the_file : forall F (cd : codec F) q t p, load F cd q t = (p, Ok tt) -> exists c, parse_config t = Ok c /\
  (exists s, get c (L "Original parameters") (L "Radial sections") = Ok s /\ Forall2 (number_line cd) (split_nl s) (or_empty F (radii F p))) /\
  forall k,
    (exists s, get c (L "Original parameters") (L "Radial distribution of " ++ key_name k) = Ok s /\
       Forall2 (number_line cd) (split_nl s) (or_empty F (at_key (parameters F p) k))) /\
    (exists s, get c (section_name k) (L "control points Y-deformations") = Ok s /\ s <> [] /\
       Forall2 (number_line cd) (split_nl s) (at_key (deformations F p) k)) /\
    getint c (section_name k) (L "spline degree") = Ok (at_key (degree F p) k) /\
    getint c (section_name k) (L "spline npoints") = Ok (at_key (npoints F p) k) /\
    getint c (section_name k) (L "number of control points") = Ok (at_key (nbasis F p) k).
Proof. exact load_entries. Qed.
Print Assumptions C31_numbers_come_from_the_file.

Theorem C31_read_errors : forall F (cd : codec F) q t p e, load F cd q t = (p, Err e) -> e = ConfigError \/ e = ValueError.
Proof. intros F cd q t p e H. exact (proj1 (proj2 (load_inv F cd q t p _ H)) e eq_refl). Qed.
Print Assumptions C31_read_errors.

Theorem C31_all_errors : forall F (cd : codec F) fs q a fs' p o, read_parameters F cd fs q a = (fs', (p, o)) ->
  (a = AOther <-> o = Err TypeError) /\ (a = AOther -> fs' = fs /\ p = q) /\
  (o = Ok tt \/ o = Err TypeError \/ o = Err ConfigError \/ o = Err ValueError).
Proof. exact read_errors. Qed.
Print Assumptions C31_all_errors.

(** A text with one radius and one control point per parameter. *)
Definition small_section (n : string) : list (list ascii) :=
  [L ("[" ++ n ++ " B-Spline]"); L "Spline Degree = 2"; L "spline npoints: 10"; L "number of control points = 1"; L "control points y-deformations: -4"]%string.
Definition small_lines : list (list ascii) :=
  [L "[Original parameters]"; L "radial sections: 7"; L "radial distribution of chord =1"; L "radial distribution of pitch=2";
   L "radial distribution of rake = 3"; L "Radial Distribution of skew: 4"; L "radial distribution of camber ="; L "    5"; []] ++
  small_section "Chord" ++ small_section "Pitch" ++ small_section "Rake" ++ small_section "Skew" ++ small_section "Camber".
Example C31_example : exists p, load Z int_codec (new_params Z int_codec) (text_of small_lines) = (p, Err ValueError) /\
  at_key (parameters Z p) Camber = Some [0; 0]%Z.
Proof. eexists. split; vm_compute; reflexivity. Qed.
Example C31_example_ok : exists p, load Z int_codec (new_params Z int_codec) (text_of (map (fun l =>
    if eqb_str l (L "radial distribution of camber =") then L "radial distribution of camber = 5" else
    if eqb_str l (L "    5") then L "; five" else l) small_lines)) = (p, Ok tt) /\
  radii Z p = Some [7]%Z /\ at_key (degree Z p) Rake = 2%Z /\ at_key (deformations Z p) Skew = [-4]%Z.
Proof. eexists. split; [vm_compute; reflexivity|]. vm_compute. auto. Qed.

(** ** C32 *)
Theorem C32_write_validates : forall F (cd : codec F) fs p a fs' p' o, write_parameters F cd fs p a = (fs', (p', o)) ->
  (o = Err TypeError /\ a = AOther /\ fs' = fs /\ p' = p) \/
  (o = Err ValueError /\ fs' = fs /\ ~ (exists r, radii F p = Some r /\ forall k, fits_key (List.length r) p k)) \/
  (exists f, o = Ok tt /\ a = AStr f /\ fs' = put fs f (show_params F cd p') /\ consistent p' /\
    exists r, radii F p = Some r /\ forall k, fits_key (List.length r) p k).
Proof. exact write_cases. Qed.
Print Assumptions C32_write_validates.

Theorem C32_missing_distributions_become_zero : forall F (cd : codec F) fs p a fs' p' k,
  write_parameters F cd fs p a = (fs', (p', Ok tt)) ->
  radii F p' = radii F p /\ nbasis F p' = nbasis F p /\ degree F p' = degree F p /\ npoints F p' = npoints F p /\
  deformations F p' = deformations F p /\
  at_key (parameters F p') k =
    Some (match at_key (parameters F p) k with Some v => v | None => repeat (c_zero cd) (List.length (or_empty F (radii F p))) end).
Proof. exact write_fills. Qed.
Print Assumptions C32_missing_distributions_become_zero.

Example C32_example : forall fs, exists p', write_parameters Z int_codec fs (set_deformations Z sample_params Rake []) (AStr (L "a.prm")) =
  (fs, (p', Err ValueError)) /\ at_key (parameters Z p') Chord = Some [0; 0; 0]%Z.
Proof. intros. eexists. split; reflexivity. Qed.

(** ** C33 *)
Theorem C33_missing_file : forall F (cd : codec F) fs q f, fs f = None -> c_arange cd <> [] ->
  let q1 := set_radii F q (Some (c_arange cd)) in
  ((forall k, fits_key (List.length (c_arange cd)) q k) ->
    populated q1 -> all_printable cd (zero_filled cd q1) ->
    read_parameters F cd fs q (AStr f) = (put fs f (show_params F cd (zero_filled cd q1)), (zero_filled cd q1, Ok tt))) /\
  (~ (forall k, fits_key (List.length (c_arange cd)) q k) ->
    exists p, read_parameters F cd fs q (AStr f) = (fs, (p, Err ValueError)) /\ radii F p = Some (c_arange cd)).
Proof. exact read_missing. Qed.
Print Assumptions C33_missing_file.

Theorem C33_fresh_object : forall F (cd : codec F) fs f, fs f = None -> c_arange cd <> [] ->
  Forall (printable cd) (c_arange cd) -> printable cd (c_zero cd) ->
  exists fs' p, read_parameters F cd fs (new_params F cd) (AStr f) = (fs', (p, Ok tt)) /\ fs' f <> None /\
    radii F p = Some (c_arange cd) /\ forall k, at_key (parameters F p) k = Some (repeat (c_zero cd) (List.length (c_arange cd))) /\
      at_key (nbasis F p) k = 10%Z /\ at_key (degree F p) k = 3%Z /\ at_key (npoints F p) k = 500%Z /\
      at_key (deformations F p) k = repeat (c_zero cd) 10.
Proof. exact read_missing_fresh. Qed.
Print Assumptions C33_fresh_object.

Example C33_example : exists fs' p, read_parameters Z int_codec (fun _ => None) (new_params Z int_codec) (AStr (L "p.prm")) = (fs', (p, Ok tt)) /\
  radii Z p = Some [3; 4; 5; 6; 7; 8; 9; 10]%Z.
Proof.
  destruct (C33_fresh_object Z int_codec (fun _ => None) (L "p.prm")) as (fs' & p & E & _ & R & _); auto.
  - discriminate.
  - apply Forall_forall. intros. apply int_printable.
  - apply int_printable.
  - eauto.
Qed.
Example C33_example_mismatch : exists p, read_parameters Z int_codec (fun _ => None) sample_params (AStr (L "p.prm")) = (fun _ => None, (p, Err ValueError)) /\
  radii Z p = Some [3; 4; 5; 6; 7; 8; 9; 10]%Z.
Proof.
  apply (proj2 (C33_missing_file Z int_codec (fun _ => None) sample_params (L "p.prm") eq_refl ltac:(discriminate))).
  intros H. destruct (H Pitch) as [A _]. specialize (A _ eq_refl). discriminate.
Qed.

(** ** C34 *)
Theorem C34_failed_read_partition : forall F (cd : codec F) q t p e, load F cd q t = (p, Err e) ->
  (nbasis F p = nbasis F q /\ degree F p = degree F q /\ npoints F p = npoints F q /\ deformations F p = deformations F q) \/
  exists r, radii F p = Some r /\ r <> [] /\ forall k, exists v, at_key (parameters F p) k = Some v /\ List.length v = List.length r.
Proof. intros F cd q t p e H. exact (proj2 (proj2 (load_inv F cd q t p _ H))). Qed.
Print Assumptions C34_failed_read_partition.

Theorem C34_unparsable_file_changes_nothing : forall F (cd : codec F) q t e, parse_config t = Err e -> load F cd q t = (q, Err ConfigError).
Proof. exact load_unparsable. Qed.
Print Assumptions C34_unparsable_file_changes_nothing.

Theorem C34_failed_read_is_atomic_refuted : exists q t p, load Z int_codec q t = (p, Err ConfigError) /\ consistent q /\ ~ consistent p.
Proof. exact not_atomic. Qed.
Print Assumptions C34_failed_read_is_atomic_refuted.

Example C34_example : exists p, load Z int_codec sample_params (text_of [L "[Original parameters]"; L "Radial sections = 7"; L "     8 9"]) = (p, Err ValueError) /\
  radii Z p = Some [7; 0]%Z /\ nbasis Z p = nbasis Z sample_params.
Proof. eexists. split; [vm_compute; reflexivity|]. split; reflexivity. Qed.

(** ** C70 *)
Theorem C70_windows_line_ends : forall F (cd : codec F) q t, ~ In "013"%char t -> load F cd q (crlf t) = load F cd q t.
Proof. exact load_crlf. Qed.
Print Assumptions C70_windows_line_ends.

Theorem C70_comment_lines : forall F (cd : codec F) q a c b, comment_line c ->
  Forall (fun l => ~ In nl l) (a ++ b) -> Forall (fun l => ~ In "013"%char l) (a ++ b) ->
  load F cd q (text_of (a ++ c :: b)) = load F cd q (text_of (a ++ b)).
Proof. exact load_comment. Qed.
Print Assumptions C70_comment_lines.

Example C70_example : comment_line (L "   # Radial sections = 3").
Proof.
  split; [|split; simpl; intuition discriminate].
  exists (L "   "), "#"%char, (L " Radial sections = 3"). split; [reflexivity|]. split; [|auto].
  unfold white, blank. repeat constructor; cbn [In]; tauto.
Qed.
