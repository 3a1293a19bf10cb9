(** Properties C35 - C41, C71, C72 and C105 - C109: the deformation object. *)
From Coq Require Import String Reals List ZArith Ascii Lra Lia.
From Verif Require Import Base ProfileProofs RbfModel BsplineModel BsplineSpec BsplineProofs BsplineProofs2 TextModel ParamsModel ParamsSpec ParamsProofs2 ParamsProofs3
  LstsqProofs DeformModel DeformSpec DeformProofs DeformProofs2 DeformProofs3 DeformProofs4 DeformProofs5 BsplineProofs3 BsplineProofs4 DeformProofs6 DeformProofs7 ErrorProofs.
Import ListNotations.
Open Scope R_scope.

(** A parameter file used by the examples: three radii, four control points,
    only the chord is deformed. *)
Definition sample_param : params R :=
  Build_params R (Some [1; 2; 3]) (Build_dict (Some [2; 4; 8]) (Some [5; 5; 7]) (Some [0; 1; 0]) (Some [1; 2; 3]) (Some [3; 2; 1]))
    (Build_dict 4 4 4 4 3)%Z (Build_dict 2 2 3 3 1)%Z (Build_dict 50 50 50 50 3)%Z
    (Build_dict [1; 0; 0; -1] [0; 0; 0; 0] [0; 0; 0; 0] [0; 0; 0; 0] [0; 0; 0]).
Definition sample_files : files := fun _ => Some (show_params R whole_codec sample_param).
Definition sample_deform : deform := Build_deform sample_param (same_for_all (zeros 3)) (same_for_all None) (same_for_all None).
Lemma sample_new : new_deform whole_codec sample_files (AStr (L "a.prm")) = (sample_files, Ok sample_deform).
Proof.
  assert (E : read_parameters R whole_codec sample_files (new_params R whole_codec) (AStr (L "a.prm")) = (sample_files, (sample_param, Ok tt))).
  2: unfold new_deform; rewrite E; reflexivity.
  transitivity (sample_files, load R whole_codec (new_params R whole_codec) (show_params R whole_codec sample_param)); [reflexivity|].
  f_equal. apply load_written.
  - exists [1; 2; 3]. split; auto. intros []; (split; [eexists; split; [reflexivity|reflexivity]|reflexivity]).
  - split; [discriminate|]. intros []; discriminate.
  - split; [|intros []; split]; repeat constructor; try apply (whole_printable 0); try apply (whole_printable 1); try apply (whole_printable 2); try apply (whole_printable 3);
      try apply (whole_printable 4); try apply (whole_printable 5); try apply (whole_printable 7); try apply (whole_printable 8); apply (whole_printable (-1)).
Qed.
Definition sample_sound : sound sample_deform := proj1 (new_deform_sound _ _ _ _ _ sample_new).
Lemma sample_nodup : NoDup [1; 2; 3].
Proof. repeat constructor; simpl; intros H; repeat destruct H as [H|H]; try lra; contradiction. Qed.

(** ** C35 *)
Theorem C35_end_points : forall d k rbf d' X Y, compute_control_points d (key_name k) rbf = (d', Ok tt) ->
  radii R (param d) = Some X -> at_key (parameters R (param d)) k = Some Y ->
  same_elsewhere k d d' /\ at_key (curve d') k = at_key (curve d) k /\ at_key (deformed d') k = at_key (deformed d) k /\
  exists cv, at_key (control d') k = Some cv /\ Z.of_nat (List.length cv) = at_key (nbasis R (param d)) k /\
    hd_error cv = Some (nth 0 X 0, nth 0 Y 0) /\
    last cv (0, 0) = (if Z.eq_dec (rbf_count rbf) 1 then (nth 0 X 0, nth 0 Y 0) else (last X 0, last Y 0)).
Proof. exact control_ends. Qed.
Print Assumptions C35_end_points.

Theorem C35_least_squares : forall d k rbf d' X Y cv, compute_control_points d (key_name k) rbf = (d', Ok tt) ->
  radii R (param d) = Some X -> at_key (parameters R (param d)) k = Some Y -> at_key (control d') k = Some cv ->
  let g := at_key (degree R (param d)) k in
  ((rbf_count rbf <= 0)%Z -> best_fit g X (map fst cv) /\ best_fit g Y (map snd cv)) /\
  ((0 < rbf_count rbf)%Z -> exists xx yy, xx = linspace (nth 0 X 0) (last X 0) (Z.to_nat (rbf_count rbf)) /\
     reconstruct_1d X Y xx (zeros (Z.to_nat (rbf_count rbf))) "beckert_wendland_c2_basis" 2 = Ok yy /\
     best_fit g xx (map fst cv) /\ best_fit g yy (map snd cv)).
Proof. exact control_best. Qed.
Print Assumptions C35_least_squares.

Theorem C35_splines_are_reproduced : forall d k rbf d' X Y cv v, compute_control_points d (key_name k) rbf = (d', Ok tt) ->
  radii R (param d) = Some X -> at_key (parameters R (param d)) k = Some Y -> at_key (control d') k = Some cv -> (rbf_count rbf <= 0)%Z ->
  let g := at_key (degree R (param d)) k in
  Z.of_nat (List.length v) = at_key (nbasis R (param d)) k -> nth 0 v (0, 0) = (nth 0 X 0, nth 0 Y 0) -> last v (0, 0) = (last X 0, last Y 0) ->
  bspline2 v (Z.of_nat (List.length X)) g = Ok (combine X Y) -> bspline2 cv (Z.of_nat (List.length X)) g = Ok (combine X Y).
Proof. exact control_exact. Qed.
Print Assumptions C35_splines_are_reproduced.

Theorem C35_when_it_succeeds : forall d k rbf, sound d ->
  let n := at_key (nbasis R (param d)) k in let g := at_key (degree R (param d)) k in
  snd (compute_control_points d (key_name k) rbf) = Ok tt <->
  (2 <= n)%Z /\ (0 <= g <= 19)%Z /\ (g < n)%Z /\ ((0 < rbf_count rbf)%Z -> NoDup (or_empty R (radii R (param d)))).
Proof. exact control_success. Qed.
Print Assumptions C35_when_it_succeeds.

(** After [radii] has been set to None. *)
Theorem C35_no_radii : forall d k rbf, radii R (param d) = None -> compute_control_points d (key_name k) rbf = (d, Err TypeError).
Proof. exact control_no_radii. Qed.
Print Assumptions C35_no_radii.

Example C35_example_no_radii : let d := Build_deform (set_radii R sample_param None) (same_for_all (zeros 3)) (same_for_all None) (same_for_all None) in
  radii R (param sample_deform) <> None /\ compute_control_points d (key_name Skew) None = (d, Err TypeError).
Proof. split; [discriminate|]. apply C35_no_radii. reflexivity. Qed.

(** A float number of points is truncated; none, nothing positive or less than one means no resampling. *)
Theorem C35_float_count : forall d k x n, (0 <= n)%Z ->
  IZR n <= x < IZR n + 1 -> compute_control_points d k (Some (PyFloat x)) = compute_control_points d k (Some (PyInt n)).
Proof. exact resampling_count. Qed.
Print Assumptions C35_float_count.

Theorem C35_resampling_off : forall d k rbf, rbf = None \/ (exists x, rbf = Some (PyFloat x) /\ x < 1) \/ (exists n, rbf = Some (PyInt n) /\ (n <= 0)%Z) ->
  compute_control_points d k rbf = compute_control_points d k (Some (PyInt 0)).
Proof. exact resampling_off. Qed.
Print Assumptions C35_resampling_off.

Example C35_count_example : IZR 1000 <= 2001 / 2 < IZR 1000 + 1 /\
  (exists x, Some (PyFloat (-1 / 2)) = Some (PyFloat x) /\ x < 1) /\ (exists n, Some (PyInt (-1)) = Some (PyInt n) /\ (n <= 0)%Z).
Proof. split; [lra|]. split; [exists (-1 / 2); split; [reflexivity|lra]|exists (-1)%Z; split; [reflexivity|lia]]. Qed.

Example C35_example : exists d' cv, compute_control_points sample_deform (key_name Chord) (Some (PyInt 1000)) = (d', Ok tt) /\
  at_key (control d') Chord = Some cv /\ List.length cv = 4%nat /\ nth 0 cv (0, 0) = (1, 2) /\ last cv (0, 0) = (3, 8).
Proof.
  destruct (compute_control_points sample_deform (key_name Chord) (Some (PyInt 1000))) as [d' o] eqn:E.
  assert (o = Ok tt).
  { pose proof (proj2 (C35_when_it_succeeds sample_deform Chord (Some (PyInt 1000)) sample_sound)) as Q. cbv zeta in Q. rewrite E in Q. apply Q. simpl.
    repeat split; try lia. intros _. apply sample_nodup. }
  subst o. destruct (C35_end_points _ _ _ _ _ _ E eq_refl eq_refl) as (_ & _ & _ & cv & C & L & H & La). exists d', cv. split; auto. split; auto.
  split; [simpl in L; lia|]. split; [exact (hd_nth _ _ H)|]. rewrite La. simpl. auto.
Qed.
(** Degree 1, as many control points as radii: the camber is reproduced. *)
Example C35_example_exact : exists d' cv, compute_control_points sample_deform (key_name Camber) None = (d', Ok tt) /\
  at_key (control d') Camber = Some cv /\ bspline2 cv 3 1 = Ok [(1, 3); (2, 2); (3, 1)].
Proof.
  destruct (compute_control_points sample_deform (key_name Camber) None) as [d' o] eqn:E.
  assert (o = Ok tt).
  { pose proof (proj2 (C35_when_it_succeeds sample_deform Camber None sample_sound)) as Q. cbv zeta in Q. rewrite E in Q. apply Q. simpl. repeat split; try lia; intros Q'; simpl in Q'; discriminate. }
  subst o. destruct (C35_end_points _ _ _ _ _ _ E eq_refl eq_refl) as (_ & _ & _ & cv & C & _). exists d', cv. split; auto. split; auto.
  apply (C35_splines_are_reproduced _ _ _ _ [1; 2; 3] [3; 2; 1] cv [(1, 3); (2, 2); (3, 1)] E eq_refl eq_refl C); try reflexivity.
  assert (B : forall a b c, bspline1 [a; b; c] 3 1 = Ok [a; b; c]).
  { intros a b c. transitivity (Ok (map (splev1 [a; b; c] 1) (linspace 0 (INR (List.length [a; b; c] - Z.to_nat 1)) (Z.to_nat 3)))); [reflexivity|]. f_equal.
    assert (LS : linspace 0 (INR (List.length [a; b; c] - Z.to_nat 1)) (Z.to_nat 3) = [0; 1; 2]) by (unfold linspace; simpl; repeat f_equal; field).
    rewrite LS. unfold splev1. cbn [map List.length]. unfold knot. simpl.
    repeat (destruct Rlt_dec; simpl; try lra); repeat (destruct Req_EM_T; simpl; try lra); repeat f_equal; field. }
  unfold bspline2. simpl map. rewrite !B. reflexivity.
Qed.

(** ** C36 *)
Theorem C36_update_adds_the_deformations : forall d k cv, sound d -> at_key (control d) k = Some cv ->
  exists d', update_control_points d (key_name k) = (d', Ok tt) /\ same_elsewhere k d d' /\ at_key (curve d') k = at_key (curve d) k /\ at_key (deformed d') k = at_key (deformed d) k /\
    exists cv', at_key (control d') k = Some cv' /\ map fst cv' = map fst cv /\ map snd cv' = map2 Rplus (map snd cv) (at_key (deformations R (param d)) k).
Proof. exact update_ok. Qed.
Print Assumptions C36_update_adds_the_deformations.

Theorem C36_repeated_updates_accumulate : forall n d k cv, sound d -> at_key (control d) k = Some cv ->
  exists d' cv', updates n d (key_name k) = (d', Ok tt) /\ sound d' /\ param d' = param d /\ at_key (control d') k = Some cv' /\ map fst cv' = map fst cv /\
    map snd cv' = map2 (fun y z => y + INR n * z) (map snd cv) (at_key (deformations R (param d)) k).
Proof. exact updates_ok. Qed.
Print Assumptions C36_repeated_updates_accumulate.

Theorem C36_refusals : forall d k,
  (at_key (control d) k = None \/ exists cv, at_key (control d) k = Some cv /\ List.length cv <> List.length (at_key (deformations R (param d)) k)) ->
  update_control_points d (key_name k) = (d, Err ValueError).
Proof. exact update_errors. Qed.
Print Assumptions C36_refusals.

Example C36_example : exists d1 d2 cv, compute_control_points sample_deform (key_name Chord) (Some (PyInt 1000)) = (d1, Ok tt) /\
  updates 3 d1 (key_name Chord) = (d2, Ok tt) /\ at_key (control d2) Chord = Some cv /\ nth 0 cv (0, 0) = (1, 5) /\ last cv (0, 0) = (3, 5).
Proof.
  destruct C35_example as (d1 & cv & E & C & L & H0 & HL).
  assert (S1 : sound d1) by (pose proof (proj1 (sound_calls _ sample_sound) (key_name Chord) (Some (PyInt 1000))) as Q; rewrite E in Q; exact Q).
  assert (P1 : param d1 = sample_param) by (destruct (C35_end_points _ _ _ _ _ _ E eq_refl eq_refl) as ((Q & _) & _); exact Q).
  destruct (C36_repeated_updates_accumulate 3 d1 Chord cv S1 C) as (d2 & cv2 & U & _ & _ & C2 & F & V). rewrite P1 in V.
  exists d1, d2, cv2. split; auto. split; auto. split; auto.
  destruct cv as [|[x0 y0] [|[x1 y1] [|[x2 y2] [|[x3 y3] [|]]]]]; try discriminate. simpl in H0, HL. injection H0 as -> ->. injection HL as -> ->.
  destruct cv2 as [|[u0 v0] [|[u1 v1] [|[u2 v2] [|[u3 v3] [|]]]]]; try discriminate. simpl in F, V. injection F as -> -> -> ->. injection V as -> _ _ ->. simpl.
  split; f_equal; ring.
Qed.

(** ** C37 *)
Theorem C37_unknown_names : forall d s, (forall k, s <> key_name k) ->
  (forall r, compute_control_points d s r = (d, Err ValueError)) /\ update_control_points d s = (d, Err ValueError) /\
  generate_spline d s = (d, Err ValueError) /\ (forall t, compute_deformed_parameters d s t = (d, Err ValueError)) /\
  (forall o out, plot_parametric_curve d o out s = Err ValueError).
Proof. exact bad_name. Qed.
Print Assumptions C37_unknown_names.

Theorem C37_calls_out_of_order : forall d k,
  (at_key (control d) k = None -> update_control_points d (key_name k) = (d, Err ValueError) /\ generate_spline d (key_name k) = (d, Err ValueError)) /\
  (at_key (curve d) k = None -> forall t, compute_deformed_parameters d (key_name k) t = (d, Err ValueError)).
Proof. exact out_of_order. Qed.
Print Assumptions C37_calls_out_of_order.

(** Without resampling. *)
Theorem C37_too_few_control_points : forall d k rbf X Y,
  rbf = None \/ (exists x, rbf = Some (PyFloat x) /\ x < 1) \/ (exists n, rbf = Some (PyInt n) /\ (n <= 0)%Z) ->
  radii R (param d) = Some X -> at_key (parameters R (param d)) k = Some Y -> (at_key (nbasis R (param d)) k < 2)%Z ->
  compute_control_points d (key_name k) rbf = (d, Err ValueError).
Proof. exact few_control_points. Qed.
Print Assumptions C37_too_few_control_points.

Theorem C37_failed_calls_change_nothing : forall d name,
  (forall r d' e, compute_control_points d name r = (d', Err e) -> d' = d) /\ (forall d' e, update_control_points d name = (d', Err e) -> d' = d) /\
  (forall d' e, generate_spline d name = (d', Err e) -> d' = d).
Proof. exact failed_calls. Qed.
Print Assumptions C37_failed_calls_change_nothing.

Theorem C37_spline_is_the_curve_of_the_control_points : forall d k cv d' o, at_key (control d) k = Some cv -> generate_spline d (key_name k) = (d', o) ->
  let s := bspline2 cv (at_key (npoints R (param d)) k) (at_key (degree R (param d)) k) in
  match s with
  | Ok c => o = Ok tt /\ d' = set_curve d k c
  | Err e => o = Err e /\ d' = d
  end.
Proof. exact spline_ok. Qed.
Print Assumptions C37_spline_is_the_curve_of_the_control_points.

Theorem C37_invariant : forall cd fs a fs' d0 d, new_deform cd fs a = (fs', Ok d0) -> after d0 d -> param d = param d0 /\ sound d.
Proof. exact reachable. Qed.
Print Assumptions C37_invariant.

Example C37_example : exists d, after sample_deform d /\ at_key (control d) Chord <> None /\ at_key (curve d) Chord = None /\
  update_control_points d (L "rake") = (d, Err ValueError) /\ compute_deformed_parameters d (L "chord") 1 = (d, Err ValueError) /\
  generate_spline d (L "Chord") = (d, Err ValueError).
Proof.
  destruct C35_example as (d1 & cv & E & C & _). destruct (C35_end_points _ _ _ _ _ _ E eq_refl eq_refl) as ((_ & SE) & CU & _).
  exists d1. split; [replace d1 with (fst (call sample_deform (AControl (key_name Chord) (Some (PyInt 1000))))) by (cbn [call]; rewrite E; reflexivity); constructor; constructor|].
  split; [rewrite C; discriminate|]. split; [rewrite CU; reflexivity|]. split; [|split].
  - apply (C37_calls_out_of_order d1 Rake). destruct (SE Rake ltac:(discriminate)) as (_ & -> & _). reflexivity.
  - apply (C37_calls_out_of_order d1 Chord). rewrite CU. reflexivity.
  - apply C37_unknown_names. intros []; discriminate.
Qed.

Example C37_example_few : exists d, at_key (nbasis R (param d)) Chord = 1%Z /\ compute_control_points d (L "chord") None = (d, Err ValueError).
Proof.
  exists (Build_deform (Build_params R (Some [1; 2; 3]) (same_for_all (Some [2; 4; 8])) (same_for_all 1%Z) (same_for_all 2%Z) (same_for_all 50%Z) (same_for_all [0]))
    (same_for_all (zeros 3)) (same_for_all None) (same_for_all None)).
  split; [reflexivity|]. eapply (C37_too_few_control_points _ Chord); [left; reflexivity|reflexivity|reflexivity|reflexivity].
Qed.

(** ** C38 *)
Theorem C38_samples_the_spline : forall d k tol s d' o, sound d -> at_key (curve d) k = Some s -> compute_deformed_parameters d (key_name k) tol = (d', o) ->
  let X := or_empty R (radii R (param d)) in let v := at_key (deformed d') k in
  same_elsewhere k d d' /\ at_key (control d') k = at_key (control d) k /\ at_key (curve d') k = at_key (curve d) k /\ List.length v = List.length X /\
  exists n, ((o = Ok tt /\ n = List.length X) \/ (o = Err ValueError /\ (n < List.length X)%nat /\ no_near s (nth n X 0) tol)) /\
    (forall j, (j < n)%nat -> exists p, first_near s (nth j X 0) tol p /\ nth j v 0 = snd p) /\
    (forall j, (n <= j)%nat -> nth j v 0 = nth j (at_key (deformed d) k) 0).
Proof. exact deformed_spec. Qed.
Print Assumptions C38_samples_the_spline.

Theorem C38_when_it_succeeds : forall d k tol s, sound d -> at_key (curve d) k = Some s ->
  (snd (compute_deformed_parameters d (key_name k) tol) = Ok tt <->
   forall r, In r (or_empty R (radii R (param d))) -> exists p, In p s /\ Rabs (fst p - r) < tol).
Proof. exact deformed_success. Qed.
Print Assumptions C38_when_it_succeeds.

(** A curve whose samples are given: the second radius has no sample near it,
    and the entry before it is overwritten all the same. *)
Definition sampled_deform : deform :=
  Build_deform (Build_params R (Some [1; 2; 3]) (parameters R sample_param) (nbasis R sample_param) (degree R sample_param) (same_for_all 3%Z) (deformations R sample_param))
    (same_for_all (zeros 3)) (set_key Chord (Some [(1, 2); (1, 2); (3, 8); (3, 8)]) (same_for_all None)) (set_key Chord (Some [(5/4, 6); (1, 7); (3, 8)]) (same_for_all None)).
Lemma sampled_sound : sound sampled_deform.
Proof.
  split; [|split].
  - exists [1; 2; 3]. split; auto. intros []; (split; [eexists; split; [reflexivity|reflexivity]|reflexivity]).
  - split; [discriminate|]. intros []; discriminate.
  - intros []; (split; [reflexivity|]; split; [|intros s H; first [discriminate H|split; [injection H as <-; reflexivity|discriminate]]]); intros cv H; try discriminate H; injection H as <-; reflexivity.
Qed.
Example C38_example : exists d1 d2, compute_deformed_parameters sampled_deform (key_name Chord) 1 = (d1, Ok tt) /\
  at_key (deformed d1) Chord = [6; 6; 8] /\
  compute_deformed_parameters sampled_deform (key_name Chord) (1/2) = (d2, Err ValueError) /\ at_key (deformed d2) Chord = [6; 0; 0].
Proof.
  assert (Y : forall a b, - b < a < b -> Rabs a < b) by (intros; apply Rabs_def1; lra).
  assert (N : forall a b, b <= a \/ a <= - b -> ~ Rabs a < b) by (intros a b H Q; apply Rabs_def2 in Q; lra).
  set (s := [(5/4, 6); (1, 7); (3, 8)]).
  assert (Q1 : near s 1 1 = Some (5/4, 6)) by (cbn; destruct Rlt_dec as [|Q]; auto; destruct Q; apply Y; lra).
  assert (Q2 : near s 2 1 = Some (5/4, 6)) by (cbn; destruct Rlt_dec as [|Q]; auto; destruct Q; apply Y; lra).
  assert (Q3 : near s 3 1 = Some (3, 8)).
  { cbn. destruct Rlt_dec as [Q|_]; [exfalso; revert Q; apply N; lra|]. destruct Rlt_dec as [Q|_]; [exfalso; revert Q; apply N; lra|].
    destruct Rlt_dec as [|Q]; auto; destruct Q; apply Y; lra. }
  assert (Q4 : near s 1 (1/2) = Some (5/4, 6)) by (cbn; destruct Rlt_dec as [|Q]; auto; destruct Q; apply Y; lra).
  assert (Q5 : near s 2 (1/2) = None).
  { cbn. destruct Rlt_dec as [Q|_]; [exfalso; revert Q; apply N; lra|]. destruct Rlt_dec as [Q|_]; [exfalso; revert Q; apply N; lra|].
    destruct Rlt_dec as [Q|_]; [exfalso; revert Q; apply N; lra|auto]. }
  assert (A1 : sample_radii s 1 0 [1; 2; 3] [0; 0; 0] = ([6; 6; 8], Ok tt)).
  { cbn [sample_radii]. rewrite Q1. cbn [set_item snd bind]. rewrite Q2. cbn [set_item snd bind]. rewrite Q3. reflexivity. }
  assert (A2 : sample_radii s (1/2) 0 [1; 2; 3] [0; 0; 0] = ([6; 0; 0], Err ValueError)).
  { cbn [sample_radii]. rewrite Q4. cbn [set_item snd bind]. rewrite Q5. reflexivity. }
  exists (set_deformed sampled_deform Chord [6; 6; 8]), (set_deformed sampled_deform Chord [6; 0; 0]).
  unfold compute_deformed_parameters. rewrite check_name_key.
  change (at_key (curve sampled_deform) Chord) with (Some s). change (radii R (param sampled_deform)) with (Some [1; 2; 3]). change (at_key (deformed sampled_deform) Chord) with [0; 0; 0].
  cbv iota beta. rewrite A1, A2. auto.
Qed.

(** ** C39 *)
Theorem C39_depends_on_the_parameters_only : forall rbf tols d1 d2, sound d1 -> sound d2 -> param d1 = param d2 ->
  snd (compute_all d1 rbf tols) = snd (compute_all d2 rbf tols) /\
  (snd (compute_all d1 rbf tols) = Ok tt -> fst (compute_all d1 rbf tols) = fst (compute_all d2 rbf tols)).
Proof. exact compute_all_same. Qed.
Print Assumptions C39_depends_on_the_parameters_only.

Theorem C39_compute_all_is_idempotent : forall rbf tols d d', sound d -> compute_all d rbf tols = (d', Ok tt) -> compute_all d' rbf tols = (d', Ok tt).
Proof. exact compute_all_again. Qed.
Print Assumptions C39_compute_all_is_idempotent.

Theorem C39_wide_tolerances_succeed : forall rbf tols d, sound d ->
  (forall k, let n := at_key (nbasis R (param d)) k in let g := at_key (degree R (param d)) k in
    (2 <= n)%Z /\ (0 <= g <= 19)%Z /\ (g < n)%Z /\ (0 < at_key (npoints R (param d)) k)%Z) ->
  let X := or_empty R (radii R (param d)) in ((0 < rbf_count rbf)%Z -> NoDup X) -> (forall k r, In r X -> Rabs (nth 0 X 0 - r) < at_key tols k) ->
  exists d', compute_all d rbf tols = (d', Ok tt).
Proof. exact compute_all_wide. Qed.
Print Assumptions C39_wide_tolerances_succeed.

Lemma sample_all : exists d', compute_all sample_deform (Some (PyInt 1000)) (same_for_all 5) = (d', Ok tt).
Proof.
  apply C39_wide_tolerances_succeed.
  - apply sample_sound.
  - intros []; simpl; lia.
  - intros _. apply sample_nodup.
  - intros k r I. rewrite at_all. simpl in I. apply Rabs_def1; repeat destruct I as [<-|I]; simpl; try lra; contradiction.
Qed.
Example C39_example : exists d1 d2 d3, compute_control_points sample_deform (key_name Pitch) None = (d1, Ok tt) /\ update_control_points d1 (key_name Pitch) = (d2, Ok tt) /\
  compute_all d2 (Some (PyInt 1000)) (same_for_all 5) = (d3, Ok tt) /\ compute_all sample_deform (Some (PyInt 1000)) (same_for_all 5) = (d3, Ok tt).
Proof.
  destruct (compute_control_points sample_deform (key_name Pitch) None) as [d1 o] eqn:E.
  assert (o = Ok tt).
  { pose proof (proj2 (C35_when_it_succeeds sample_deform Pitch None sample_sound)) as Q. cbv zeta in Q. rewrite E in Q. apply Q. simpl. repeat split; try lia; intros Q'; simpl in Q'; discriminate. }
  subst o. destruct (C35_end_points _ _ _ _ _ _ E eq_refl eq_refl) as ((P1 & _) & _ & _ & cv & C & _).
  assert (S1 : sound d1) by (pose proof (proj1 (sound_calls _ sample_sound) (key_name Pitch) None) as Q; rewrite E in Q; exact Q).
  destruct (C36_update_adds_the_deformations d1 Pitch cv S1 C) as (d2 & U & (P2 & _) & _).
  assert (S2 : sound d2) by (pose proof (proj1 (proj2 (sound_calls d1 S1)) (key_name Pitch)) as Q; rewrite U in Q; exact Q).
  destruct sample_all as (d3 & A). exists d1, d2, d3. split; auto. split; auto. split; auto.
  destruct (C39_depends_on_the_parameters_only (Some (PyInt 1000)) (same_for_all 5) sample_deform d2 sample_sound S2 ltac:(congruence)) as [Q1 Q2]. rewrite A in Q1, Q2. cbn [fst snd] in *. specialize (Q2 eq_refl).
  destruct (compute_all d2 (Some (PyInt 1000)) (same_for_all 5)) as [d4 o4]. cbn [fst snd] in *. congruence.
Qed.

(** ** C40 *)
Theorem C40_exported_file : forall cd fs d f, sound d ->
  exists p, export_param_file cd fs d (AStr f) = (put fs f (show_params R cd p), Ok tt) /\ consistent p /\ populated p /\
    radii R p = radii R (param d) /\ forall k,
      (Forall (fun x => x = 0) (at_key (deformations R (param d)) k) -> at_key (parameters R p) k = at_key (parameters R (param d)) k) /\
      (~ Forall (fun x => x = 0) (at_key (deformations R (param d)) k) -> at_key (parameters R p) k = Some (at_key (deformed d) k)) /\
      at_key (nbasis R p) k = at_key (nbasis R (param d)) k /\ at_key (npoints R p) k = at_key (npoints R (param d)) k /\
      at_key (degree R p) k = at_key (nbasis R (param d)) k /\
      at_key (deformations R p) k = zeros (List.length (at_key (deformations R (param d)) k)).
Proof. exact export_ok. Qed.
Print Assumptions C40_exported_file.

Theorem C40_reading_it_back : forall cd fs d f fs' p, sound d -> export_param_file cd fs d (AStr f) = (fs', Ok tt) ->
  fs' f = Some (show_params R cd p) -> consistent p -> populated p -> all_printable cd p ->
  exists d2, new_deform cd fs' (AStr f) = (fs', Ok d2) /\ param d2 = p.
Proof. exact export_read_back. Qed.
Print Assumptions C40_reading_it_back.

Theorem C40_other_arguments : forall cd fs d, sound d -> export_param_file cd fs d AOther = (fs, Err TypeError).
Proof. exact export_error. Qed.
Print Assumptions C40_other_arguments.

Theorem C40_other_files_untouched : forall cd fs d a g, a <> AStr g -> fst (export_param_file cd fs d a) g = fs g.
Proof. exact export_frame. Qed.
Print Assumptions C40_other_files_untouched.

(** A number of control points set to something negative: no file is written. *)
Theorem C40_negative_count : forall cd fs d a k, (at_key (nbasis R (param d)) k < 0)%Z -> export_param_file cd fs d a = (fs, Err ValueError).
Proof. exact export_negative. Qed.
Print Assumptions C40_negative_count.

Example C40_example_negative : let q := sample_param in
  let d := Build_deform (Build_params R (radii R q) (parameters R q) (set_key Rake (-1)%Z (nbasis R q)) (degree R q) (npoints R q) (deformations R q))
    (same_for_all (zeros 3)) (same_for_all None) (same_for_all None) in
  export_param_file whole_codec sample_files d (AStr (L "b.prm")) = (sample_files, Err ValueError).
Proof. cbv zeta. apply (C40_negative_count _ _ _ _ Rake). reflexivity. Qed.

Theorem C40_degree_equal_to_count_is_useless : forall d name rbf, sound d -> (forall k, at_key (degree R (param d)) k = at_key (nbasis R (param d)) k) ->
  snd (compute_control_points d name rbf) <> Ok tt.
Proof. exact reexport_useless. Qed.
Print Assumptions C40_degree_equal_to_count_is_useless.

(** Before anything is computed the distribution of the deformed parameter is
    exported as zeros; with the exported file nothing can be computed, as the
    degrees are lost. *)
Theorem C40_other_values_are_kept_refuted : exists cd fs f d0 fs' d1, new_deform cd fs (AStr f) = (fs, Ok d0) /\
  export_param_file cd fs d0 (AStr f) = (fs', Ok tt) /\ new_deform cd fs' (AStr f) = (fs', Ok d1) /\
  (forall k, at_key (degree R (param d1)) k <> at_key (degree R (param d0)) k) /\
  at_key (parameters R (param d0)) Chord = Some [2; 4; 8] /\ at_key (parameters R (param d1)) Chord = Some [0; 0; 0] /\
  (forall name rbf, snd (compute_control_points d1 name rbf) <> Ok tt).
Proof.
  destruct (C40_exported_file whole_codec sample_files sample_deform (L "a.prm") sample_sound) as (p & E & C & P & RP & K).
  destruct (C40_reading_it_back _ _ _ _ _ p sample_sound E) as (d1 & N & PD); auto.
  - assert (Z0 : forall n, Forall (printable whole_codec) (zeros n)) by (intros n; apply Forall_forall; intros x I; apply repeat_spec in I; subst; apply (whole_printable 0)).
    assert (PA : Forall (printable whole_codec) [5; 5; 7] /\ Forall (printable whole_codec) [0; 1; 0] /\ Forall (printable whole_codec) [1; 2; 3] /\ Forall (printable whole_codec) [3; 2; 1]).
    { repeat split; repeat constructor; try apply (whole_printable 0); try apply (whole_printable 1); try apply (whole_printable 2); try apply (whole_printable 3); try apply (whole_printable 5); apply (whole_printable 7). }
    destruct PA as (A1 & A2 & A3 & A4).
    split; [rewrite RP; exact A3|]. intros k. destruct (K k) as (K1 & K2 & _ & _ & _ & ->). split; [|apply Z0]. destruct k; simpl in K1, K2; cbn [at_key].
    + rewrite K2; [apply (Z0 3%nat)|]. intros Q. apply Forall_inv in Q. lra.
    + rewrite K1; auto.
    + rewrite K1; auto.
    + rewrite K1; auto.
    + rewrite K1; auto.
  - exists whole_codec, sample_files, (L "a.prm"), sample_deform, (put sample_files (L "a.prm") (show_params R whole_codec p)), d1.
    split; [exact sample_new|]. split; auto. split; auto. split; [|split; [reflexivity|split]].
    + intros k. rewrite PD. destruct (K k) as (_ & _ & _ & _ & -> & _). destruct k; simpl; lia.
    + rewrite PD. destruct (K Chord) as (_ & -> & _); auto. simpl. intros Q. apply Forall_inv in Q. lra.
    + intros name rbf. apply C40_degree_equal_to_count_is_useless; [eapply new_deform_sound; eauto|]. intros k. rewrite PD. destruct (K k) as (_ & _ & -> & _ & -> & _). auto.
Qed.
Print Assumptions C40_other_values_are_kept_refuted.

(** ** C41 *)
Theorem C41_zero_entries_cannot_be_plotted : forall d o out k, sound d ->
  original o = false -> ctrl_points o = false -> spline o = false -> rbf o = false -> show_deformed o = true -> out <> NotAString ->
  ((exists x, In x (at_key (deformed d) k) /\ x = 0) <-> plot_parametric_curve d o out (key_name k) = Err ValueError).
Proof. exact plot_deformed_only. Qed.
Print Assumptions C41_zero_entries_cannot_be_plotted.

(** Computed values that contain a zero are taken for values not computed. *)
Theorem C41_computed_values_can_be_plotted_refuted : exists cd fs f d0 d tols o out, new_deform cd fs (AStr f) = (fs, Ok d0) /\
  compute_all d0 (Some (PyInt 1000)) tols = (d, Ok tt) /\ out <> NotAString /\ plot_parametric_curve d o out (key_name Rake) = Err ValueError.
Proof.
  destruct sample_all as (d & A).
  exists whole_codec, sample_files, (L "a.prm"), sample_deform, d, (same_for_all 5), (Build_plot_options false false false false 0 true), Falsy.
  split; [exact sample_new|]. split; [exact A|]. split; [intros Q; inversion Q|].
  destruct (compute_all_each _ _ _ _ sample_sound A) as (S & _). apply C41_zero_entries_cannot_be_plotted; auto; [intros Q; inversion Q|].
  destruct (compute_all_values _ _ _ _ Rake sample_sound A) as (_ & L & s & _ & _ & _ & V & _). exists 0. split; auto.
  destruct (at_key (deformed d) Rake) as [|x l]; [discriminate|]. left. simpl in V. lra.
Qed.
Print Assumptions C41_computed_values_can_be_plotted_refuted.

(** ** C71 *)
Theorem C71_enough_points : forall d k tol cv s, sound d -> at_key (control d) k = Some cv ->
  let g := at_key (degree R (param d)) k in let n := at_key (npoints R (param d)) k in
  bspline2 cv n g = Ok s -> at_key (curve d) k = Some s -> (1 <= g)%Z -> (2 <= n)%Z ->
  IZR g * variation (map fst cv) * (INR (List.length cv - Z.to_nat g) / INR (Z.to_nat n - 1)) < 2 * tol ->
  (forall r, In r (or_empty R (radii R (param d))) ->
     Rmin (fst (nth 0 cv (0, 0))) (fst (last cv (0, 0))) <= r <= Rmax (fst (nth 0 cv (0, 0))) (fst (last cv (0, 0)))) ->
  snd (compute_deformed_parameters d (key_name k) tol) = Ok tt.
Proof. exact enough_points. Qed.
Print Assumptions C71_enough_points.

Theorem C71_values_after_compute_all : forall rbf tols d d' k, sound d -> compute_all d rbf tols = (d', Ok tt) ->
  let X := or_empty R (radii R (param d)) in let Y := or_empty R (at_key (parameters R (param d)) k) in let def := at_key (deformations R (param d)) k in
  param d' = param d /\ List.length (at_key (deformed d') k) = List.length X /\
  exists s, at_key (curve d') k = Some s /\ hd_error s = Some (nth 0 X 0, nth 0 Y 0 + nth 0 def 0) /\
    (rbf_count rbf <> 1%Z -> (2 <= at_key (npoints R (param d)) k)%Z -> last s (0, 0) = (last X 0, last Y 0 + last def 0)) /\
    nth 0 (at_key (deformed d') k) 0 = nth 0 Y 0 + nth 0 def 0 /\
    (forall j, (j < List.length X)%nat -> exists p, first_near s (nth j X 0) (at_key tols k) p /\ nth j (at_key (deformed d') k) 0 = snd p).
Proof. exact compute_all_values. Qed.
Print Assumptions C71_values_after_compute_all.

(** Four control points on a line: 60 samples are enough for a tolerance of a
    twentieth. *)
Definition line_deform : deform :=
  Build_deform (Build_params R (Some [1; 2; 3]) (parameters R sample_param) (nbasis R sample_param) (degree R sample_param) (same_for_all 81%Z) (deformations R sample_param))
    (same_for_all (zeros 3)) (set_key Chord (Some [(1, 2); (2, 2); (2, 9); (3, 8)]) (same_for_all None)) (same_for_all None).
Example C71_example : exists d, generate_spline line_deform (key_name Chord) = (d, Ok tt) /\ snd (compute_deformed_parameters d (key_name Chord) (1/19)) = Ok tt.
Proof.
  assert (F : fits 4 81 2) by (unfold fits; simpl; lia). destruct (bspline2_ends [(1, 2); (2, 2); (2, 9); (3, 8)] 81 2 F) as (s & B & LS & _).
  exists (set_curve line_deform Chord s). split.
  - unfold generate_spline. rewrite check_name_key. unfold assign. cbn [line_deform control at_key set_key d_chord param npoints degree sample_param same_for_all]. rewrite B. reflexivity.
  - apply (C71_enough_points _ Chord (1/19) [(1, 2); (2, 2); (2, 9); (3, 8)] s); try reflexivity; try exact B; try (simpl; lia).
    + split; [|split].
      * exists [1; 2; 3]. split; auto. intros []; (split; [eexists; split; [reflexivity|reflexivity]|reflexivity]).
      * split; [discriminate|]. intros []; discriminate.
      * intros []; (split; [reflexivity|]; split; [|intros q H; first [discriminate H|split; [injection H as <-; rewrite LS; reflexivity|discriminate]]]); intros cv H; try discriminate H; injection H as <-; reflexivity.
    + unfold variation. simpl sumn. simpl at_key. simpl List.length.
      replace (Rabs (2 - 1)) with 1 by (symmetry; rewrite Rabs_right; lra). replace (Rabs (2 - 2)) with 0 by (symmetry; rewrite Rminus_diag_eq, Rabs_R0; auto).
      replace (Rabs (3 - 2)) with 1 by (symmetry; rewrite Rabs_right; lra).
      replace (INR (4 - Z.to_nat 2)) with 2 by (simpl; lra). replace (INR (Z.to_nat 81 - 1)) with 80 by (rewrite INR_IZR_INZ; reflexivity). lra.
    + simpl. intros r I. rewrite Rmin_left, Rmax_right by lra. repeat destruct I as [<-|I]; try lra; contradiction.
Qed.
Example C71_example_values : exists d, compute_all sample_deform (Some (PyInt 1000)) (same_for_all 5) = (d, Ok tt) /\
  nth 0 (at_key (deformed d) Chord) 0 = 3 /\ exists s, at_key (curve d) Chord = Some s /\ last s (0, 0) = (3, 7).
Proof.
  destruct sample_all as (d & A). exists d. split; auto. destruct (C71_values_after_compute_all _ _ _ _ Chord sample_sound A) as (_ & _ & s & C & _ & La & V & _).
  split; [rewrite V; simpl; lra|]. exists s. split; auto. rewrite La; simpl; try lia. f_equal; ring.
Qed.

(** ** C72 *)
Theorem C72_figures : forall d o out k fig w, sound d ->
  (plot_parametric_curve d o out (key_name k) = Ok (fig, w) <->
   target out = Ok w /\ map fst fig = wanted o /\ Forall (fun q => depicts d (rbf_points o) k (fst q) (snd q)) fig).
Proof. exact plot_spec. Qed.
Print Assumptions C72_figures.

Theorem C72_several_parameters : forall d o out names more,
  plot d (names ++ more) o out = let* a := plot d names o out in let* b := plot d more o out in Ok (a ++ b).
Proof. intros. exact (mapM_app_ok _ _ _). Qed.
Print Assumptions C72_several_parameters.

Example C72_example : plot_parametric_curve sample_deform (Build_plot_options true false false false 0 false) (Name (L "a.png")) (L "skew") =
  Ok ([(Original, [(1, 1); (2, 2); (3, 3)])], File (L "a.png")) /\
  forall fig w, plot_parametric_curve sample_deform (Build_plot_options true true false false 0 false) Falsy (L "skew") <> Ok (fig, w).
Proof.
  split; [|intros fig w].
  - apply (C72_figures sample_deform _ _ Skew); [apply sample_sound|]. split; auto. split; auto.
    constructor; [|constructor]. apply (dep_original sample_deform 0 Skew [1; 2; 3] [1; 2; 3]); reflexivity.
  - intros H. apply (C72_figures sample_deform _ _ Skew) in H; [|apply sample_sound]. destruct H as (_ & M & F).
    destruct fig as [|[s1 p1] [|[s2 p2] [|]]]; try discriminate. simpl in M. injection M as -> ->. apply Forall_inv_tail, Forall_inv in F. simpl in F. inversion F. discriminate.
Qed.

(** ** C105 *)
Theorem C105_deformed_values : forall a b rbf tols d e f, sound d -> sound e -> sound f -> (forall k, mixture a b d e f k) ->
  snd (compute_all d rbf tols) = snd (compute_all f rbf tols) /\ snd (compute_all e rbf tols) = snd (compute_all f rbf tols) /\
  (snd (compute_all f rbf tols) = Ok tt -> forall k,
     let d' := fst (compute_all d rbf tols) in let e' := fst (compute_all e rbf tols) in let f' := fst (compute_all f rbf tols) in
     combination a b (at_key (deformed d') k) (at_key (deformed e') k) (at_key (deformed f') k) /\
     exists s t u, at_key (curve d') k = Some s /\ at_key (curve e') k = Some t /\ at_key (curve f') k = Some u /\
       map fst s = map fst u /\ map fst t = map fst u /\ combination a b (map snd s) (map snd t) (map snd u)).
Proof. exact compute_all_linear. Qed.
Print Assumptions C105_deformed_values.

Theorem C105_control_points : forall a b rbf k d e f, sound d -> sound e -> sound f -> mixture a b d e f k ->
  let c x := compute_control_points x (key_name k) rbf in
  snd (c d) = snd (c f) /\ snd (c e) = snd (c f) /\
  (snd (c f) = Ok tt -> exists p q r, at_key (control (fst (c d))) k = Some p /\ at_key (control (fst (c e))) k = Some q /\ at_key (control (fst (c f))) k = Some r /\
     map fst p = map fst r /\ map fst q = map fst r /\ combination a b (map snd p) (map snd q) (map snd r)).
Proof. exact control_linear. Qed.
Print Assumptions C105_control_points.

(** The sample, the same displaced elsewhere, and the difference 2 - 1. *)
Definition sample_like (v : dict (option (list R))) (w : dict (list R)) : deform :=
  Build_deform (Build_params R (Some [1; 2; 3]) v (nbasis R sample_param) (degree R sample_param) (npoints R sample_param) w)
    (same_for_all (zeros 3)) (same_for_all None) (same_for_all None).
Definition second_sample : deform := sample_like
  (Build_dict (Some [1; 1; 1]) (Some [5; 5; 7]) (Some [0; 2; 0]) (Some [3; 2; 1]) (Some [0; 0; 0]))
  (Build_dict [0; 1; 0; 0] [0; 0; 0; 0] [0; 0; 0; 0] [0; 0; 2; 0] [0; 0; 0]).
Definition mixed_sample : deform := sample_like
  (Build_dict (Some [3; 7; 15]) (Some [5; 5; 7]) (Some [0; 0; 0]) (Some [-1; 2; 5]) (Some [6; 4; 2]))
  (Build_dict [2; -1; 0; -2] [0; 0; 0; 0] [0; 0; 0; 0] [0; 0; -2; 0] [0; 0; 0]).
Example C105_example : sound sample_deform /\ sound second_sample /\ sound mixed_sample /\ (forall k, mixture 2 (-1) sample_deform second_sample mixed_sample k) /\
  snd (compute_all mixed_sample (Some (PyInt 1000)) (same_for_all 5)) = Ok tt /\
  nth 0 (at_key (deformed (fst (compute_all mixed_sample (Some (PyInt 1000)) (same_for_all 5)))) Chord) 0 = 5.
Proof.
  assert (Q : forall v w, (forall k, exists y, at_key v k = Some y /\ List.length y = 3%nat) -> (forall k, Z.of_nat (List.length (at_key w k)) = at_key (nbasis R sample_param) k /\ at_key w k <> []) -> sound (sample_like v w)).
  { intros v w V W. split; [|split].
    - exists [1; 2; 3]. split; [reflexivity|]. intros k. split; [apply V|]. symmetry. apply W.
    - split; [discriminate|]. intros k. apply W.
    - intros k. split; [destruct k; reflexivity|]. split; intros ? E; destruct k; discriminate. }
  assert (S2 : sound second_sample) by (apply Q; intros []; (eexists; split; reflexivity) || (split; [reflexivity|discriminate])).
  assert (S3 : sound mixed_sample) by (apply Q; intros []; (eexists; split; reflexivity) || (split; [reflexivity|discriminate])).
  assert (M : forall k, mixture 2 (-1) sample_deform second_sample mixed_sample k).
  { assert (C : forall u v w, List.length u = List.length w -> List.length v = List.length w -> Forall (fun t => snd t = 2 * fst (fst t) + -1 * snd (fst t)) (combine (combine u v) w) -> combination 2 (-1) u v w).
    { intros u v w. revert u v. induction w as [|z w IH]; intros [|x u] [|y v] L1 L2 F; try discriminate; (split; [exact L1|]; split; [exact L2|]); intros i I; [inversion I|].
      inversion F; subst. destruct i as [|i]; [assumption|]. apply (IH u v); cbn in *; auto; lia. }
    intros k. split; [destruct k; repeat split|]. split; [destruct k; repeat split|]. split; apply C; destruct k; try reflexivity; cbn; repeat constructor; cbn; lra. }
  split; [apply sample_sound|]. split; [exact S2|]. split; [exact S3|]. split; [exact M|].
  destruct (C105_deformed_values 2 (-1) (Some (PyInt 1000)) (same_for_all 5) _ _ _ sample_sound S2 S3 M) as (A & _ & _).
  destruct sample_all as (d & E). rewrite E in A. cbn [snd] in A. split; [symmetry; exact A|].
  destruct (compute_all mixed_sample (Some (PyInt 1000)) (same_for_all 5)) as [d' o] eqn:E'. cbn [fst snd] in *. subst o.
  destruct (C71_values_after_compute_all _ _ _ _ Chord S3 E') as (_ & _ & _ & _ & _ & _ & V & _). rewrite V. cbn. lra.
Qed.

(** ** C106 *)
Theorem C106_fit_is_unique : forall d k rbf d' X Y cv, compute_control_points d (key_name k) rbf = (d', Ok tt) ->
  radii R (param d) = Some X -> at_key (parameters R (param d)) k = Some Y -> at_key (control d') k = Some cv ->
  let g := at_key (degree R (param d)) k in let n := at_key (nbasis R (param d)) k in
  ((rbf_count rbf <= 0)%Z -> (n <= Z.of_nat (List.length X))%Z -> only_fit g X (map fst cv) /\ only_fit g Y (map snd cv)) /\
  ((0 < rbf_count rbf)%Z -> (n <= rbf_count rbf)%Z ->
     let xx := linspace (nth 0 X 0) (last X 0) (Z.to_nat (rbf_count rbf)) in
     exists yy, reconstruct_1d X Y xx (zeros (Z.to_nat (rbf_count rbf))) "beckert_wendland_c2_basis" 2 = Ok yy /\
     only_fit g xx (map fst cv) /\ only_fit g yy (map snd cv)).
Proof. exact control_unique. Qed.
Print Assumptions C106_fit_is_unique.

Example C106_example_fit : exists d' cv yy, compute_control_points sample_deform (key_name Chord) (Some (PyInt 1000)) = (d', Ok tt) /\
  at_key (control d') Chord = Some cv /\ only_fit 2 yy (map snd cv) /\ nth 0 (map snd cv) 0 = 2.
Proof.
  destruct C35_example as (d' & cv & E & C & _ & H & _). destruct (C106_fit_is_unique _ _ _ _ _ _ _ E eq_refl eq_refl C) as (_ & U).
  destruct (U ltac:(cbn; lia) ltac:(cbn; lia)) as (yy & _ & _ & O). exists d', cv, yy. split; [exact E|]. split; [exact C|]. split; [exact O|].
  pose proof (map_nth snd cv (0, 0) 0%nat) as M. cbn [snd] in M. etransitivity; [exact M|]. unfold pt in *. rewrite H. reflexivity.
Qed.

(** ** C107 *)
Theorem C107_control_abscissae : forall d k rbf d' X Y cv, compute_control_points d (key_name k) rbf = (d', Ok tt) ->
  radii R (param d) = Some X -> at_key (parameters R (param d)) k = Some Y -> at_key (control d') k = Some cv ->
  let g := at_key (degree R (param d)) k in let n := at_key (nbasis R (param d)) k in
  (1 <= g)%Z -> (n <= rbf_count rbf)%Z ->
  map fst cv = even_control (Z.to_nat n) (Z.to_nat g) (nth 0 X 0) (last X 0).
Proof. exact resampled_abscissae. Qed.
Print Assumptions C107_control_abscissae.

Theorem C107_curve_abscissae : forall rbf tols d d' k, sound d -> resampled d rbf k -> compute_all d rbf tols = (d', Ok tt) ->
  let X := or_empty R (radii R (param d)) in
  exists s, at_key (curve d') k = Some s /\ map fst s = linspace (nth 0 X 0) (last X 0) (Z.to_nat (at_key (npoints R (param d)) k)).
Proof. exact compute_all_even_curve. Qed.
Print Assumptions C107_curve_abscissae.

Theorem C107_when_compute_all_succeeds : forall rbf tols d, sound d -> (forall k, resampled d rbf k) -> let X := or_empty R (radii R (param d)) in NoDup X ->
  let xs k := linspace (nth 0 X 0) (last X 0) (Z.to_nat (at_key (npoints R (param d)) k)) in
  (snd (compute_all d rbf tols) = Ok tt <-> forall k r, In r X -> exists x, In x (xs k) /\ Rabs (x - r) < at_key tols k).
Proof. exact compute_all_even. Qed.
Print Assumptions C107_when_compute_all_succeeds.

Theorem C107_enough_curve_points : forall rbf tols d, sound d -> (forall k, resampled d rbf k) -> let X := or_empty R (radii R (param d)) in NoDup X ->
  (forall r, In r X -> Rmin (nth 0 X 0) (last X 0) <= r <= Rmax (nth 0 X 0) (last X 0)) ->
  (forall k, Rabs (last X 0 - nth 0 X 0) / IZR (at_key (npoints R (param d)) k - 1) < 2 * at_key tols k) ->
  exists d', compute_all d rbf tols = (d', Ok tt).
Proof. exact compute_all_fine. Qed.
Print Assumptions C107_enough_curve_points.

(** The chord of the sample has 50 curve points from 1 to 3: radius 2 is 1/49 from
    the nearest one. *)
Lemma sample_resampled : forall k, resampled sample_deform (Some (PyInt 1000)) k.
Proof. intros []; unfold resampled; cbn; lia. Qed.
Example C107_example :
  (exists d' cv, compute_control_points sample_deform (key_name Chord) (Some (PyInt 1000)) = (d', Ok tt) /\
     at_key (control d') Chord = Some cv /\ map fst cv = [1; 3 / 2; 5 / 2; 3]) /\
  (exists d', compute_all sample_deform (Some (PyInt 1000)) (Build_dict (1 / 48) (1 / 48) (1 / 48) (1 / 48) (3 / 5)) = (d', Ok tt)) /\
  snd (compute_all sample_deform (Some (PyInt 1000)) (Build_dict (1 / 49) 5 5 5 5)) <> Ok tt.
Proof.
  split; [|split].
  - destruct C35_example as (d' & cv & E & C & _). exists d', cv. split; [exact E|]. split; [exact C|].
    pose proof (C107_control_abscissae _ _ _ _ _ _ _ E eq_refl eq_refl C ltac:(cbn; lia) ltac:(cbn; lia)) as A. etransitivity; [exact A|].
    change (Z.to_nat (at_key (nbasis R (param sample_deform)) Chord)) with 4%nat. change (Z.to_nat (at_key (degree R (param sample_deform)) Chord)) with 2%nat.
    unfold even_control, greville. cbn. repeat (apply (f_equal2 cons); [field|]). reflexivity.
  - apply C107_enough_curve_points; [apply sample_sound|apply sample_resampled|apply sample_nodup| |].
    + intros r. change (or_empty R (radii R (param sample_deform))) with [1; 2; 3]. cbn. rewrite Rmin_left, Rmax_right by lra. intros I. repeat destruct I as [<-|I]; try lra; contradiction.
    + intros k. change (or_empty R (radii R (param sample_deform))) with [1; 2; 3]. cbn [nth last]. rewrite Rabs_right by lra. destruct k; cbn; lra.
  - rewrite (C107_when_compute_all_succeeds _ _ _ sample_sound sample_resampled sample_nodup). intros H.
    destruct (H Chord 2 ltac:(cbn; auto)) as (x & I & L). cbn [at_key d_chord] in L. unfold linspace in I. apply in_map_iff in I. destruct I as (i & <- & I). apply in_seq in I.
    change (or_empty R (radii R (param sample_deform))) with [1; 2; 3] in *. cbn [nth last] in L.
    change (Z.to_nat (at_key (npoints R (param sample_deform)) Chord) - 1)%nat with 49%nat in L.
    replace (INR 49) with 49 in L by (rewrite INR_IZR_INZ; reflexivity).
    assert (D : (i <= 24)%nat \/ (25 <= i)%nat) by lia. destruct D as [D|D]; apply le_INR in D; rewrite !INR_IZR_INZ in D; rewrite INR_IZR_INZ in L; cbn in D;
      apply Rabs_def2 in L; lra.
Qed.

(** ** C108 *)
Theorem C108_affine_control_points : forall d k rbf d' X Y cv a b, compute_control_points d (key_name k) rbf = (d', Ok tt) ->
  radii R (param d) = Some X -> at_key (parameters R (param d)) k = Some Y -> at_key (control d') k = Some cv -> (rbf_count rbf <= 0)%Z ->
  let g := at_key (degree R (param d)) k in let n := at_key (nbasis R (param d)) k in
  (n <= Z.of_nat (List.length X))%Z -> Y = map (fun x => a * x + b) X -> map snd cv = map (fun x => a * x + b) (map fst cv).
Proof. exact affine_control. Qed.
Print Assumptions C108_affine_control_points.

Theorem C108_undeformed_values : forall rbf tols d d' k X Y a b, sound d -> compute_all d rbf tols = (d', Ok tt) ->
  radii R (param d) = Some X -> at_key (parameters R (param d)) k = Some Y -> (rbf_count rbf <= 0)%Z ->
  let g := at_key (degree R (param d)) k in let n := at_key (nbasis R (param d)) k in
  (n <= Z.of_nat (List.length X))%Z -> Y = map (fun x => a * x + b) X -> Forall (fun x => x = 0) (at_key (deformations R (param d)) k) ->
  forall j, (j < List.length X)%nat -> Rabs (nth j (at_key (deformed d') k) 0 - nth j Y 0) <= Rabs a * at_key tols k.
Proof. exact affine_values. Qed.
Print Assumptions C108_undeformed_values.

Definition affine_deform : deform :=
  Build_deform (Build_params R (Some [1; 2; 3]) (Build_dict (Some [5; 7; 9]) (Some [4; 4; 4]) (Some [0; 1; 0]) (Some [1; 2; 3]) (Some [3; 2; 1]))
    (same_for_all 2%Z) (same_for_all 1%Z) (same_for_all 30%Z) (same_for_all [0; 0]))
    (same_for_all (zeros 3)) (same_for_all None) (same_for_all None).
Example C108_example : exists d', compute_all affine_deform None (same_for_all (9 / 4)) = (d', Ok tt) /\
  (forall j, (j < 3)%nat -> Rabs (nth j (at_key (deformed d') Chord) 0 - nth j [5; 7; 9] 0) <= 9 / 2) /\
  forall j, (j < 3)%nat -> nth j (at_key (deformed d') Pitch) 0 = 4.
Proof.
  assert (S : sound affine_deform).
  { split; [|split].
    - exists [1; 2; 3]. split; [reflexivity|]. intros []; (split; [eexists; split; reflexivity|reflexivity]).
    - split; [discriminate|]. intros []; discriminate.
    - intros k. split; [destruct k; reflexivity|]. split; intros ? E; destruct k; discriminate. }
  destruct (C39_wide_tolerances_succeed None (same_for_all (9 / 4)) affine_deform S) as (d' & E).
  - intros []; cbn; lia.
  - cbn. lia.
  - intros k r I. change (or_empty R (radii R (param affine_deform))) with [1; 2; 3] in I. cbn [nth or_empty radii param affine_deform].
    replace (at_key (same_for_all (9 / 4)) k) with (9 / 4) by (destruct k; reflexivity).
    repeat destruct I as [<-|I]; try contradiction; unfold Rabs; destruct (Rcase_abs _); lra.
  - exists d'. split; [exact E|]. split.
    + intros j J. pose proof (C108_undeformed_values _ _ _ _ Chord [1; 2; 3] [5; 7; 9] 2 3 S E eq_refl eq_refl ltac:(cbn; lia) ltac:(cbn; lia)) as V.
      assert (F : [5; 7; 9] = map (fun x => 2 * x + 3) [1; 2; 3]) by (cbn [map]; repeat (apply (f_equal2 cons); [lra|]); reflexivity).
      specialize (V F ltac:(cbn; repeat constructor) j J). rewrite (Rabs_right 2) in V by lra. replace (at_key (same_for_all (9 / 4)) Chord) with (9 / 4) in V by reflexivity. eapply Rle_trans; [exact V|]. lra.
    + intros j J. pose proof (C108_undeformed_values _ _ _ _ Pitch [1; 2; 3] [4; 4; 4] 0 4 S E eq_refl eq_refl ltac:(cbn; lia) ltac:(cbn; lia)) as V.
      assert (F : [4; 4; 4] = map (fun x => 0 * x + 4) [1; 2; 3]) by (cbn [map]; repeat (apply (f_equal2 cons); [lra|]); reflexivity).
      specialize (V F ltac:(cbn; repeat constructor) j J). rewrite Rabs_R0, Rmult_0_l in V.
      assert (N : nth j [4; 4; 4] 0 = 4) by (destruct j as [|[|[|j]]]; try reflexivity; lia). rewrite N in V.
      unfold Rabs in V. destruct (Rcase_abs _); lra.
Qed.

(** ** C109 *)
Theorem C109_curve_through_the_data : forall d k rbf d' X Y cv, compute_control_points d (key_name k) rbf = (d', Ok tt) ->
  radii R (param d) = Some X -> at_key (parameters R (param d)) k = Some Y -> at_key (control d') k = Some cv ->
  let g := at_key (degree R (param d)) k in let n := at_key (nbasis R (param d)) k in
  ((rbf_count rbf <= 0)%Z -> (Z.of_nat (List.length X) <= n)%Z -> bspline2 cv (Z.of_nat (List.length X)) g = Ok (combine X Y)) /\
  ((0 < rbf_count rbf)%Z -> (rbf_count rbf <= n)%Z ->
     let xx := linspace (nth 0 X 0) (last X 0) (Z.to_nat (rbf_count rbf)) in
     exists yy, reconstruct_1d X Y xx (zeros (Z.to_nat (rbf_count rbf))) "beckert_wendland_c2_basis" 2 = Ok yy /\
     bspline2 cv (rbf_count rbf) g = Ok (combine xx yy)).
Proof. exact control_through. Qed.
Print Assumptions C109_curve_through_the_data.

Theorem C109_any_tolerance_succeeds : forall rbf tols d, sound d -> (rbf_count rbf <= 0)%Z -> (forall k, through d k) -> (forall k, 0 < at_key tols k) ->
  exists d', compute_all d rbf tols = (d', Ok tt).
Proof. exact compute_all_through. Qed.
Print Assumptions C109_any_tolerance_succeeds.

Theorem C109_displacements_are_added : forall rbf tols d d' k X Y, sound d -> compute_all d rbf tols = (d', Ok tt) ->
  radii R (param d) = Some X -> at_key (parameters R (param d)) k = Some Y -> (rbf_count rbf <= 0)%Z ->
  (Z.of_nat (List.length X) <= at_key (nbasis R (param d)) k)%Z -> at_key (npoints R (param d)) k = Z.of_nat (List.length X) ->
  (forall i j, (i < j < List.length X)%nat -> at_key tols k <= Rabs (nth i X 0 - nth j X 0)) ->
  exists e, bspline1 (at_key (deformations R (param d)) k) (Z.of_nat (List.length X)) (at_key (degree R (param d)) k) = Ok e /\
    at_key (deformed d') k = map2 Rplus Y e.
Proof. exact through_values. Qed.
Print Assumptions C109_displacements_are_added.

Theorem C109_undeformed_values : forall rbf tols d d' k X Y, sound d -> compute_all d rbf tols = (d', Ok tt) ->
  radii R (param d) = Some X -> at_key (parameters R (param d)) k = Some Y -> (rbf_count rbf <= 0)%Z ->
  (Z.of_nat (List.length X) <= at_key (nbasis R (param d)) k)%Z -> at_key (npoints R (param d)) k = Z.of_nat (List.length X) ->
  (forall i j, (i < j < List.length X)%nat -> at_key tols k <= Rabs (nth i X 0 - nth j X 0)) ->
  Forall (fun x => x = 0) (at_key (deformations R (param d)) k) -> at_key (deformed d') k = Y.
Proof. exact through_kept. Qed.
Print Assumptions C109_undeformed_values.

(** Three radii, four control points, three curve points; only the chord is
    deformed, at both ends. *)
Definition through_deform : deform :=
  Build_deform (Build_params R (Some [1; 2; 4]) (Build_dict (Some [5; 7; 3]) (Some [4; 4; 4]) (Some [0; 1; 0]) (Some [1; 2; 3]) (Some [3; 2; 1]))
    (same_for_all 4%Z) (same_for_all 2%Z) (same_for_all 3%Z) (Build_dict [1; 0; 0; -1] [0; 0; 0; 0] [0; 0; 0; 0] [0; 0; 0; 0] [0; 0; 0; 0]))
    (same_for_all (zeros 3)) (same_for_all None) (same_for_all None).
Example C109_example_deform : exists d', compute_all through_deform None (same_for_all (1 / 1000)) = (d', Ok tt) /\
  at_key (deformed d') Rake = [0; 1; 0] /\ exists y, at_key (deformed d') Chord = [6; y; 2] /\ at_key (deformed d') Pitch = [4; 4; 4].
Proof.
  assert (S : sound through_deform).
  { split; [|split].
    - exists [1; 2; 4]. split; [reflexivity|]. intros []; (split; [eexists; split; reflexivity|reflexivity]).
    - split; [discriminate|]. intros []; discriminate.
    - intros k. split; [destruct k; reflexivity|]. split; intros ? E; destruct k; discriminate. }
  assert (SEP : forall k i j, (i < j < List.length [1; 2; 4])%nat -> at_key (same_for_all (1 / 1000)) k <= Rabs (nth i [1; 2; 4] 0 - nth j [1; 2; 4] 0)).
  { intros k i j [I J]. replace (at_key (same_for_all (1 / 1000)) k) with (1 / 1000) by (destruct k; reflexivity). cbn in J.
    destruct j as [|[|[|j]]]; try lia; (destruct i as [|[|i]]; try lia); cbn; unfold Rabs; destruct (Rcase_abs _); lra. }
  destruct (C109_any_tolerance_succeeds None (same_for_all (1 / 1000)) through_deform S) as (d' & E).
  - cbn. lia.
  - intros k. unfold through. destruct k; cbn; (split; [lia|]; split; [lia|]; split; [lia|]; split; [lia|]; exists 1%Z; lia).
  - intros []; cbn; lra.
  - exists d'. split; [exact E|]. split.
    + apply (C109_undeformed_values _ _ _ _ Rake [1; 2; 4] [0; 1; 0] S E); auto; try (cbn; lia); cbn; repeat constructor.
    + destruct (C109_displacements_are_added _ _ _ _ Chord [1; 2; 4] [5; 7; 3] S E eq_refl eq_refl ltac:(cbn; lia) ltac:(cbn; lia) eq_refl (SEP Chord)) as (e & B & D).
      destruct (bspline1_ends _ _ _ _ B) as (LE & B0 & B1). specialize (B1 ltac:(cbn; lia)). destruct e as [|e0 [|e1 [|e2 [|]]]]; try discriminate. cbn in B0, B1. subst.
      exists (7 + e1). split.
      * rewrite D. cbn [map2]. repeat (apply (f_equal2 cons); [lra|]). reflexivity.
      * apply (C109_undeformed_values _ _ _ _ Pitch [1; 2; 4] [4; 4; 4] S E); auto; try (cbn; lia); cbn; repeat constructor.
Qed.
