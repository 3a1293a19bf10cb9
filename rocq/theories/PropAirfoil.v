(** Properties C96 - C98: what a profile object keeps, plotting it, and its
    parameters. *)
From Coq Require Import String Reals List ZArith Lra Lia.
From Verif Require Import Base ProfileModel ProfileSpec CustomModel CustomSpec CustomProofs4 NacaModel AirfoilModel AirfoilSpec
  AirfoilProofs AirfoilProofs2 AirfoilProofs3 AirfoilProofs4 AirfoilProofs5 AirfoilProofs6.
Import ListNotations.
Open Scope R_scope.

(** ** C96: kept lines and edges *)
(** Whatever the object keeps, every method computes with the coordinates it has
    now, and a method that raises leaves them alone. *)
Theorem C96_refinement : forall am cu a p, coords a = Ok p ->
  (forall v, does am cu (Translate v) a (Ok (translate v p))) /\
  does am cu Reflect a (Ok (reflect p)) /\
  (forall k b, does am cu (Scale k b) a (scale k b p)) /\
  (forall rad deg, does am cu (Rotate rad deg) a (rotate rad deg p)) /\
  (forall t, does am cu (SetThicknessMax t) a (set_thickness_max t p)) /\
  (forall m, does am cu (SetCamberLineMax m) a (set_camber_line_max m p)) /\
  (forall pc n, does am cu (DeformCamberLine pc n) a (deform_camber_line pc n p)) /\
  (forall n, answers am cu (MaxThickness n) a Number (max_thickness n p)) /\
  (forall n, answers am cu (MaxCamber n) a Number (max_camber n p)) /\
  answers am cu ReferencePoint a Point (reference_point p).
Proof. exact refinement. Qed.
Print Assumptions C96_refinement.

(** Two objects that differ in kept lines and edges only cannot be told apart by
    a program that draws no line. *)
Theorem C96_influence : forall am cu c a b, alike a b -> ~ shows_lines c ->
  exists a' b' r, perform am cu c a = (a', r) /\ perform am cu c b = (b', r) /\ alike a' b'.
Proof. exact influence. Qed.
Print Assumptions C96_influence.

Theorem C96_influence_of_a_run : forall am cu cs a a' b, runs am cu a cs a' -> alike a b -> Forall (fun c => ~ shows_lines c) cs ->
  exists b', runs am cu b cs b' /\ alike a' b'.
Proof. exact influence_runs. Qed.
Print Assumptions C96_influence_of_a_run.

(** The chord line of an object is the one it had, one that was assigned, or that
    of the coordinates at the last call that computed it. *)
Theorem C96_chord_line_history : forall am cu cs a a', runs am cu a cs a' ->
  chord a' = chord a \/
  exists pre c post a1 a2 r, cs = pre ++ c :: post /\ runs am cu a pre a1 /\ perform am cu c a1 = (a2, r) /\ runs am cu a2 post a' /\
    chord a2 = chord a' /\
    ((exists l, c = AssignChordLine l) \/
     exists n p l, chord_with c n /\ coords a1 = Ok p /\ compute_chord_line n p = Ok l /\ chord a' = Is l).
Proof. exact chord_history. Qed.
Print Assumptions C96_chord_line_history.

(** Moving or scaling a profile leaves its lines and parameters as they were. *)
Theorem C96_motions_keep : forall am cu cs a a', runs am cu a cs a' -> Forall moves cs ->
  chord a' = chord a /\ camber a' = camber a /\ stored a' = stored a.
Proof. exact motions_keep. Qed.
Print Assumptions C96_motions_keep.

(** So the kept line is wrong after any proper translation. *)
Theorem C96_stale_after_translation : forall am cu n v a p l, coords a = Ok p -> compute_chord_line n p = Ok l -> v <> (0, 0) ->
  exists a' l', runs am cu a [ComputeChordLine n; Translate v] a' /\ coords a' = Ok (translate v p) /\ chord a' = Is l /\
    compute_chord_line n (translate v p) = Ok l' /\ l' <> l.
Proof. exact stale_after_translation. Qed.
Print Assumptions C96_stale_after_translation.

(** The edges an object keeps after scaling are those of before. *)
Theorem C96_edges_after_scaling : forall am cu k a p le te, coords a = Ok p -> update_edges p = Ok (le, te) ->
  exists a' p', perform am cu (Scale k true) a = (a', Ok Nothing) /\ scale k true p = Ok p' /\ coords a' = Ok p' /\ edges a' = Some (le, te) /\
    (forall e, update_edges p' = Ok e -> (edges a' = Some e <-> k = 1 \/ le = te)).
Proof. exact scaled_edges. Qed.
Print Assumptions C96_edges_after_scaling.

(** If the ends of the surfaces do not meet, the edges are lost. *)
Theorem C96_edges_after_failure : forall am cu c a p, coords a = Ok p -> update_edges p = Err ValueError -> asks_edges c ->
  perform am cu c a = (with_edges ((0, 0), (0, 0)) a, Err ValueError).
Proof. exact edges_lost. Qed.
Print Assumptions C96_edges_after_failure.
Example C96_edges_lost_example : forall am cu, exists a p, coords a = Ok p /\ edges a = Some ((0, 0), (1, 0)) /\
  perform am cu ReferencePoint a = (with_edges ((0, 0), (0, 0)) a, Err ValueError).
Proof. exact edges_lost_example. Qed.

(** Only deform_camber_line keeps a line in step. *)
Theorem C96_deformed_line : forall am cu pc a p p', coords a = Ok p -> xup p = xdown p -> deform_camber_line pc None p = Ok p' ->
  exists a' l, perform am cu (DeformCamberLine pc None) a = (a', Ok Nothing) /\ coords a' = Ok p' /\ camber a' = Is l /\ compute_camber_line None p' = Ok l.
Proof. exact deformed_line. Qed.
Print Assumptions C96_deformed_line.

Example C96_example : forall am, new_custom am (keyed_params nparams) = Ok thin_foil /\ coords thin_foil = Ok thin /\
  update_edges thin = Ok ((0, 0), (2, 0)) /\ compute_chord_line None thin = Ok ([0; 1/2; 2], [0; 0; 0]).
Proof. intros. split; [apply thin_new|]. split; [reflexivity|]. split; [apply thin_edges|apply thin_chord]. Qed.
(** Edges and lines can be forgotten. *)
Example C96_example_influence : alike thin_foil (with_edges ((5, 5), (6, 6)) (with_chord (Is ([1], [1])) thin_foil)) /\
  ~ shows_lines (Plot (mkPlot true false false true NoFile)).
Proof. split; [repeat split|]. cbn. intuition discriminate. Qed.
Example C96_example_history : forall am cu, exists a', runs am cu thin_foil [ComputeChordLine None; Translate (1, 0)] a' /\
  coords a' = Ok (translate (1, 0) thin) /\ chord a' = Is ([0; 1/2; 2], [0; 0; 0]).
Proof.
  intros am cu. destruct (C96_stale_after_translation am cu None (1, 0) thin_foil thin _ eq_refl thin_chord) as (a' & l' & R & C & K & _).
  - intros H. injection H. lra.
  - exists a'. auto.
Qed.
Example C96_example_edges : forall am cu, exists a' p', perform am cu (Scale 3 true) thin_foil = (a', Ok Nothing) /\ coords a' = Ok p' /\
  update_edges p' = Ok ((-2, 0), (4, 0)) /\ edges a' = Some ((0, 0), (2, 0)).
Proof.
  intros am cu. destruct (C96_edges_after_scaling am cu 3 thin_foil thin _ _ eq_refl thin_edges) as (a' & p' & E & S & C & K & _).
  exists a', p'. split; auto. split; auto. split; auto. unfold scale, reference_point in S. rewrite thin_edges in S. cbn in S. injection S as <-.
  apply ProfileProofs.update_edges_iff. do 7 eexists. cbn. repeat split; try reflexivity.
  - rewrite Rminus_diag_eq, Rabs_R0 by reflexivity. lra.
  - rewrite Rminus_diag_eq, Rabs_R0 by reflexivity. lra.
  - repeat f_equal; lra.
Qed.
Example C96_example_deform : deform_camber_line 100 None thin = Ok (mkProfile [0; 1/2; 2] [0; 1/2; 2] [0; 3/10; 1/20] [0; 1/10; -(1/20)]).
Proof.
  unfold deform_camber_line, compute_camber_line. rewrite !ProfileProofs2.resolve_n_eq by reflexivity. cbn. unfold vzip; cbn.
  rewrite !Rabs_right by lra. apply f_equal, ProfileProofs.profile_eq; cbn; repeat (f_equal; try lra).
Qed.

(** ** C97: plot *)
(** When a plot succeeds, what it shows and where it goes. *)
Theorem C97_picture : forall am cu o a ds t,
  (exists a', perform am cu (Plot o) a = (a', Ok (Picture ds t))) <->
  (exists p ch ca r, can_show o a p ch ca r /\ ds = picture o p ch ca r) /\ aimed (o_file o) t.
Proof. exact plot_iff. Qed.
Print Assumptions C97_picture.

(** Plotting changes nothing but the edges. *)
Theorem C97_keeps : forall o a a' ds r, plot o a = (a', ds, r) -> exists e, a' = a \/ a' = with_edges e a.
Proof. exact plot_keeps. Qed.
Print Assumptions C97_keeps.

Theorem C97_no_coordinates : forall o a e, coords a = Err e -> plot o a = (a, [], Err ValueError).
Proof. exact plot_empty. Qed.
Print Assumptions C97_no_coordinates.

(** A file name that is no string is only noticed after everything was drawn. *)
Theorem C97_bad_file_name : forall o a p ch ca r, can_show o a p ch ca r -> (forall t, ~ aimed (o_file o) t) ->
  exists a', plot o a = (a', picture o p ch ca r, Err ValueError).
Proof. exact plot_late. Qed.
Print Assumptions C97_bad_file_name.

(** A chord line that is None gives the ValueError the code announces, but a
    constructor never makes it None: a line that was never computed gives an
    AttributeError. *)
Theorem C97_line_is_none : forall am cu o a p, coords a = Ok p -> chord a = IsNone -> o_chord o = true ->
  perform am cu (Plot o) a = (a, Err ValueError).
Proof. exact plot_none. Qed.
Print Assumptions C97_line_is_none.

Theorem C97_line_never_computed : forall am cu o a p, coords a = Ok p -> chord a = Absent -> o_chord o = true ->
  (o_profile o = true -> drawable (xup p, yup p) /\ drawable (xdown p, ydown p)) ->
  perform am cu (Plot o) a = (a, Err AttributeError).
Proof. exact plot_absent. Qed.
Print Assumptions C97_line_never_computed.

Theorem C97_new_profiles_have_no_lines : forall am,
  (forall kw a, new_custom am kw = Ok a -> chord a = Absent /\ camber a = Absent) /\
  (forall d n c a, new_naca am d n c = Ok a -> chord a = Absent /\ camber a = Absent).
Proof. exact fresh_lines. Qed.
Print Assumptions C97_new_profiles_have_no_lines.

Theorem C97_announced_error_refuted : exists kw a o, forall am cu, new_custom am kw = Ok a /\
  perform am cu (Plot o) a = (a, Err AttributeError).
Proof.
  exists (keyed_params nparams), thin_foil, (mkPlot true true false false NoFile). intros am cu. split; [apply thin_new|].
  eapply C97_line_never_computed with (p := thin); try reflexivity. intros _. split; reflexivity.
Qed.
Print Assumptions C97_announced_error_refuted.

(** The lines in the picture do not follow the profile. *)
Theorem C97_lines_do_not_follow : forall am cu cs a a' o a'' ds t l, chord a = Is l -> runs am cu a cs a' -> Forall moves cs -> o_chord o = true ->
  perform am cu (Plot o) a' = (a'', Ok (Picture ds t)) -> forall l', In (Curve "Chord line" l') ds <-> l' = l.
Proof. exact plot_stale. Qed.
Print Assumptions C97_lines_do_not_follow.

Example C97_example : can_show (mkPlot true true false true (FileName "wing.png")) (with_chord (Is ([0; 2], [0; 0])) thin_foil) thin ([0; 2], [0; 0]) ([], []) (1, 0) /\
  aimed (FileName "wing.png") (Saved "wing.png") /\ (forall t, ~ aimed (NotAString true) t).
Proof.
  split; [|split; [constructor; discriminate|intros t H; inversion H]].
  split; [reflexivity|]. split; [split; reflexivity|]. split; [split; reflexivity|]. split; [discriminate|]. intros _. unfold reference_point. rewrite thin_edges. cbn. apply f_equal, f_equal2; lra.
Qed.
Example C97_example_picture : forall am cu, exists a',
  perform am cu (Plot (mkPlot true true false true (FileName "wing.png"))) (with_chord (Is ([0; 2], [0; 0])) thin_foil) =
  (a', Ok (Picture [Curve "Upper profile" ([0; 1/2; 2], [0; 1/5; 1/20]); Curve "Lower profile" ([0; 1/2; 2], [0; 0; -(1/20)]);
                    Curve "Chord line" ([0; 2], [0; 0]); Dot (1, 0)] (Saved "wing.png"))).
Proof.
  intros am cu. apply C97_picture. split; [|exact (proj1 (proj2 C97_example))]. exists thin, ([0; 2], [0; 0]), ([], []), (1, 0). split; [exact (proj1 C97_example)|reflexivity].
Qed.
Example C97_example_none : perform (fun _ _ _ _ _ => Err ValueError) (fun _ _ _ => Err ValueError) (Plot (mkPlot false true false false NoFile)) (with_chord IsNone thin_foil)
  = (with_chord IsNone thin_foil, Err ValueError) /\ plot (mkPlot true false false false NoFile) (assign Xup None thin_foil) = (assign Xup None thin_foil, [], Err ValueError).
Proof. split; [apply C97_line_is_none with thin; reflexivity|apply C97_no_coordinates with Unmodelled; reflexivity]. Qed.

(** ** C98: parameters *)
(** The parameters follow no change of the coordinates, and generating the
    coordinates again undoes every motion since. *)
Theorem C98_parameters_kept : forall am cu cs a a', runs am cu a cs a' -> Forall (fun c => ~ sets_parameters c) cs ->
  stored a' = stored a /\ sort a' = sort a.
Proof. exact parameters_kept. Qed.
Print Assumptions C98_parameters_kept.

Theorem C98_regenerated : forall am cu cs a a' cv, runs am cu a cs a' -> Forall (fun c => ~ sets_parameters c) cs -> known cv ->
  forall b x, perform am cu (GenerateCoordinates cv) a = (b, Ok x) ->
  exists b', perform am cu (GenerateCoordinates cv) a' = (b', Ok x) /\ coords b' = coords b.
Proof. exact regenerate. Qed.
Print Assumptions C98_regenerated.

Theorem C98_restored : forall am cu,
  (forall kw a, has_keys kw param_keys -> new_custom am kw = Ok a ->
     exists b, perform am cu (GenerateCoordinates None) a = (b, Ok Nothing) /\ coords b = coords a) /\
  (forall d n c a, new_naca am d n c = Ok a ->
     exists b, perform am cu (GenerateCoordinates None) a = (b, Ok Nothing) /\ coords b = coords a).
Proof. intros am cu. split; [exact (restore_custom am cu)|exact (restore_naca am cu)]. Qed.
Print Assumptions C98_restored.

(** A NACA profile takes no convention, at any time. *)
Theorem C98_naca_convention : forall am cu d n c a cs a' cv, new_naca am d n c = Ok a -> runs am cu a cs a' ->
  perform am cu (GenerateCoordinates (Some cv)) a' = (a', Err TypeError).
Proof. exact naca_convention. Qed.
Print Assumptions C98_naca_convention.

(** Parameters computed anew. *)
Theorem C98_parameters_of_a_scaled_profile : forall am k p q e, 0 < k -> generate_parameters am "british" p = Ok q ->
  update_edges (scale_coords k p) = Ok e -> generate_parameters am "british" (scale_coords k p) = Ok (enlarged k q).
Proof. exact parameters_scaled. Qed.
Print Assumptions C98_parameters_of_a_scaled_profile.

Theorem C98_parameters_of_a_shifted_profile : forall am dx p q, generate_parameters am "british" p = Ok q ->
  generate_parameters am "british" (translate (dx, 0) p) = Ok q.
Proof. exact parameters_shifted. Qed.
Print Assumptions C98_parameters_of_a_shifted_profile.

(** An unknown convention leaves a mixture of old and new parameters. *)
Theorem C98_unknown_convention : forall am cu cv a p q, coords a = Ok p -> cv <> "british"%string -> cv <> "american"%string ->
  generate_parameters am "british" p = Ok q -> camber_max q <> 0 ->
  exists a', perform am cu (GenerateParameters cv) a = (a', Err NameError) /\
    stored a' = mkParams (chord_length q) (chord_percentage q) (camber_max q) (camber_percentage q) (thickness_max (stored a)) (thickness_percentage (stored a)).
Proof. exact params_mixed. Qed.
Print Assumptions C98_unknown_convention.

Example C98_example : forall am, has_keys (keyed_params nparams) param_keys /\ new_custom am (keyed_params nparams) = Ok thin_foil /\
  generate_parameters am "british" thin = Ok nparams /\ camber_max nparams = 1/10.
Proof. intros. split; [apply keyed_params_call|]. split; [apply thin_new|]. split; [apply thin_params|reflexivity]. Qed.
Example C98_example_forgets : forall am cu, exists a' b, runs am cu thin_foil [Translate (1, 0)] a' /\ coords a' = Ok (translate (1, 0) thin) /\
  perform am cu (GenerateCoordinates None) a' = (b, Ok Nothing) /\ coords b = Ok thin.
Proof.
  intros am cu. destruct (proj1 (C98_restored am cu) _ _ (proj1 (C98_example am)) (thin_new am)) as (b & E & C).
  assert (R : runs am cu thin_foil [Translate (1, 0)] (with_coords (translate (1, 0) thin) thin_foil)).
  { apply runs_cons with (a1 := with_coords (translate (1, 0) thin) thin_foil) (r := Ok Nothing); [reflexivity|split; discriminate|constructor]. }
  destruct (C98_regenerated am cu _ _ _ None R) with (b := b) (x := Nothing) as (b' & E' & C'); auto.
  - left. reflexivity.
  - exists (with_coords (translate (1, 0) thin) thin_foil), b'. split; [exact R|]. split; [reflexivity|]. split; [exact E'|]. rewrite C', C. reflexivity.
Qed.
Example C98_example_scaled : forall am, exists e, update_edges (scale_coords 2 thin) = Ok e /\
  generate_parameters am "british" (scale_coords 2 thin) = Ok (mkParams 4 [0; 1/4; 1] (1/5) [0; 1; 0] (2/5) [0; 1; 1/2]).
Proof.
  intros am. assert (E : exists e, update_edges (scale_coords 2 thin) = Ok e).
  { eexists. apply ProfileProofs.update_edges_iff. do 7 eexists. cbn. repeat split; try reflexivity; rewrite Rminus_diag_eq, Rabs_R0 by reflexivity; lra. }
  destruct E as (e & E). exists e. split; auto. rewrite (C98_parameters_of_a_scaled_profile am 2 thin nparams e); [|lra|apply thin_params|exact E].
  unfold enlarged. cbn. do 2 f_equal; lra.
Qed.
Example C98_example_mixed : forall am cu, exists a', perform am cu (GenerateParameters "french") (with_stored (mkParams 9 [9] 9 [9] 9 [9]) thin_foil) = (a', Err NameError) /\
  stored a' = mkParams 2 [0; 1/4; 1] (1/10) [0; 1; 0] 9 [9].
Proof.
  intros am cu. apply (C98_unknown_convention am cu "french" (with_stored (mkParams 9 [9] 9 [9] 9 [9]) thin_foil) thin nparams); try discriminate.
  - reflexivity.
  - apply thin_params.
  - cbn. lra.
Qed.
