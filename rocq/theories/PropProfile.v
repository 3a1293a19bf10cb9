(** Properties C01 - C04 and C06 - C12: planar operations of a profile. *)
From Coq Require Import Reals List ZArith String Lra Lia.
From Verif Require Import Base ProfileModel ProfileSpec ProfileProofs ProfileProofs2 ProfileProofs3 ProfileProofs4.
Import ListNotations.
Open Scope R_scope.

(** ** C01 *)
Theorem C01_translate_moves_every_point : forall v p,
  upper (translate v p) = map (padd v) (upper p) /\ lower (translate v p) = map (padd v) (lower p).
Proof. exact translate_points. Qed.
Print Assumptions C01_translate_moves_every_point.

Theorem C01_translate_undone : forall v p, translate (pneg v) (translate v p) = p.
Proof. exact translate_inverse. Qed.
Print Assumptions C01_translate_undone.

Theorem C01_translate_sequence : forall vs p,
  fold_left (fun q v => translate v q) vs p = translate (fold_right padd (0, 0) vs) p.
Proof. exact translate_fold. Qed.
Print Assumptions C01_translate_sequence.

Example C01_example : translate (1, -2) (mkProfile [0; 1] [0; 1] [0; 3] [0; 2]) =
  mkProfile [1; 2] [1; 2] [-2; 1] [-2; 0].
Proof. apply profile_eq; simpl; unfold vshift; simpl; repeat f_equal; lra. Qed.

(** ** C02 *)
Theorem C02_rotate_is_rotation : forall t p, uniform p ->
  exists q, rotate (Some t) None p = Ok q /\ uniform q /\
    upper q = map (prot t) (upper p) /\ lower q = map (prot t) (lower p).
Proof. exact rotate_full. Qed.
Print Assumptions C02_rotate_is_rotation.

Theorem C02_rotation_preserves_distances : forall t a b,
  pdist (prot t a) (prot t b) = pdist a b.
Proof. exact prot_dist. Qed.
Print Assumptions C02_rotation_preserves_distances.

Theorem C02_rotations_add : forall s t p q, uniform p -> rotate (Some t) None p = Ok q ->
  rotate (Some s) None q = rotate (Some (t + s)) None p.
Proof. exact rotate_compose. Qed.
Print Assumptions C02_rotations_add.

Theorem C02_rotation_undone : forall t p q, uniform p -> rotate (Some t) None p = Ok q ->
  rotate (Some (- t)) None q = Ok p.
Proof. exact rotate_inverse. Qed.
Print Assumptions C02_rotation_undone.

Theorem C02_degrees : forall d p, rotate None (Some d) p = rotate (Some (d * (PI / 180))) None p.
Proof. exact rotate_deg. Qed.
Print Assumptions C02_degrees.

Theorem C02_argument_errors : forall rad deg p, uniform p ->
  (rotate rad deg p = Err ValueError <-> (rad <> None /\ deg <> None) \/ (rad = None /\ deg = None)) /\
  ((exists q, rotate rad deg p = Ok q) <-> (rad <> None /\ deg = None) \/ (rad = None /\ deg <> None)).
Proof. exact rotate_err. Qed.
Print Assumptions C02_argument_errors.

(** Surfaces with different numbers of points: surplus lower points collapse to
    the origin, missing ones raise IndexError. *)
Theorem C02_unequal_surfaces : forall t p, paired p ->
  ((List.length (xdown p) < List.length (xup p))%nat -> rotate (Some t) None p = Err IndexError) /\
  ((List.length (xup p) <= List.length (xdown p))%nat -> exists q, rotate (Some t) None p = Ok q /\
     upper q = map (prot t) (upper p) /\
     lower q = map (prot t) (firstn (List.length (xup p)) (lower p)) ++
               repeat (0, 0) (List.length (xdown p) - List.length (xup p))).
Proof. exact rotate_shapes. Qed.
Print Assumptions C02_unequal_surfaces.

(** Any sequence of translations, rotations and reflections is one isometry. *)
Theorem C02_move_sequences_are_isometries : forall ms p, uniform p ->
  exists q f, do_moves ms p = Ok q /\ uniform q /\ upper q = map f (upper p) /\ lower q = map f (lower p) /\
    (forall a b, pdist (f a) (f b) = pdist a b).
Proof. exact do_moves_isometry. Qed.
Print Assumptions C02_move_sequences_are_isometries.

Example C02_example : uniform foil /\
  paired (mkProfile [0] [0; 1] [2] [3; 4]) /\ paired (mkProfile [0; 1] [0] [2; 3] [4]).
Proof. repeat split. Qed.

(** ** C03 *)
Theorem C03_reflect_negates_points : forall p,
  upper (reflect p) = map pneg (upper p) /\ lower (reflect p) = map pneg (lower p).
Proof. exact reflect_points. Qed.
Print Assumptions C03_reflect_negates_points.

Theorem C03_reflect_involution : forall p, reflect (reflect p) = p.
Proof. exact reflect_twice. Qed.
Print Assumptions C03_reflect_involution.

Theorem C03_reflect_is_half_turn : forall p, uniform p -> rotate (Some PI) None p = Ok (reflect p).
Proof. exact reflect_is_rotation. Qed.
Print Assumptions C03_reflect_is_half_turn.

Example C03_example : uniform foil /\ reflect foil <> foil.
Proof. split; [repeat split|]. intros H. injection H. intros. lra. Qed.

(** ** C04 *)
Theorem C04_scale_is_homothety : forall k p ref, reference_point p = Ok ref ->
  exists q, scale k true p = Ok q /\
   upper q = map (fun a => padd ref (pscale k (psub a ref))) (upper p) /\
   lower q = map (fun a => padd ref (pscale k (psub a ref))) (lower p).
Proof. exact scale_points. Qed.
Print Assumptions C04_scale_is_homothety.

Theorem C04_scale_reference_and_chord : forall k p q le te,
  update_edges p = Ok (le, te) -> scale k true p = Ok q ->
  (forall le' te', update_edges q = Ok (le', te') -> reference_point q = reference_point p /\
     pdist le' te' = Rabs k * pdist le te) /\
  (Rabs k <= 1 \/ (first (xup p) = first (xdown p) /\ final (xup p) = final (xdown p)) ->
     exists le' te', update_edges q = Ok (le', te')) /\
  (forall e, update_edges q = Err e -> e = ValueError).
Proof. exact scale_edges. Qed.
Print Assumptions C04_scale_reference_and_chord.

Theorem C04_scale_raises_iff_no_reference : forall k p e,
  scale k true p = Err e <-> reference_point p = Err e.
Proof. exact scale_raises. Qed.
Print Assumptions C04_scale_raises_iff_no_reference.

Theorem C04_scale_without_translation : forall k p q, scale k false p = Ok q ->
  upper q = map (pscale k) (upper p) /\ lower q = map (pscale k) (lower p).
Proof. exact scale_plain. Qed.
Print Assumptions C04_scale_without_translation.

Theorem C04_scale_without_translation_total : forall k p, exists q, scale k false p = Ok q.
Proof. exact scale_plain_ok. Qed.
Print Assumptions C04_scale_without_translation_total.

(* helper for the examples *)
Lemma foil_edges : update_edges foil = Ok ((0, 0), (499, 0)).
Proof.
  destruct (ref_edges foil) as (lx & tx & A & B & E); try (apply foil_ok); try discriminate.
  simpl in A, B. injection A as <-. injection B as <-. exact E.
Qed.
Example C04_example : reference_point foil = Ok (pscale (1/2) (padd (0, 0) (499, 0))).
Proof. apply reference_point_mid. exists (0, 0), (499, 0). split; auto. apply foil_edges. Qed.

(** ** C06 *)
Theorem C06_edges_characterised : forall p e, update_edges p = Ok e <->
  exists xu0 xd0 xun xdn yu0 yun ydn,
    first (xup p) = Ok xu0 /\ first (xdown p) = Ok xd0 /\ final (xup p) = Ok xun /\ final (xdown p) = Ok xdn /\
    first (yup p) = Ok yu0 /\ final (yup p) = Ok yun /\ final (ydown p) = Ok ydn /\
    Rabs (xu0 - xd0) <= 1/10000 /\ Rabs (xun - xdn) <= 1/10000 /\
    e = ((xu0, yu0), (xun, (yun + ydn) / 2)).
Proof. exact update_edges_iff. Qed.
Print Assumptions C06_edges_characterised.

Theorem C06_edges_exist_iff_close : forall p, xup p <> [] -> xdown p <> [] -> yup p <> [] -> ydown p <> [] ->
  (exists xu0 xd0 xun xdn, first (xup p) = Ok xu0 /\ first (xdown p) = Ok xd0 /\
     final (xup p) = Ok xun /\ final (xdown p) = Ok xdn /\
     ((update_edges p = Err ValueError <-> Rabs (xu0 - xd0) > 1/10000 \/ Rabs (xun - xdn) > 1/10000) /\
      ((exists e, update_edges p = Ok e) <-> Rabs (xu0 - xd0) <= 1/10000 /\ Rabs (xun - xdn) <= 1/10000))).
Proof. exact update_edges_err. Qed.
Print Assumptions C06_edges_exist_iff_close.

Theorem C06_reference_point_is_midpoint : forall p ref, reference_point p = Ok ref <->
  exists le te, update_edges p = Ok (le, te) /\ ref = pscale (1/2) (padd le te).
Proof. exact reference_point_mid. Qed.
Print Assumptions C06_reference_point_is_midpoint.

Theorem C06_edges_commute_with_translation : forall v p le te, update_edges p = Ok (le, te) ->
  update_edges (translate v p) = Ok (padd le v, padd te v).
Proof. exact translate_edges. Qed.
Print Assumptions C06_edges_commute_with_translation.

Theorem C06_edge_errors_commute_with_translation : forall v p e,
  update_edges p = Err e -> update_edges (translate v p) = Err e.
Proof. exact translate_edges_err. Qed.
Print Assumptions C06_edge_errors_commute_with_translation.

Theorem C06_reference_commutes_with_translation : forall v p ref, reference_point p = Ok ref ->
  reference_point (translate v p) = Ok (padd ref v).
Proof. exact translate_reference. Qed.
Print Assumptions C06_reference_commutes_with_translation.

Example C06_example : update_edges foil = Ok ((0, 0), (499, 0)) /\
  update_edges (mkProfile [0; 1] [0; 2] [0; 0] [0; 0]) = Err ValueError.
Proof.
  split; [apply foil_edges|].
  destruct (update_edges_err (mkProfile [0; 1] [0; 2] [0; 0] [0; 0])) as (a & b & c & d & A & B & C & D & K & _); try discriminate.
  simpl in A, B, C, D. injection C as <-. injection D as <-. apply K. right. rewrite Rabs_left; lra.
Qed.

(** ** C07 *)
Theorem C07_chord_line_points : forall n p xs ys, compute_chord_line n p = Ok (xs, ys) ->
  exists le te, update_edges p = Ok (le, te) /\ List.length ys = List.length xs /\
   (forall q, In q (combine xs ys) -> collinear le te q) /\
   nth_error (combine xs ys) 0 = Some le /\
   (n <> Some 1%Z -> nth_error (combine xs ys) (List.length xs - 1) = Some te).
Proof. exact chord_line_points. Qed.
Print Assumptions C07_chord_line_points.

Theorem C07_chord_line_succeeds : forall n p, uniform p -> xup p <> [] ->
  ((exists l, compute_chord_line n p = Ok l) <->
   exists le te, update_edges p = Ok (le, te) /\ fst le <> fst te /\ (forall z, n = Some z -> (0 <= z)%Z)).
Proof. exact chord_line_succeeds. Qed.
Print Assumptions C07_chord_line_succeeds.

Theorem C07_chord_line_commutes_with_translation : forall n v p xs ys, compute_chord_line n p = Ok (xs, ys) ->
  compute_chord_line n (translate v p) = Ok (vshift (fst v) xs, vshift (snd v) ys).
Proof. exact chord_translate. Qed.
Print Assumptions C07_chord_line_commutes_with_translation.

Example C07_example : exists l, compute_chord_line (Some 7%Z) foil = Ok l.
Proof.
  apply chord_line_succeeds; [repeat split|discriminate|].
  exists (0, 0), (499, 0). split; [apply foil_edges|]. split; [simpl; lra|]. intros z H. injection H as <-. lia.
Qed.

(** ** C08 *)
Theorem C08_set_thickness_max : forall t p old, max_thickness None p = Ok old -> old <> 0 ->
  exists q, set_thickness_max t p = Ok q /\ max_thickness None q = Ok (Rabs t) /\
    xup q = xup p /\ xdown q = xdown p /\
    yup q = vscale (t / old) (yup p) /\ ydown q = vscale (t / old) (ydown p).
Proof. exact set_thickness_ok. Qed.
Print Assumptions C08_set_thickness_max.

Theorem C08_set_thickness_of_flat_profile : forall t p, max_thickness None p = Ok 0 ->
  exists q, set_thickness_max t p = Ok q /\ xup q = xup p /\ xdown q = xdown p /\
    yup q = zeros (List.length (yup p)) /\ ydown q = zeros (List.length (ydown p)).
Proof. exact set_thickness_zero. Qed.
Print Assumptions C08_set_thickness_of_flat_profile.

Theorem C08_thickness_computable : forall n p, uniform p -> xup p <> [] ->
  (xup p = xdown p /\ (n = None \/ n = Some 0%Z)) \/
  (NoDup (xup p) /\ NoDup (xdown p) /\ (forall z, n = Some z -> (0 < z)%Z)) ->
  exists t, max_thickness n p = Ok t.
Proof. exact max_thickness_ok. Qed.
Print Assumptions C08_thickness_computable.

Example C08_example : max_thickness None foil = Ok 3.
Proof.
  rewrite max_thickness_direct by reflexivity. simpl. unfold vzip; simpl. f_equal.
  rewrite Rminus_0_r, Rabs_R0, (Rabs_right (2 - -1)) by lra.
  rewrite (Rmax_right 0 (2 - -1)) by lra. rewrite Rmax_left; lra.
Qed.

(** ** C09 *)
Theorem C09_deform_camber_line : forall pc p, uniform p -> xup p = xdown p ->
  exists q, deform_camber_line pc None p = Ok q /\ xup q = xup p /\ xdown q = xdown p /\
    mean (yup q) (ydown q) = vscale (1 + pc / 100) (mean (yup p) (ydown p)) /\
    gap (yup q) (ydown q) = gap (yup p) (ydown p) /\ above (yup q) (ydown q) /\ uniform q.
Proof. exact deform_common. Qed.
Print Assumptions C09_deform_camber_line.

Theorem C09_deform_camber_line_resampled : forall pc z p a b c d,
  (0 < z)%Z -> List.length (xup p) = List.length (xdown p) ->
  interpolate_coordinates (PyInt z) 1 p = Ok (a, b, c, d) ->
  exists q, deform_camber_line pc (Some z) p = Ok q /\ xup q = a /\ xdown q = b /\
    mean (yup q) (ydown q) = vscale (1 + pc / 100) (mean c d) /\
    gap (yup q) (ydown q) = gap c d /\ above (yup q) (ydown q).
Proof. exact deform_interp. Qed.
Print Assumptions C09_deform_camber_line_resampled.

Example C09_example : uniform foil /\ xup foil = xdown foil /\
  exists q, interpolate_coordinates (PyInt 5) 1 foil = Ok q.
Proof.
  split; [repeat split|]. split; [reflexivity|].
  destruct foil_ok as (U & E & ND & _).
  apply interpolate_not_distinct; auto; try lia; try lra; discriminate.
Qed.

(** ** C10 *)
Theorem C10_set_camber_line_max : forall c p old,
  xup p = xdown p -> uniform p -> NoDup (xup p) -> ref_position p ->
  max_camber (Some 500%Z) p = Ok old -> old <> 0 ->
  exists q, set_camber_line_max c p = Ok q /\ max_camber (Some 500%Z) q = Ok c /\
    xup q = xup p /\ xdown q = xdown p /\ gap (yup q) (ydown q) = gap (yup p) (ydown p) /\
    mean (yup q) (ydown q) = vscale (c / old) (mean (yup p) (ydown p)).
Proof. exact set_camber_ok. Qed.
Print Assumptions C10_set_camber_line_max.

Theorem C10_zero_camber_divides_by_zero : forall c p,
  max_camber (Some 500%Z) p = Ok 0 -> set_camber_line_max c p = Err NonFinite.
Proof. exact set_camber_zero. Qed.
Print Assumptions C10_zero_camber_divides_by_zero.

Theorem C10_max_camber_defined : forall p lx tx,
  xup p = xdown p -> uniform p -> NoDup (xup p) -> ref_position p ->
  first (xup p) = Ok lx -> final (xup p) = Ok tx -> lx <> tx ->
  exists old, max_camber (Some 500%Z) p = Ok old.
Proof. exact max_camber_defined. Qed.
Print Assumptions C10_max_camber_defined.

Example C10_example : uniform foil /\ xup foil = xdown foil /\ NoDup (xup foil) /\ ref_position foil /\
  exists old, max_camber (Some 500%Z) foil = Ok old /\ old <> 0.
Proof. exact foil_ok. Qed.

(** ** C11 *)
Theorem C11_thickness_translation_invariant : forall v p, xup p = xdown p ->
  max_thickness None (translate v p) = max_thickness None p.
Proof. exact max_thickness_translate. Qed.
Print Assumptions C11_thickness_translation_invariant.

Theorem C11_thickness_scales : forall k b p q t, xup p = xdown p -> max_thickness None p = Ok t ->
  scale k b p = Ok q -> max_thickness None q = Ok (Rabs k * t).
Proof. exact max_thickness_scaled. Qed.
Print Assumptions C11_thickness_scales.

Theorem C11_thickness_reflection_invariant : forall p, xup p = xdown p ->
  max_thickness None (reflect p) = max_thickness None p.
Proof. exact max_thickness_reflect. Qed.
Print Assumptions C11_thickness_reflection_invariant.

(** Horizontal translations preserve the interpolated measures too. *)
Theorem C11_interpolated_thickness_horizontal : forall n t p m, max_thickness n p = Ok m ->
  max_thickness n (translate (t, 0) p) = Ok m.
Proof. exact max_thickness_translate_x. Qed.
Print Assumptions C11_interpolated_thickness_horizontal.

Theorem C11_camber_horizontal : forall n t p m, max_camber n p = Ok m ->
  max_camber n (translate (t, 0) p) = Ok m.
Proof. exact max_camber_translate_x. Qed.
Print Assumptions C11_camber_horizontal.

(** max_camber() is not invariant under a vertical translation. *)
Theorem C11_camber_vertical_refuted : exists p v m, max_camber (Some 500%Z) p = Ok 0 /\
  max_camber (Some 500%Z) (translate v p) = Ok m /\ m <> 0.
Proof. exact max_camber_translate_refuted. Qed.
Print Assumptions C11_camber_vertical_refuted.

Example C11_example : xup foil = xdown foil /\ exists q, scale (-2) true foil = Ok q.
Proof.
  split; [reflexivity|].
  destruct (scale_points (-2) foil _ C04_example) as (q & Hq & _). eauto.
Qed.

(** ** C12 *)
Theorem C12_num_must_be_int : forall x r p, interpolate_coordinates (PyFloat x) r p = Err TypeError.
Proof. exact interpolate_type. Qed.
Print Assumptions C12_num_must_be_int.

Theorem C12_arguments_must_be_positive : forall z r p, (z <= 0)%Z \/ r <= 0 ->
  interpolate_coordinates (PyInt z) r p = Err ValueError.
Proof. exact interpolate_value. Qed.
Print Assumptions C12_arguments_must_be_positive.

Theorem C12_interpolates : forall z r p, (0 < z)%Z -> 0 < r -> paired p -> xup p <> [] -> xdown p <> [] ->
  NoDup (xup p) -> NoDup (xdown p) ->
  exists su sd x0 xn x0' xn',
    first (xup p) = Ok x0 /\ final (xup p) = Ok xn /\ first (xdown p) = Ok x0' /\ final (xdown p) = Ok xn' /\
    map su (xup p) = yup p /\ map sd (xdown p) = ydown p /\
    let xs := map (fun i => x0 + INR i * ((xn - x0) / INR (Z.to_nat z - 1))) (seq 0 (Z.to_nat z)) in
    let xs' := map (fun i => x0' + INR i * ((xn' - x0') / INR (Z.to_nat z - 1))) (seq 0 (Z.to_nat z)) in
    interpolate_coordinates (PyInt z) r p = Ok (xs, xs', map su xs, map sd xs').
Proof. exact interpolate_result. Qed.
Print Assumptions C12_interpolates.

Theorem C12_succeeds_iff_distinct : forall z r p, (0 < z)%Z -> 0 < r -> uniform p -> xup p <> [] ->
  ((exists q, interpolate_coordinates (PyInt z) r p = Ok q) <-> NoDup (xup p) /\ NoDup (xdown p)) /\
  (~ (NoDup (xup p) /\ NoDup (xdown p)) -> interpolate_coordinates (PyInt z) r p = Err LinAlgError).
Proof. exact interpolate_not_distinct. Qed.
Print Assumptions C12_succeeds_iff_distinct.

Example C12_example : NoDup (xup foil) /\ paired foil /\ ~ NoDup [0; 0; 1].
Proof.
  split; [apply foil_ok|]. split; [repeat split|]. intros H. inversion H as [|a b Ha Hb]. apply Ha. simpl. auto.
Qed.
