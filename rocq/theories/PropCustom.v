(** Properties C13 - C16, C66 and C67: CustomProfile. *)
From Coq Require Import Reals List ZArith String Lra Lia.
From Verif Require Import Base ProfileModel ProfileSpec CustomModel CustomSpec CustomProofs CustomProofs2 CustomProofs3 CustomProofs4 CustomProofs5.
Import ListNotations.
Open Scope R_scope.

(** ** C13 *)
Theorem C13_consistent_coordinates_reach_parameter_generation : forall american kw p,
  coordinate_call kw p -> uniform p -> xup p <> [] -> consistent p ->
  custom_profile american kw = (let* q := generate_parameters american "british" p in Ok (p, q)).
Proof. intros american kw p C U N. exact (proj1 (accept_iff american kw p C U N)). Qed.
Print Assumptions C13_consistent_coordinates_reach_parameter_generation.

Theorem C13_inconsistent_coordinates_rejected : forall american kw p,
  coordinate_call kw p -> uniform p -> xup p <> [] -> ~ consistent p ->
  custom_profile american kw = Err ValueError.
Proof. intros american kw p C U N. exact (proj2 (accept_iff american kw p C U N)). Qed.
Print Assumptions C13_inconsistent_coordinates_rejected.

Theorem C13_moderate_coordinates_constructed : forall american kw p,
  coordinate_call kw p -> uniform p -> xup p <> [] -> consistent p ->
  Rabs (hd 0 (xup p)) <= 9 -> Rabs (last (xup p) 0) <= 9 -> hd 0 (xup p) <> last (xup p) 0 ->
  exists q, custom_profile american kw = Ok (p, q).
Proof. exact construct_ok. Qed.
Print Assumptions C13_moderate_coordinates_constructed.

Theorem C13_missing_coordinates_rejected : forall american kw k,
  has_keys kw coord_keys -> arrays_or_none kw -> In (k, KNone) kw ->
  custom_profile american kw = Err ValueError.
Proof. exact custom_none. Qed.
Print Assumptions C13_missing_coordinates_rejected.

Theorem C13_missing_parameters_rejected : forall american kw k,
  has_keys kw param_keys -> sorts_or_none kw -> In (k, KNone) kw ->
  custom_profile american kw = Err ValueError.
Proof. exact params_none. Qed.
Print Assumptions C13_missing_parameters_rejected.

Theorem C13_other_keywords_rejected : forall american kw,
  NoDup (map fst kw) -> ~ has_keys kw coord_keys -> ~ has_keys kw param_keys ->
  custom_profile american kw = Err RuntimeError.
Proof. exact custom_other. Qed.
Print Assumptions C13_other_keywords_rejected.

Theorem C13_parameters_accepted_iff_consistent : forall american kw q, parameter_call kw q ->
  (consistent_params q -> exists p, custom_profile american kw = Ok (p, q)) /\
  (~ consistent_params q -> custom_profile american kw = Err ValueError).
Proof. exact accept_params. Qed.
Print Assumptions C13_parameters_accepted_iff_consistent.

(** Passing the consistency check does not imply success: the relative
    tolerance of the check exceeds the absolute one used for the edges. *)
Theorem C13_consistent_suffices_refuted : exists p kw, coordinate_call kw p /\ consistent p /\ uniform p /\
  forall american, custom_profile american kw = Err ValueError.
Proof.
  exists big, (keyed big). split; [exact (keyed_call big)|].
  split; [exact (proj1 (big_rejected (fun _ _ _ _ _ => Ok []) _ (keyed_call big)))|].
  split; [repeat split|]. intros american. exact (proj2 (big_rejected american _ (keyed_call big))).
Qed.
Print Assumptions C13_consistent_suffices_refuted.

Example C13_example : forall american, exists q, custom_profile american (keyed cfoil) = Ok (cfoil, q).
Proof.
  intros. apply C13_moderate_coordinates_constructed.
  - apply keyed_call. - repeat split. - discriminate. - apply cfoil_consistent.
  - simpl. rewrite Rabs_R0; lra. - simpl. rewrite Rabs_right; lra. - simpl. lra.
Qed.
Example C13_example_reject : forall american,
  custom_profile american (keyed (mkProfile [0; 1; 2] [0; 1; 2] [0; -1; 0] [0; 0; 0])) = Err ValueError.
Proof.
  intros. eapply C13_inconsistent_coordinates_rejected; [apply keyed_call|repeat split|discriminate|].
  intros (H & _). specialize (H 1%nat (-1) 0). simpl in H. assert (0 <= -1); [apply H; auto; lia|lra].
Qed.
Example C13_example_none : forall american, custom_profile american
  [("xup"%string, KNone); ("yup"%string, KArr [0]); ("xdown"%string, KArr [0]); ("ydown"%string, KNone)] = Err ValueError.
Proof.
  intros. apply C13_missing_coordinates_rejected with "xup"%string; simpl; auto.
  - split; [repeat constructor; simpl; intuition discriminate|]. simpl; tauto.
  - intros k v [E|[E|[E|[E|[]]]]]; injection E as <- <-; eauto.
Qed.
Example C13_example_other : forall american, custom_profile american [("xup"%string, KArr [0])] = Err RuntimeError.
Proof. intros. reflexivity. Qed.
Example C13_example_params : forall american, exists p, custom_profile american (keyed_params nparams) = Ok (p, nparams).
Proof. intros. apply (C13_parameters_accepted_iff_consistent american _ nparams (keyed_params_call nparams)). apply nparams_normalised. Qed.

(** ** C14 *)
Theorem C14_round_trip_iff : forall american p q,
  generate_parameters american "british" p = Ok q -> uniform p ->
  (coordinates_british q = Ok p <->
   xup p = xdown p /\ (In 0 (xup p) /\ forall x, In x (xup p) -> 0 <= x) /\ above (yup p) (ydown p) /\
   ((In 0 (mean (yup p) (ydown p)) /\ forall c, In c (mean (yup p) (ydown p)) -> c <= 0) ->
     forall c, In c (mean (yup p) (ydown p)) -> c = 0)).
Proof. exact round_trip_iff. Qed.
Print Assumptions C14_round_trip_iff.

Theorem C14_parameters_exist : forall american p le te,
  update_edges p = Ok (le, te) -> le <> te -> uniform p ->
  exists q, generate_parameters american "british" p = Ok q.
Proof. exact gp_ok. Qed.
Print Assumptions C14_parameters_exist.

Theorem C14_unconditional_round_trip_refuted : forall american, exists p q,
  generate_parameters american "british" p = Ok q /\ coordinates_british q <> Ok p.
Proof. intros american. exists hanging. exact (hanging_lost american). Qed.
Print Assumptions C14_unconditional_round_trip_refuted.

Example C14_example : forall american, exists q,
  generate_parameters american "british" cfoil = Ok q /\ coordinates_british q = Ok cfoil.
Proof. exact cfoil_round_trip. Qed.

(** ** C15 *)
Theorem C15_symmetric_about_camber : forall q p, coordinates_british q = Ok p ->
  xup p = xdown p /\ xup p = map (fun c => c * chord_length q) (chord_percentage q) /\
  List.length (yup p) = List.length (ydown p) /\
  (forall i u d, nth_error (yup p) i = Some u -> nth_error (ydown p) i = Some d ->
    exists c t, nth_error (camber_percentage q) i = Some c /\ nth_error (thickness_percentage q) i = Some t /\
      (u + d) / 2 = c * camber_max q /\ u - d = thickness_max q * t).
Proof. exact british_symmetric. Qed.
Print Assumptions C15_symmetric_about_camber.

Example C15_example : coordinates_british nparams =
  Ok (mkProfile [0; 1/2; 2] [0; 1/2; 2] [0; 1/5; 1/20] [0; 0; -(1/20)]).
Proof. unfold coordinates_british, nparams, vscale; simpl. apply f_equal, ProfileProofs.profile_eq; simpl; repeat (f_equal; try lra). Qed.

(** ** C16 *)
Theorem C16_orthogonal_to_camber : forall q o, consistent_params q -> orth_camber_coordinates q = Ok o ->
  (2 <= List.length (chord_percentage q))%nat /\
  List.length (xup o) = List.length (chord_percentage q) /\ List.length (xdown o) = List.length (chord_percentage q) /\
  List.length (yup o) = List.length (chord_percentage q) /\ List.length (ydown o) = List.length (chord_percentage q) /\
  (forall i, (i < List.length (chord_percentage q))%nat -> i <> 1%nat -> orthogonal_at q o i) /\
  ((orthogonal_at q o 1 /\ 0 <= fst (up_at o 1)) \/
   (nudged (up_at o 1) (up_at o 2) /\ nudged (down_at o 1) (down_at o 2))).
Proof. exact orth_camber_geometry. Qed.
Print Assumptions C16_orthogonal_to_camber.

(** The final American coordinates keep the abscissae of the orthogonal
    construction and the camber line at every station, whatever the
    interpolant of the lower surface. *)
Theorem C16_american_keeps_camber : forall curve q p o,
  orth_camber_coordinates q = Ok o -> coordinates_american curve q = Ok p ->
  xup p = xup o /\ xdown p = xdown o /\
  curve (xdown o) (ydown o) (map (fun c => c * chord_length q) (chord_percentage q)) = Ok (ydown p) /\
  mean (yup p) (ydown p) = map (fun c => c * camber_max q) (camber_percentage q).
Proof. exact american_midpoint. Qed.
Print Assumptions C16_american_keeps_camber.

Example C16_example : consistent_params nparams /\ exists o, orth_camber_coordinates nparams = Ok o.
Proof. split; [apply nparams_normalised|exact nparams_orth]. Qed.
Example C16_example_american : exists p, coordinates_american (fun _ _ t => Ok (map (fun _ => 0) t)) nparams = Ok p.
Proof.
  destruct nparams_orth as [o E]. unfold coordinates_american. rewrite E. simpl. eauto.
Qed.

(** ** C66 *)
Theorem C66_parameters_round_trip : forall american q, normalised q ->
  exists p, coordinates_british q = Ok p /\ generate_parameters american "british" p = Ok q.
Proof. exact params_round_trip. Qed.
Print Assumptions C66_parameters_round_trip.

Example C66_example : normalised nparams.
Proof. exact nparams_normalised. Qed.

(** ** C67 *)
Theorem C67_uncambered_constructions_agree : forall q o, consistent_params q -> camber_max q = 0 ->
  orth_camber_coordinates q = Ok o -> 0 <= nth 1 (chord_percentage q) 0 * chord_length q ->
  coordinates_british q = Ok o.
Proof. exact orth_uncambered. Qed.
Print Assumptions C67_uncambered_constructions_agree.

Example C67_example : exists o, orth_camber_coordinates (mkParams 2 [0; 1/2; 1] 0 [0; 1; 0] (1/5) [0; 1; 0]) = Ok o.
Proof.
  unfold orth_camber_coordinates, slopes; simpl. unfold fdiv.
  destruct (Req_EM_T (1/2 - 0) 0); [lra|]. simpl. destruct (Req_EM_T 2 0); [lra|]. simpl.
  destruct (Req_EM_T (1 - 1/2) 0); [lra|]. simpl. destruct (Rlt_dec _ 0); eauto.
Qed.
