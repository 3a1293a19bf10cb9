(** Proofs: thickness and camber overrides, faces (C47, C49). *)
From Coq Require Import Reals List ZArith String Lra Lia Bool.
From Verif Require Import Base ProfileModel ProfileSpec ProfileProofs ProfileProofs2 ProfileProofs3 BladeModel BladeSpec BladeProofs BladeProofs2 BladeProofs3.
Import ListNotations.
Open Scope R_scope.

Lemma combine_map_both : forall (f g : R -> R) a b,
  combine (map f a) (map g b) = map (fun p => (f (fst p), g (snd p))) (combine a b).
Proof. intros f g a. induction a as [|x a IH]; intros [|y b]; cbn; try reflexivity. f_equal. apply IH. Qed.

Lemma moved_separable : forall f g p q, uniform p -> moved (fun a => (f (fst a), g (snd a))) p q ->
  xup q = map f (xup p) /\ xdown q = map f (xdown p) /\ yup q = map g (yup p) /\ ydown q = map g (ydown p).
Proof.
  intros f g p q U M.
  rewrite (moved_uniform_eq _ p q (mkProfile (map f (xup p)) (map f (xdown p)) (map g (yup p)) (map g (ydown p))) M).
  - repeat split.
  - split; [unfold uniform in *; cbn; rewrite !map_length; exact U|].
    unfold upper, lower; cbn. split; apply combine_map_both.
Qed.

Lemma sized_separable : forall c ref p q, uniform p -> moved (sized c ref) p q ->
  xup q = map (fun x => c * (x - fst ref)) (xup p) /\ xdown q = map (fun x => c * (x - fst ref)) (xdown p) /\
  yup q = map (fun y => c * (y - snd ref)) (yup p) /\ ydown q = map (fun y => c * (y - snd ref)) (ydown p).
Proof.
  intros c ref p q U M. apply moved_separable; auto.
Qed.

Lemma set_thickness_shape : forall t p q, set_thickness_max t p = Ok q ->
  exists old, max_thickness None p = Ok old /\ xup q = xup p /\ xdown q = xdown p /\
    yup q = vscale (if Req_EM_T old 0 then 0 else t / old) (yup p) /\
    ydown q = vscale (if Req_EM_T old 0 then 0 else t / old) (ydown p).
Proof.
  intros t p q H. unfold set_thickness_max in H. apply bind_ok in H as (old & O & H). injection H as <-.
  exists old. repeat split; auto.
Qed.

Lemma set_thickness_uniform : forall t p q, uniform p -> set_thickness_max t p = Ok q -> uniform q.
Proof.
  intros t p q (A & B & C) H. apply set_thickness_shape in H as (old & _ & E1 & E2 & E3 & E4).
  unfold uniform. rewrite E1, E2, E3, E4. unfold vscale. rewrite !map_length. auto.
Qed.

(** Thickness override. *)
Lemma apply_thickness : forall refl st b st' b' ts, consistent b -> NoDup (sections b) ->
  Forall (fun r => r <> 0) (radii b) -> thickness b = Some ts -> camber b = None ->
  (forall s, In s (sections b) -> uniform (st s)) ->
  apply_transformations refl st b = (st', b', Ok tt) ->
  forall i s r c P k sk, station b i s r c P k sk ->
    exists ref t p1 q old, reference_point (st s) = Ok ref /\ nth_error ts i = Some t /\
      moved (sized c ref) (st s) p1 /\ max_thickness None p1 = Ok old /\
      (old <> 0 -> max_thickness None q = Ok (Rabs t)) /\
      (old = 0 -> yup q = zeros (List.length (yup p1)) /\ ydown q = zeros (List.length (ydown p1))) /\
      xup q = xup p1 /\ xdown q = xdown p1 /\
      (exists m, yup q = vscale m (yup p1) /\ ydown q = vscale m (ydown p1)) /\
      moved (seat r P k sk refl) q (st' s).
Proof.
  intros refl st b st' b' ts C ND F T K U H i s r c P k sk S.
  apply apply_inv in H as (up & down & HT & _ & _).
  apply transform_nodup in HT as (A & _); [|apply seq_NoDup|intros; eapply (nodup_inj (sections b)); eauto].
  pose proof (st_section _ _ _ _ _ _ _ _ S) as Hs.
  assert (L : (i < List.length (sections b))%nat) by (apply nth_error_Some; rewrite Hs; discriminate).
  specialize (A i s ltac:(apply in_seq; lia) Hs).
  assert (Hr : r <> 0) by (rewrite Forall_forall in F; apply F; eapply nth_error_In, (st_radius _ _ _ _ _ _ _ _ S)).
  assert (Us : uniform (st s)) by (apply U; eapply nth_error_In; eauto).
  destruct (section_inv b refl i s r c P k sk _ _ S Hr Us A) as (ref & p1 & p2 & p3 & R & M1 & E2 & E3 & M).
  rewrite T in E2. rewrite K in E3. subst p3. destruct E2 as (t & Ht & E2).
  pose proof (set_thickness_uniform _ _ _ (proj1 M1) E2) as U2.
  destruct (set_thickness_shape _ _ _ E2) as (old & O & X1 & X2 & Y1 & Y2).
  exists ref, t, p1, p2, old. split; auto. split; auto. split; auto. split; auto.
  split; [|split; [|split; [auto|split; [auto|split; [eexists; split; eauto|auto]]]]].
  - intros N. destruct (set_thickness_ok t p1 old O N) as (q & E & Q & _). rewrite E2 in E. injection E as <-. exact Q.
  - intros ->. destruct (set_thickness_zero t p1 O) as (q & E & _ & _ & Q). rewrite E2 in E. injection E as <-. exact Q.
Qed.

(** Camber override. *)
Lemma level_first : forall p ref, level p -> reference_point p = Ok ref -> exists y0 yu yd,
  first (yup p) = Ok y0 /\ first (ydown p) = Ok y0 /\ final (yup p) = Ok yu /\ final (ydown p) = Ok yd /\
  (yu + yd) / 2 = y0 /\ snd ref = y0.
Proof.
  intros p ref (y0 & yu & yd & A & B & C & D & E) R. exists y0, yu, yd. repeat split; auto.
  apply reference_point_mid in R as (le & te & HE & ->). apply update_edges_iff in HE.
  destruct HE as (xu0 & xd0 & xun & xdn & yu0 & yun & ydn & H1 & H2 & H3 & H4 & H5 & H6 & H7 & _ & _ & HE).
  injection HE as -> ->. rewrite A in H5. rewrite C in H6. rewrite D in H7.
  injection H5 as <-. injection H6 as <-. injection H7 as <-.
  unfold pscale, padd; cbn [fst snd]. lra.
Qed.

Lemma sized_ref_position : forall c ref p q, uniform p -> level p -> reference_point p = Ok ref ->
  moved (sized c ref) p q -> ref_position q.
Proof.
  intros c ref p q U L R M.
  destruct (level_first p ref L R) as (y0 & yu & yd & A & B & C & D & E & Hr).
  destruct (sized_separable c ref p q U M) as (_ & _ & Y1 & Y2).
  unfold ref_position. rewrite Y1, Y2, !first_map, !final_map, A, B, C, D, Hr. cbn [bind].
  split; [f_equal; ring|]. split; [f_equal; ring|]. eexists _, _. split; [reflexivity|]. split; [reflexivity|].
  rewrite <- E. field.
Qed.

Lemma scaled_ref_position : forall m p q, yup q = vscale m (yup p) -> ydown q = vscale m (ydown p) ->
  ref_position p -> ref_position q.
Proof.
  intros m p q Y1 Y2 (A & B & yu & yd & C & D & E). unfold ref_position, vscale in *.
  rewrite Y1, Y2, !first_map, !final_map, A, B, C, D. cbn [bind].
  split; [f_equal; ring|]. split; [f_equal; ring|]. eexists _, _. split; [reflexivity|]. split; [reflexivity|].
  rewrite <- Rmult_plus_distr_r, E. ring.
Qed.

Lemma NoDup_map_inj : forall (f : R -> R) l, (forall x y, f x = f y -> x = y) -> NoDup l -> NoDup (map f l).
Proof.
  intros f l I. induction 1 as [|x l N ND IH]; cbn; constructor; auto.
  intros H. apply in_map_iff in H as (y & E & Hy). apply I in E. subst. contradiction.
Qed.

Lemma set_camber_max_nonzero : forall c p q, set_camber_line_max c p = Ok q ->
  exists old, max_camber (Some 500%Z) p = Ok old /\ old <> 0.
Proof.
  intros c p q H. unfold set_camber_line_max in H. apply bind_ok in H as (old & O & H). exists old. split; auto.
  apply bind_ok in H as (pc & HP & _). unfold fdiv in HP. destruct (Req_EM_T old 0); [discriminate|auto].
Qed.

Lemma set_camber_uniform : forall c p q, xup p = xdown p -> uniform p -> set_camber_line_max c p = Ok q -> uniform q.
Proof.
  intros c p q E U H. unfold set_camber_line_max in H. apply bind_ok in H as (old & O & H).
  apply bind_ok in H as (pc & HP & H).
  destruct (deform_common pc p U E) as (q' & E' & _ & _ & _ & _ & _ & Uq). rewrite H in E'. injection E' as <-. exact Uq.
Qed.

Lemma apply_camber : forall refl st b st' b' cs, consistent b -> NoDup (sections b) ->
  Forall (fun r => r <> 0) (radii b) -> camber b = Some cs ->
  (forall s, In s (sections b) -> uniform (st s)) ->
  apply_transformations refl st b = (st', b', Ok tt) ->
  forall i s r c P k sk, station b i s r c P k sk -> (S i < List.length (sections b))%nat ->
    c <> 0 -> xup (st s) = xdown (st s) -> NoDup (xup (st s)) -> level (st s) ->
    exists ref f q, reference_point (st s) = Ok ref /\ nth_error cs i = Some f /\
      max_camber (Some 500%Z) q = Ok f /\
      xup q = map (fun x => c * (x - fst ref)) (xup (st s)) /\ xdown q = xup q /\
      (thickness b = None -> gap (yup q) (ydown q) = vscale (Rabs c) (gap (yup (st s)) (ydown (st s)))) /\
      moved (seat r P k sk refl) q (st' s).
Proof.
  intros refl st b st' b' cs C ND F K U H i s r c P k sk S HI Hc EX NX LV.
  apply apply_inv in H as (up & down & HT & _ & _).
  apply transform_nodup in HT as (A & _); [|apply seq_NoDup|intros; eapply (nodup_inj (sections b)); eauto].
  pose proof (st_section _ _ _ _ _ _ _ _ S) as Hs.
  assert (L : (i < List.length (sections b))%nat) by lia.
  specialize (A i s ltac:(apply in_seq; lia) Hs).
  assert (Hr : r <> 0) by (rewrite Forall_forall in F; apply F; eapply nth_error_In, (st_radius _ _ _ _ _ _ _ _ S)).
  assert (Us : uniform (st s)) by (apply U; eapply nth_error_In; eauto).
  destruct (section_inv b refl i s r c P k sk _ _ S Hr Us A) as (ref & p1 & p2 & p3 & R & M1 & E2 & E3 & M).
  rewrite K in E3. destruct (Nat.ltb_spec i (List.length (sections b) - 1)) as [_|Q]; [|lia].
  destruct E3 as (f & Hf & E3).
  destruct (sized_separable c ref _ _ Us M1) as (X1 & X2 & Y1 & Y2).
  assert (P1 : ref_position p1) by (eapply sized_ref_position; eauto).
  assert (Q2 : xup p2 = xup p1 /\ xdown p2 = xdown p1 /\ uniform p2 /\ ref_position p2 /\ (thickness b = None -> p2 = p1)).
  { destruct (thickness b) as [ts|].
    - destruct E2 as (t & _ & E2). pose proof (set_thickness_uniform _ _ _ (proj1 M1) E2) as U2.
      destruct (set_thickness_shape _ _ _ E2) as (old & _ & W1 & W2 & W3 & W4).
      split; auto. split; auto. split; auto. split; [eapply scaled_ref_position; eauto|discriminate].
    - subst p2. split; auto. split; auto. split; [apply M1|]. auto. }
  destruct Q2 as (V1 & V2 & U2 & P2 & EQ).
  assert (EX2 : xup p2 = xdown p2) by (rewrite V1, V2, X1, X2, EX; reflexivity).
  assert (NX2 : NoDup (xup p2)).
  { rewrite V1, X1. apply NoDup_map_inj; auto. intros x y Q. apply Rmult_eq_reg_l in Q; lra. }
  destruct (set_camber_max_nonzero _ _ _ E3) as (old & O & N).
  destruct (set_camber_ok f p2 old EX2 U2 NX2 P2 O N) as (q & Eq & Q1 & Z1 & Z2 & Z3 & _).
  rewrite E3 in Eq. injection Eq as <-.
  exists ref, f, p3. split; auto. split; auto. split; auto.
  split; [rewrite Z1, V1, X1; reflexivity|]. split; [congruence|]. split.
  - intros T. rewrite Z3, (EQ T), Y1, Y2. clear. unfold gap, vscale.
    rewrite map_map2, map2_map_l, map2_map_r. apply map2_ext. intros x y.
    rewrite Rmult_comm, <- Rabs_mult. f_equal. ring.
  - apply M. exact (set_camber_uniform _ _ _ EX2 U2 E3).
Qed.

(** The last camber value. *)
Lemma steps_camber_irrelevant : forall b cs1 cs2 refl i,
  ((i < List.length (sections b) - 1)%nat -> nth_error cs1 i = nth_error cs2 i) ->
  section_steps (with_camber cs1 b) refl i = section_steps (with_camber cs2 b) refl i.
Proof.
  intros b cs1 cs2 refl i H. unfold section_steps. cbn [camber with_camber sections chords thickness radii skew rake].
  destruct (Nat.ltb_spec i (List.length (sections b) - 1)) as [L|L].
  - unfold item. rewrite (H L). reflexivity.
  - reflexivity.
Qed.

Lemma transform_camber_irrelevant : forall b cs1 cs2 refl is st,
  (forall i, (i < List.length (sections b) - 1)%nat -> nth_error cs1 i = nth_error cs2 i) ->
  transform_sections (with_camber cs1 b) refl is st = transform_sections (with_camber cs2 b) refl is st.
Proof.
  intros b cs1 cs2 refl is. induction is as [|i is IH]; intros st H; cbn [transform_sections]; [reflexivity|].
  cbn [sections with_camber]. destruct (nth_error (sections b) i); [|reflexivity].
  rewrite (steps_camber_irrelevant b cs1 cs2 refl i (H i)).
  destruct (run_steps _ _) as [p [[]|]]; auto.
Qed.

Lemma last_camber_ignored : forall b cs1 cs2 refl st st1 b1 o1 st2 b2 o2,
  (forall i, (S i < List.length (sections b))%nat -> nth_error cs1 i = nth_error cs2 i) ->
  apply_transformations refl st (with_camber cs1 b) = (st1, b1, o1) ->
  apply_transformations refl st (with_camber cs2 b) = (st2, b2, o2) ->
  st1 = st2 /\ o1 = o2 /\ coordinates b1 = coordinates b2.
Proof.
  intros b cs1 cs2 refl st st1 b1 o1 st2 b2 o2 H H1 H2. unfold apply_transformations in *.
  cbn [sections with_camber] in *.
  rewrite (transform_camber_irrelevant b cs1 cs2) in H1 by (intros i Hi; apply H; lia).
  destruct (transform_sections _ _ _ _) as [st' [[]|e]].
  - unfold planar_to_cylindrical in *.
    change (cylinder_coords st' (with_camber cs1 b)) with (cylinder_coords st' b) in H1.
    change (cylinder_coords st' (with_camber cs2 b)) with (cylinder_coords st' b) in H2.
    destruct (cylinder_coords st' b) as [[up down]|e]; injection H1 as <- <- <-; injection H2 as <- <- <-; auto.
  - injection H1 as <- <- <-; injection H2 as <- <- <-; auto.
Qed.

(** ** Faces *)
Lemma final_nth : forall {A} (l : list A), final l = item l (List.length l - 1).
Proof.
  intros A. induction l as [|x [|y l] IH]; [reflexivity|reflexivity|].
  change (final (x :: y :: l)) with (final (y :: l)). rewrite IH. unfold item. cbn [List.length].
  replace (S (S (List.length l)) - 1)%nat with (S (S (List.length l) - 1)) by lia. reflexivity.
Qed.
Lemma first_nth : forall {A} (l : list A), first l = item l 0.
Proof. intros A [|x l]; reflexivity. Qed.

Lemma grid_map_nth : forall f g i l, nth_error g i = Some l -> nth_error (grid_map f g) i = Some (map f l).
Proof. intros. apply (map_nth_error (map f)). auto. Qed.

Lemma make_faces_inv : forall surface up down b b', make_faces surface up down b = (b', Ok tt) ->
  exists fu fl ft fr lu ld su sd,
    b' = set_faces (Some fu) (Some fl) (Some ft) (Some fr) b /\
    final up = Ok lu /\ final down = Ok ld /\ first up = Ok su /\ first down = Ok sd /\
    List.length lu = List.length ld /\ List.length su = List.length sd /\
    surface (map (map (scale3 1000)) up) = Ok fu /\ surface (map (map (scale3 1000)) down) = Ok fl /\
    surface (map (map (scale3 1000)) [lu; ld]) = Ok ft /\ surface (map (map (scale3 1000)) [su; sd]) = Ok fr.
Proof.
  intros surface up down b b' H. unfold make_faces, grid_map, conversion_factor in H.
  destruct (surface (map (map (scale3 1000)) up)) as [fu|] eqn:E1; [|discriminate].
  destruct (surface (map (map (scale3 1000)) down)) as [fl|] eqn:E2; [|discriminate].
  destruct (bind (pair_grid (final _) _) _) as [ft|] eqn:E3; [|discriminate].
  destruct (bind (pair_grid (first _) _) _) as [fr|] eqn:E4; [|discriminate].
  injection H as <-.
  apply bind_ok in E3 as (g & G & E3). apply bind_ok in E4 as (g' & G' & E4).
  unfold pair_grid in G, G'. rewrite !final_map in G. rewrite !first_map in G'.
  destruct (final up) as [lu|]; [|discriminate]. destruct (final down) as [ld|]; [|discriminate].
  destruct (first up) as [su|]; [|discriminate]. destruct (first down) as [sd|]; [|discriminate].
  cbn [bind] in G, G'.
  destruct (stackable _) eqn:W in G; [|discriminate]. destruct (stackable _) eqn:W' in G'; [|discriminate].
  injection G as <-. injection G' as <-.
  exists fu, fl, ft, fr, lu, ld, su, sd. repeat split; auto.
  - apply stackable_inv in W as (_ & WW). specialize (WW (map (scale3 1000) lu) (map (scale3 1000) ld) (or_introl eq_refl) (or_intror (or_introl eq_refl))).
    rewrite !map_length in WW. exact WW.
  - apply stackable_inv in W' as (_ & WW). specialize (WW (map (scale3 1000) su) (map (scale3 1000) sd) (or_introl eq_refl) (or_intror (or_introl eq_refl))).
    rewrite !map_length in WW. exact WW.
Qed.

Lemma build_inv : forall surface refl st b st' b', build surface refl st b = (st', b', Ok tt) ->
  exists b1 up down, apply_transformations refl st b = (st', b1, Ok tt) /\
    coordinates b1 = Built up down /\ make_faces surface up down b1 = (b', Ok tt).
Proof.
  intros surface refl st b st' b' H. unfold build in H.
  destruct (apply_transformations refl st b) as [[s1 b1] [[]|e]]; [|discriminate].
  destruct (coordinates b1) as [| |up down] eqn:E; try discriminate.
  destruct (make_faces surface up down b1) as [b2 r] eqn:M. injection H as <- <- ->. exists b1, up, down. auto.
Qed.

(** Root and tip are exchanged. *)
Lemma build_root_tip : forall surface refl st b st' b', consistent b -> build surface refl st b = (st', b', Ok tt) ->
  exists s0 r0 c0 P0 k0 sk0 s1 r1 c1 P1 k1 sk1 ft fr,
    station b 0 s0 r0 c0 P0 k0 sk0 /\ station b (List.length (sections b) - 1) s1 r1 c1 P1 k1 sk1 /\
    tip_face b' = Some ft /\ root_face b' = Some fr /\
    surface [map (fun a => scale3 1000 (wrap r0 a)) (upper (st' s0)); map (fun a => scale3 1000 (wrap r0 a)) (lower (st' s0))] = Ok ft /\
    surface [map (fun a => scale3 1000 (wrap r1 a)) (upper (st' s1)); map (fun a => scale3 1000 (wrap r1 a)) (lower (st' s1))] = Ok fr.
Proof.
  intros surface refl st b st' b' C H. apply build_inv in H as (b1 & up & down & HA & Hc & HM).
  destruct (apply_sections _ _ _ _ _ C HA) as (_ & _ & up' & down' & Hc' & L1 & L2 & W).
  rewrite Hc in Hc'. injection Hc' as <- <-.
  destruct (apply_inv _ _ _ _ _ HA) as (u0 & d0 & _ & HC & _).
  apply cylinder_coords_inv in HC as (_ & _ & N & _); auto.
  destruct (consistent_station b 0 C N) as (s0 & r0 & c0 & P0 & k0 & sk0 & S0).
  destruct (consistent_station b (List.length (sections b) - 1) C ltac:(lia)) as (s1 & r1 & c1 & P1 & k1 & sk1 & S1).
  destruct (W _ _ _ _ _ _ _ S0) as (A & B). destruct (W _ _ _ _ _ _ _ S1) as (A' & B').
  rewrite Nat.sub_0_r in A, B. rewrite Nat.sub_diag in A', B'.
  apply make_faces_inv in HM as (fu & fl & ft & fr & lu & ld & su & sd & -> & E1 & E2 & E3 & E4 & _ & _ & _ & _ & T & R).
  rewrite final_nth in E1, E2. rewrite first_nth in E3, E4. rewrite L1 in E1. rewrite L2 in E2. unfold item in *.
  rewrite A in E1. rewrite B in E2. rewrite A' in E3. rewrite B' in E4.
  injection E1 as <-. injection E2 as <-. injection E3 as <-. injection E4 as <-.
  cbn [map] in T, R. rewrite !map_map in T, R.
  exists s0, r0, c0, P0, k0, sk0, s1, r1, c1, P1, k1, sk1, ft, fr. auto 10.
Qed.
