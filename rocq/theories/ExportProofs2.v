(** Proofs: where the marked position lies, and the curves under motions. *)
From Coq Require Import String Reals List ZArith Lra Lia Bool.
From Verif Require Import Base ProfileModel ProfileSpec ProfileProofs ProfileProofs2 BladeModel BladeSpec BladeProofs BladeProofs2 BladeProofs3 BladeProofs4 BladeProofs5 BladeProofs6 ExportModel ExportSpec ExportProofs.
Import ListNotations.
Open Scope R_scope.

(** ** Affine images *)
Lemma first_nearest_affine : forall a b xs t k, a <> 0 ->
  (first_nearest (map (fun x => a * x + b) xs) (a * t + b) k <-> first_nearest xs t k).
Proof.
  intros a b xs t k Ha.
  assert (D : forall x, Rabs (a * x + b - (a * t + b)) = Rabs a * Rabs (x - t)).
  { intros x. rewrite <- Rabs_mult. f_equal. ring. }
  assert (Pa : 0 < Rabs a) by (apply Rabs_pos_lt; auto).
  split; intros (x & N & M & S).
  - rewrite nth_error_map in N. destruct (nth_error xs k) as [x0|] eqn:E; [|discriminate]. injection N as <-.
    exists x0. split; auto. split.
    + intros j y Hj. specialize (M j (a * y + b)). rewrite nth_error_map, Hj in M. specialize (M eq_refl). rewrite !D in M.
      apply Rmult_le_reg_l in M; auto.
    + intros j y Lj Hj. specialize (S j (a * y + b) Lj). rewrite nth_error_map, Hj in S. specialize (S eq_refl). rewrite !D in S.
      apply Rmult_lt_reg_l in S; auto.
  - exists (a * x + b). rewrite nth_error_map, N. split; auto. split.
    + intros j y Hj. rewrite nth_error_map in Hj. destruct (nth_error xs j) as [y0|] eqn:E; [|discriminate]. injection Hj as <-.
      rewrite !D. apply Rmult_le_compat_l; [lra|]. eauto.
    + intros j y Lj Hj. rewrite nth_error_map in Hj. destruct (nth_error xs j) as [y0|] eqn:E; [|discriminate]. injection Hj as <-.
      rewrite !D. apply Rmult_lt_compat_l; [lra|]. eauto.
Qed.

Lemma extent_increasing : forall a b xs lo hi, 0 < a -> extent xs lo hi ->
  extent (map (fun x => a * x + b) xs) (a * lo + b) (a * hi + b).
Proof.
  intros a b xs lo hi Ha (I & J & K). split; [apply in_map_iff; eauto|]. split; [apply in_map_iff; eauto|].
  intros x Hx. apply in_map_iff in Hx as (y & <- & Hy). specialize (K y Hy). nra.
Qed.
Lemma extent_decreasing : forall a b xs lo hi, a < 0 -> extent xs lo hi ->
  extent (map (fun x => a * x + b) xs) (a * hi + b) (a * lo + b).
Proof.
  intros a b xs lo hi Ha (I & J & K). split; [apply in_map_iff; eauto|]. split; [apply in_map_iff; eauto|].
  intros x Hx. apply in_map_iff in Hx as (y & <- & Hy). specialize (K y Hy). nra.
Qed.
Lemma extent_exists : forall xs, xs <> [] -> exists lo hi, extent xs lo hi.
Proof.
  intros xs H. destruct (vmin xs) as [lo|] eqn:E1; [|destruct xs; [contradiction|discriminate]].
  destruct (vmax xs) as [hi|] eqn:E2; [|destruct xs; [contradiction|discriminate]].
  apply vmin_spec in E1 as (I1 & M1). apply vmax_spec in E2 as (I2 & M2). exists lo, hi. split; auto.
Qed.

Lemma marked_increasing : forall a b p q k, 0 < a -> xdown q = map (fun x => a * x + b) (xdown p) ->
  (marked q k <-> at_fraction (95 / 100) p k).
Proof.
  intros a b p q k Ha E. unfold marked, at_fraction. rewrite E. split.
  - intros (lo' & hi' & X & N). destruct (extent_exists (xdown p)) as (lo & hi & Y).
    { intros Q. rewrite Q in X. destruct X as ([] & _). }
    exists lo, hi. split; auto. destruct (extent_unique _ _ _ _ _ X (extent_increasing a b _ _ _ Ha Y)) as (-> & ->).
    apply (first_nearest_affine a b); [lra|]. replace (a * (lo + 95 / 100 * (hi - lo)) + b) with (a * lo + b + 95 / 100 * (a * hi + b - (a * lo + b))) by ring. auto.
  - intros (lo & hi & Y & N). exists (a * lo + b), (a * hi + b). split; [apply extent_increasing; auto|].
    replace (a * lo + b + 95 / 100 * (a * hi + b - (a * lo + b))) with (a * (lo + 95 / 100 * (hi - lo)) + b) by ring.
    apply first_nearest_affine; [lra|auto].
Qed.
Lemma marked_decreasing : forall a b p q k, a < 0 -> xdown q = map (fun x => a * x + b) (xdown p) ->
  (marked q k <-> at_fraction (5 / 100) p k).
Proof.
  intros a b p q k Ha E. unfold marked, at_fraction. rewrite E. split.
  - intros (lo' & hi' & X & N). destruct (extent_exists (xdown p)) as (lo & hi & Y).
    { intros Q. rewrite Q in X. destruct X as ([] & _). }
    exists lo, hi. split; auto. destruct (extent_unique _ _ _ _ _ X (extent_decreasing a b _ _ _ Ha Y)) as (-> & ->).
    apply (first_nearest_affine a b); [lra|]. replace (a * (lo + 5 / 100 * (hi - lo)) + b) with (a * hi + b + 95 / 100 * (a * lo + b - (a * hi + b))) by field. auto.
  - intros (lo & hi & Y & N). exists (a * hi + b), (a * lo + b). split; [apply extent_decreasing; auto|].
    replace (a * hi + b + 95 / 100 * (a * lo + b - (a * hi + b))) with (a * (lo + 5 / 100 * (hi - lo)) + b) by field.
    apply first_nearest_affine; [lra|auto].
Qed.

Lemma fst_combine : forall {A B} (a : list A) (b : list B), List.length a = List.length b -> map fst (combine a b) = a.
Proof. induction a as [|x a IH]; intros [|y b] H; simpl in *; try discriminate; auto. f_equal. apply IH. lia. Qed.

Lemma flat_lower : forall p, uniform p -> forall y0, (forall y, In y (ydown p) -> y = y0) ->
  lower p = map (fun x => (x, y0)) (xdown p).
Proof.
  intros p (_ & L & _) y0 H. unfold lower. revert L H. generalize (ydown p). induction (xdown p) as [|x xs IH]; intros [|y ys] L H; simpl in *; try discriminate; auto.
  f_equal; [rewrite (H y); auto|]. apply IH; auto.
Qed.

(** A section with a flat lower surface: the seated abscissae. *)
Lemma flat_seated : forall r P k sk refl c ref p q y0, uniform p -> (forall y, In y (ydown p) -> y = y0) ->
  moved (fun a => seat r P k sk refl (sized c ref a)) p q ->
  exists b, xdown q = map (fun x => (if refl then - 1 else 1) * sin (atan (P / (2 * PI * r))) * c * x + b) (xdown p).
Proof.
  intros r P k sk refl c ref p q y0 U F ((_ & L & _) & _ & M).
  assert (E : xdown q = map fst (lower q)) by (symmetry; apply fst_combine; auto).
  rewrite E, M, (flat_lower p U y0 F), !map_map. clear E M.
  set (t := atan (P / (2 * PI * r))).
  exists (fst (seat r P k sk refl (sized c ref (0, y0)))). apply map_ext. intros x.
  unfold seat, sized, prot, padd, pscale, psub, pneg. fold t. cbn [fst snd]. rewrite cos_shift, sin_shift.
  destruct refl; cbn [fst snd]; ring.
Qed.

Lemma sin_atan_pos : forall t, 0 < t -> 0 < sin (atan t).
Proof.
  intros t H. pose proof (atan_bound t). assert (0 < atan t) by (rewrite <- atan_0; apply atan_increasing; auto).
  apply sin_gt_0; lra.
Qed.

Lemma flat_marked : forall r P k sk refl c ref p q m, uniform p -> flat_below p ->
  0 < r -> 0 < P -> 0 < c -> moved (fun a => seat r P k sk refl (sized c ref a)) p q ->
  (marked q m <-> at_fraction (if refl then 5 / 100 else 95 / 100) p m).
Proof.
  intros r P k sk refl c ref p q m U (y0 & F) Hr HP Hc M.
  destruct (flat_seated _ _ _ _ _ _ _ _ _ _ U F M) as (b & E).
  assert (S : 0 < sin (atan (P / (2 * PI * r)))).
  { apply sin_atan_pos. apply Rdiv_lt_0_compat; auto. pose proof PI_RGT_0. nra. }
  assert (S2 : 0 < sin (atan (P / (2 * PI * r))) * c) by (apply Rmult_lt_0_compat; auto).
  destruct refl.
  - eapply marked_decreasing; [|exact E]. lra.
  - eapply marked_increasing; [|exact E]. lra.
Qed.

(** On a blade: with the point reflection the marked sample is the one at 5% of
    the chord, without at 95%. *)
Lemma blade_flat_marked : forall refl st b st' b', consistent b -> NoDup (sections b) ->
  Forall (fun r => 0 < r) (radii b) -> Forall (fun c => 0 < c) (chords b) -> Forall (fun P => 0 < P) (pitch b) ->
  thickness b = None -> camber b = None ->
  (forall s, In s (sections b) -> uniform (st s) /\ flat_below (st s)) ->
  apply_transformations refl st b = (st', b', Ok tt) ->
  forall s m, In s (sections b) -> (marked (st' s) m <-> at_fraction (if refl then 5 / 100 else 95 / 100) (st s) m).
Proof.
  intros refl st b st' b' C ND FR FC FP T K U HA s m Hs.
  destruct (apply_places refl st b st' b' C ND) as (A & _); auto.
  { eapply Forall_impl; [|exact FR]. intros; cbv beta in *; lra. }
  { intros; apply U; auto. }
  apply In_nth_error in Hs as (i & Hi).
  destruct (consistent_station b i C) as (s' & r & c & P & k & sk & S); [apply nth_error_Some; congruence|].
  pose proof (st_section _ _ _ _ _ _ _ _ S) as Q. assert (s' = s) by congruence. subst s'.
  destruct (A _ _ _ _ _ _ _ S) as (ref & _ & M). destruct (U s (nth_error_In _ _ Hi)) as (Us & Fs).
  rewrite Forall_forall in FR, FC, FP.
  eapply flat_marked; [exact Us|exact Fs| | | |exact M].
  - apply FR. eapply nth_error_In, (st_radius _ _ _ _ _ _ _ _ S).
  - apply FP. eapply nth_error_In, (st_pitch _ _ _ _ _ _ _ _ S).
  - apply FC. eapply nth_error_In, (st_chord _ _ _ _ _ _ _ _ S).
Qed.

(** ** Motions of the curve points *)
Lemma item_map : forall {A B} (f : A -> B) l i, item (map f l) i = let* x := item l i in Ok (f x).
Proof. intros A B f l i. unfold item. rewrite nth_error_map. destruct (nth_error l i); reflexivity. Qed.

Lemma mapM_post : forall {A B C} (f : A -> res B) (g : A -> res C) (h : B -> C) l,
  (forall x, g x = let* y := f x in Ok (h y)) -> mapM g l = let* r := mapM f l in Ok (map h r).
Proof.
  intros A B C f g h l H. induction l as [|x l IH]; [reflexivity|]. cbn [mapM]. rewrite H, IH.
  destruct (f x); cbn [bind]; [|reflexivity]. destruct (mapM f l); reflexivity.
Qed.

Lemma le_point_moved : forall T g i k, (forall x a, T (scale3 x a) = scale3 x (T a)) ->
  le_point (map (map T) g) i k = let* p := le_point g i k in Ok (T p).
Proof.
  intros T g i k L. unfold le_point. rewrite item_map. destruct (item g i); cbn [bind]; [|reflexivity].
  rewrite item_map. destruct (item a k); cbn [bind]; [|reflexivity]. rewrite L. reflexivity.
Qed.

Lemma le_points_moved : forall st b b' T up down, (forall x a, T (scale3 x a) = scale3 x (T a)) ->
  sections b' = sections b -> coordinates b = Built up down -> coordinates b' = Built (map (map T) up) (map (map T) down) ->
  le_points st b' = let* ps := le_points st b in Ok (map (fun q => (T (fst q), T (snd q))) ps).
Proof.
  intros st b b' T up down L S C C'. unfold le_points. rewrite C, C', S. apply mapM_post. intros i.
  destruct (item (sections b) i); cbn [bind]; [|reflexivity]. destruct (le_index (st a)); cbn [bind]; [|reflexivity].
  rewrite !le_point_moved by auto. destruct (le_point up i a0); cbn [bind]; [|reflexivity].
  destruct (le_point down i a0); reflexivity.
Qed.

Lemma do_motion_sections : forall m b, generated b -> agreeing m -> sections (fst (do_motion m b)) = sections b.
Proof.
  intros [ax a|ax d|k] b G HM; cbn [do_motion agreeing] in *.
  - destruct (blade_rotate_ok a ax b G) as (b' & E & _ & _ & S & _); [unfold is_axis; tauto|]. rewrite E. symmetry. apply S.
  - rewrite blade_rotate_deg. destruct (blade_rotate_ok (d * (PI / 180)) ax b G) as (b' & E & _ & _ & S & _); [unfold is_axis; tauto|]. rewrite E. symmetry. apply S.
  - destruct (blade_scale_ok k b G HM) as (b' & E & _ & _ & S & _). rewrite E. symmetry. apply S.
Qed.
Lemma do_motions_sections : forall ms b, generated b -> Forall agreeing ms -> sections (fst (do_motions ms b)) = sections b.
Proof.
  induction ms as [|m ms IH]; intros b G H; [reflexivity|]. inversion H as [|? ? H1 H2]; subst. cbn [do_motions].
  destruct (do_motion_ok m b G H1) as (b1 & T1 & E1 & _ & _ & _ & G1). pose proof (do_motion_sections m b G H1) as Q.
  rewrite E1 in *. cbn [fst] in Q. rewrite <- Q. apply IH; auto.
Qed.

Lemma motions_le_points : forall st b ms b' ps, generated b -> Forall agreeing ms -> do_motions ms b = (b', Ok tt) ->
  le_points st b = Ok ps ->
  exists T, similarity (ratios ms) T /\ faces_moved T b b' /\
    le_points st b' = Ok (map (fun q => (T (fst q), T (snd q))) ps).
Proof.
  intros st b ms b' ps G F E H. destruct (do_motions_ok ms b G F) as (b1 & T & E1 & S & (up & down & C & C1) & FM & _).
  pose proof (do_motions_sections ms b G F) as Q.
  rewrite E in *. injection E1 as <-. cbn [fst] in Q. exists T. split; auto. split; auto.
  rewrite (le_points_moved st b b' T up down); auto; [|apply S]. rewrite H. reflexivity.
Qed.

(** The points lie on the faces as long as faces and coordinates agree. *)
Lemma le_points_on_faces : forall surface st b ps u l, interpolating surface -> faces_agree surface b ->
  le_points st b = Ok ps -> In (u, l) ps ->
  exists fu fl, upper_face b = Some fu /\ lower_face b = Some fl /\ fu u /\ fl l.
Proof.
  intros surface st b ps u l I
    (up & down & fu & fl & ft & fr & lu & ld & su & sd & gu & gl & gt & gr &
     HC & U1 & U2 & _ & _ & _ & _ & _ & _ & S1 & S2 & _ & _ & Q1 & Q2 & _ & _) H HI.
  exists fu, fl. split; auto. split; auto.
  destruct (le_points_inv _ _ _ _ _ HC H) as (L & N).
  apply In_nth_error in HI as (i & Hi).
  destruct (nth_error (sections b) i) as [s|] eqn:Es.
  - destruct (N i s Es) as (k & ru & rd & pu & pd & _ & A1 & A2 & A3 & A4 & A5).
    rewrite Hi in A5. injection A5 as -> ->. split.
    + apply Q1. eapply (I _ _ (map (scale3 1000) ru) _ S1); apply in_map; eapply nth_error_In; eauto.
    + apply Q2. eapply (I _ _ (map (scale3 1000) rd) _ S2); apply in_map; eapply nth_error_In; eauto.
  - apply nth_error_None in Es. assert (i < List.length ps)%nat by (apply nth_error_Some; congruence). lia.
Qed.

Lemma built_le_points_on_faces : forall surface refl st b st' b0 ms b' ps u l, interpolating surface -> equivariant surface ->
  build surface refl st b = (st', b0, Ok tt) -> Forall agreeing ms -> do_motions ms b0 = (b', Ok tt) ->
  le_points st' b' = Ok ps -> In (u, l) ps ->
  exists fu fl, upper_face b' = Some fu /\ lower_face b' = Some fl /\ fu u /\ fl l.
Proof.
  intros surface refl st b st' b0 ms b' ps u l I EQ HB F E H HI.
  destruct (build_motions surface refl st b st' b0 ms EQ HB F) as (b1 & E1 & A). rewrite E in E1. injection E1 as <-.
  eapply le_points_on_faces; eauto.
Qed.

Lemma point_surface_interpolating : interpolating point_surface.
Proof. intros g f row a H Hr Ha. injection H as <-. apply in_concat. eauto. Qed.

(** After mirror the points are where they were, the faces are not. *)
Lemma mirror_le_points : forall st o v b b', generated b -> v <> zero3 -> blade_mirror [as_list o; as_list v] [] b = (b', Ok tt) ->
  le_points st b' = le_points st b.
Proof.
  intros st o v b b' G N E. destruct (blade_mirror_normal o v b G N) as (b1 & E1 & _ & C & S & _).
  rewrite E in E1. injection E1 as <-. unfold le_points. rewrite C. destruct S as (S & _). rewrite S. reflexivity.
Qed.

Lemma le_points_plate : forall st' b', build point_surface false plate_store plate_blade = (st', b', Ok tt) ->
  exists ps, le_points st' b' = Ok ps.
Proof.
  intros st' b' H. destruct (plate_points st' b' H) as (y & Hc & _).
  destruct (build_agrees _ _ _ _ _ _ H) as (_ & _ & SP & _).
  apply build_inv in H as (b1 & up & down & HA & _ & _).
  assert (C : consistent plate_blade) by (repeat split).
  destruct (apply_places _ _ _ _ _ C (NoDup_cons 0%nat (fun x : In 0%nat [] => match x with end) (NoDup_nil nat)) ltac:(constructor; [lra|constructor]) eq_refl eq_refl (fun s _ => proj1 plate_facts) HA) as (P & _).
  assert (S : station plate_blade 0 0 1 1 0 0 0) by (constructor; reflexivity).
  destruct (P _ _ _ _ _ _ _ S) as (ref & _ & M).
  apply (le_points_total st' b' _ _ 2 Hc); try lia; try (rewrite <- SP; reflexivity).
  - rewrite <- SP. intros s [<-|[]]. pose proof (moved_length _ _ _ (proj1 plate_facts) M) as Q. destruct M as ((_ & Q1 & Q2) & _).
    rewrite <- Q2, Q. reflexivity.
  - intros row [<-|[<-|[]]]; reflexivity.
Qed.

Lemma mirrored_curve_off_the_face : exists st' b0 b' ps u l fu, build point_surface false plate_store plate_blade = (st', b0, Ok tt) /\
  blade_mirror [[0; 0; 0]; [0; 0; 1]] [] b0 = (b', Ok tt) /\ le_points st' b' = Ok ps /\ In (u, l) ps /\
  upper_face b' = Some fu /\ ~ fu u.
Proof.
  destruct plate_built as (st' & b0 & HB).
  destruct (build_agrees _ _ _ _ _ _ HB) as (_ & G & SP & _).
  destruct (blade_mirror_normal (0, 0, 0) (0, 0, 1) b0 G) as (b' & E & F & C & _ & _).
  { intros Q. injection Q as Q. lra. }
  destruct (le_points_plate st' b0 HB) as (ps & Hps).
  destruct (plate_points st' b0 HB) as (y & Hc & Hf).
  destruct (le_points_inv _ _ _ _ _ Hc Hps) as (L & N).
  destruct (N 0%nat 0%nat) as (k & ru & rd & pu & pd & _ & A1 & A2 & A3 & A4 & A5); [rewrite <- SP; reflexivity|].
  injection A1 as <-. injection A2 as <-.
  destruct F as (F & _). destruct (upper_face b0) as [f0|]; [|contradiction]. destruct (upper_face b') as [fu|] eqn:U1; [|contradiction].
  cbn [option_map oface_eq] in F, Hf.
  exists st', b0, b', ps, (scale3 1000 pu), (scale3 1000 pd), fu. split; auto. split; auto.
  split; [rewrite (mirror_le_points st' (0, 0, 0) (0, 0, 1) b0 b' G); auto; intros Q; injection Q as Q; lra|].
  split; [eapply nth_error_In; eauto|]. split; [exact U1|].
  intros J. apply F in J as (x & Hx & Ex). apply Hf in Hx. pose proof cos_half_pos as CP.
  assert (Z : snd pu = cos (1 / 2)).
  { destruct k as [|[|[|k]]]; cbn in A3; try discriminate; injection A3 as <-; reflexivity. }
  destruct pu as [[p1 p2] p3]. cbn in Z. subst p3.
  destruct Hx as [<-|[<-|[]]]; unfold reflection, dot3, sub3, scale3 in Ex; cbn in Ex; apply (f_equal snd) in Ex; cbn in Ex; lra.
Qed.

(** ** The index of one section used on another *)
Definition front : profile := mkProfile [0; 1 / 3; 2 / 3; 1] [0; 1 / 3; 2 / 3; 1] [0; 1 / 5; 1 / 5; 0] [0; 1 / 10; 0; 0].
Definition back : profile := mkProfile [0; 1 / 3; 2 / 3; 1] [0; 1 / 3; 2 / 3; 1] [0; 1 / 5; 1 / 5; 0] [0; 0; 1 / 10; 0].
Definition mixed_store : store := fun s => match s with 0%nat => front | _ => back end.
Definition mixed_blade : blade :=
  mkBlade [0%nat; 1%nat] [1; 2] [1; 1] [0; 0] [0; 0] [0; 0] None None NoCoords None None None None.

Lemma mixed_facts : consistent mixed_blade /\ sections mixed_blade <> [] /\ NoDup (sections mixed_blade) /\
  Forall (fun r => r <> 0) (radii mixed_blade) /\
  (forall s, In s (sections mixed_blade) -> uniform (mixed_store s) /\ List.length (xup (mixed_store s)) = 4%nat /\
     reference_point (mixed_store s) = Ok (1 / 2, 0)) /\
  station mixed_blade 0 0 1 1 0 0 0 /\ station mixed_blade 1 1 2 1 0 0 0.
Proof.
  split; [repeat split|]. split; [discriminate|]. split.
  { constructor; [intros [H|[]]; discriminate|]. constructor; [intros []|constructor]. }
  split; [repeat constructor; lra|]. split; [|split; constructor; reflexivity].
  intros s Hs. assert (K : forall q, uniform q -> closed q -> first (upper q) = Ok (0, 0) -> final (upper q) = Ok (1, 0) ->
     reference_point q = Ok (1 / 2, 0)).
  { intros q U (le & te & A & B & C & D) A' C'. rewrite A in A'. rewrite C in C'. injection A' as ->. injection C' as ->.
    rewrite (closed_reference q (0, 0) (1, 0)); auto. unfold pscale, padd; cbn [fst snd]. apply (f_equal Ok), f_equal2; lra. }
  destruct Hs as [<-|[<-|[]]]; (split; [repeat split|]; split; [reflexivity|]);
    (apply K; [repeat split|exists (0, 0), (1, 0); repeat split| |]); reflexivity.
Qed.

(** At pitch zero the seated abscissa is the ordinate. *)
Lemma seat_flat : forall r a, r <> 0 -> fst (seat r 0 0 0 true (sized 1 (1 / 2, 0) a)) = snd a.
Proof.
  intros r a Hr. unfold seat, sized, prot, padd, pscale, psub, pneg; cbn [fst snd].
  replace (0 / (2 * PI * r)) with 0 by (unfold Rdiv; ring). rewrite atan_0, Rminus_0_r, cos_PI2, sin_PI2. field. apply PI_neq0.
Qed.

Lemma lower_xdown : forall q, uniform q -> xdown q = map fst (lower q).
Proof. intros q (_ & L & _). symmetry. apply fst_combine; auto. Qed.

Lemma mixed_xdown : forall st' b', apply_transformations true mixed_store mixed_blade = (st', b', Ok tt) ->
  xdown (st' 0%nat) = [0; 1 / 10; 0; 0] /\ xdown (st' 1%nat) = [0; 0; 1 / 10; 0].
Proof.
  intros st' b' HA. destruct mixed_facts as (C & _ & ND & F & U & S0 & S1).
  destruct (apply_places true mixed_store mixed_blade st' b' C ND F eq_refl eq_refl) as (P & _); auto.
  { intros s Hs. apply U; auto. }
  destruct (P _ _ _ _ _ _ _ S0) as (ref & R & Q & _ & M). destruct (U 0%nat) as (_ & _ & R'); [left; auto|]. rewrite R' in R. injection R as <-.
  destruct (P _ _ _ _ _ _ _ S1) as (ref & R & Q1 & _ & M1). destruct (U 1%nat) as (_ & _ & R''); [right; left; auto|]. rewrite R'' in R. injection R as <-.
  rewrite (lower_xdown _ Q), (lower_xdown _ Q1), M, M1, !map_map.
  split; erewrite map_ext by (intros a; apply seat_flat; lra); reflexivity.
Qed.

Ltac each_entry :=
  let j := fresh "j" in let y := fresh "y" in let H := fresh "H" in
  intros j y H; destruct j as [|[|[|[|j]]]]; cbn in H; try discriminate; try (destruct j; discriminate); injection H as <-;
  unfold Rabs; repeat destruct Rcase_abs; lra.
Lemma marked_front : forall p, xdown p = [0; 1 / 10; 0; 0] -> marked p 1.
Proof.
  intros p E. exists 0, (1 / 10). rewrite E. split.
  { split; [left; auto|]. split; [right; left; auto|]. intros x [<-|[<-|[<-|[<-|[]]]]]; lra. }
  exists (1 / 10). split; [reflexivity|]. split; [each_entry|]. intros j y Lj. revert j y Lj.
  intros [|j] y Lj H; [|lia]. injection H as <-. unfold Rabs; repeat destruct Rcase_abs; lra.
Qed.
Lemma marked_back : forall p, xdown p = [0; 0; 1 / 10; 0] -> marked p 2.
Proof.
  intros p E. exists 0, (1 / 10). rewrite E. split.
  { split; [left; auto|]. split; [right; right; left; auto|]. intros x [<-|[<-|[<-|[<-|[]]]]]; lra. }
  exists (1 / 10). split; [reflexivity|]. split; [each_entry|].
  intros [|[|j]] y Lj H; [| |lia]; injection H as <-; unfold Rabs; repeat destruct Rcase_abs; lra.
Qed.

Lemma wrong_section : exists st' b' ps m al u l,
  apply_transformations true mixed_store mixed_blade = (st', b', Ok tt) /\ le_points st' b' = Ok ps /\
  station mixed_blade 0 0 1 1 0 0 0 /\ marked (st' 0%nat) m /\ nth_error (lower (st' 0%nat)) m = Some al /\
  nth_error ps (List.length (sections mixed_blade) - 1 - 0) = Some (u, l) /\ l <> scale3 1000 (wrap 1 al).
Proof.
  pose proof mixed_facts as (C & NE & ND & F & U & S0 & S1).
  destruct (apply_succeeds true mixed_store mixed_blade 4 C NE ND F eq_refl eq_refl) as (st' & b' & HA).
  { intros s Hs. destruct (U s Hs) as (A & B & D). eauto. }
  destruct (mixed_xdown st' b' HA) as (X0 & X1).
  destruct (apply_places true mixed_store mixed_blade st' b' C ND F eq_refl eq_refl) as (P & _); auto.
  { intros s Hs. apply U; auto. }
  destruct (apply_sections _ _ _ _ _ C HA) as ((SP & _) & _ & up & down & Hc & L1 & L2 & W).
  destruct (P _ _ _ _ _ _ _ S0) as (ref0 & _ & (U0 & U0' & U0'') & _). destruct (P _ _ _ _ _ _ _ S1) as (ref1 & _ & (U1 & U1' & U1'') & _).
  assert (LL : List.length (xdown (st' 0%nat)) = 4%nat /\ List.length (xdown (st' 1%nat)) = 4%nat) by (rewrite X0, X1; auto).
  destruct (le_points_total st' b' up down 4 Hc) as (ps & Hps); try lia; try (rewrite <- SP; auto).
  { intros s [<-|[<-|[]]]; apply LL. }
  { destruct (W _ _ _ _ _ _ _ S0) as (A & B). destruct (W _ _ _ _ _ _ _ S1) as (A' & B'). cbn in A, B, A', B', L1, L2.
    destruct up as [|u0 [|u1 []]]; try discriminate. destruct down as [|d0 [|d1 []]]; try discriminate.
    cbn in A, B, A', B'. injection A as ->. injection B as ->. injection A' as ->. injection B' as ->.
    intros row [<-|[<-|[<-|[<-|[]]]]]; rewrite map_length; unfold upper, lower, pt; rewrite combine_length; lia. }
  destruct (curve_points _ _ _ _ _ _ C HA Hps) as (_ & K).
  destruct (K 0%nat 0%nat 1 1 0 0 0 1%nat S0 eq_refl) as (m & au & al & M & N1 & N2 & E).
  assert (m = 2%nat) by (eapply marked_unique; [exact M|apply marked_back, X1]). subst m.
  assert (LO : forall j a, nth_error (lower (st' 0%nat)) j = Some a -> nth_error (xdown (st' 0%nat)) j = Some (fst a)).
  { intros j a Hj. rewrite (lower_xdown (st' 0%nat)) by (repeat split; auto). apply (map_nth_error fst) in Hj. exact Hj. }
  destruct (nth_error (lower (st' 0%nat)) 1) as [al1|] eqn:N3.
  2:{ apply nth_error_None in N3. unfold lower, pt in N3. rewrite combine_length in N3. lia. }
  exists st', b', ps, 1%nat, al1, (scale3 1000 (wrap 1 au)), (scale3 1000 (wrap 1 al)).
  split; auto. split; auto. split; auto. split; [apply marked_front, X0|]. split; auto. split; auto.
  apply LO in N2, N3. rewrite X0 in N2, N3. injection N2 as N2. injection N3 as N3.
  unfold wrap. rewrite <- N2, <- N3. intros Q. apply (f_equal (fun t => fst (fst t))) in Q. cbn in Q. lra.
Qed.

(** ** Not the leading edge *)
Definition slab : profile := mkProfile [0; 1 / 20; 19 / 20; 1] [0; 1 / 20; 19 / 20; 1] [0; 1 / 10; 1 / 10; 0] [0; 0; 0; 0].
Definition slab_store : store := fun _ => slab.
Lemma slab_facts : uniform slab /\ List.length (xup slab) = 4%nat /\ reference_point slab = Ok (1 / 2, 0) /\ flat_below slab.
Proof.
  split; [repeat split|]. split; [reflexivity|]. split.
  - rewrite (closed_reference slab (0, 0) (1, 0)); try reflexivity; [|repeat split].
    unfold pscale, padd; cbn [fst snd]. apply (f_equal Ok), f_equal2; lra.
  - exists 0. intros y [<-|[<-|[<-|[<-|[]]]]]; auto.
Qed.
Lemma slab_fraction : at_fraction (5 / 100) slab 1 /\ at_fraction (95 / 100) slab 2.
Proof.
  assert (X : extent (xdown slab) 0 1).
  { split; [left; auto|]. split; [right; right; right; left; auto|]. intros x [<-|[<-|[<-|[<-|[]]]]]; lra. }
  split; exists 0, 1; (split; [exact X|]).
  - exists (1 / 20). split; [reflexivity|]. split; [each_entry|].
    intros [|j] y Lj H; [|lia]. injection H as <-. unfold Rabs; repeat destruct Rcase_abs; lra.
  - exists (19 / 20). split; [reflexivity|]. split; [each_entry|].
    intros [|[|j]] y Lj H; [| |lia]; injection H as <-; unfold Rabs; repeat destruct Rcase_abs; lra.
Qed.
Lemma slab_applied : forall refl, exists st' b', apply_transformations refl slab_store two_blade = (st', b', Ok tt).
Proof.
  intros refl. destruct two_blade_good as (C & NE & ND & F & T & K & _). destruct slab_facts as (A & B & D & _).
  apply (apply_succeeds refl slab_store two_blade 4); auto. intros s _. eauto.
Qed.
Lemma slab_marked : forall refl st' b' s, apply_transformations refl slab_store two_blade = (st', b', Ok tt) -> In s (sections two_blade) ->
  marked (st' s) (if refl then 1 else 2).
Proof.
  intros refl st' b' s HA Hs. destruct two_blade_good as (C & NE & ND & F & T & K & _).
  apply (blade_flat_marked refl slab_store two_blade st' b'); auto; try (repeat constructor; lra).
  - intros s' _. split; apply slab_facts.
  - destruct refl; apply slab_fraction.
Qed.
Lemma not_the_leading_edge : exists st' b' s m, apply_transformations false slab_store two_blade = (st', b', Ok tt) /\
  In s (sections two_blade) /\ marked (st' s) m /\ ~ at_fraction (5 / 100) slab m /\ at_fraction (95 / 100) slab m.
Proof.
  destruct (slab_applied false) as (st' & b' & HA). exists st', b', 0%nat, 2%nat. split; auto. split; [left; auto|].
  split; [apply (slab_marked false st' b' 0 HA); left; auto|]. split; [|apply slab_fraction].
  intros (lo & hi & X & N). destruct slab_fraction as ((lo' & hi' & X' & N') & _).
  destruct (extent_unique _ _ _ _ _ X X') as (-> & ->). pose proof (first_nearest_unique _ _ _ _ N N'). discriminate.
Qed.
