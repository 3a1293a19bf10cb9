(** Proofs: existence of built blades, and where faces and coordinates part. *)
From Coq Require Import String Reals List ZArith Lra Lia Bool.
From Verif Require Import Base ProfileModel ProfileSpec ProfileProofs BladeModel BladeSpec BladeProofs BladeProofs2 BladeProofs3 BladeProofs4 BladeProofs5.
Import ListNotations.
Open Scope R_scope.

Lemma moved_length_down : forall f p q, uniform p -> moved f p q -> List.length (lower q) = List.length (upper q).
Proof.
  intros f p q (A & B & C) ((A' & B' & C') & _ & _). unfold upper, lower, pt. rewrite !combine_length. lia.
Qed.

Lemma make_faces_ok : forall surface up down b lu ld su sd, (forall g, exists f, surface g = Ok f) ->
  final up = Ok lu -> final down = Ok ld -> first up = Ok su -> first down = Ok sd ->
  List.length lu = List.length ld -> List.length su = List.length sd ->
  exists b', make_faces surface up down b = (b', Ok tt).
Proof.
  intros surface up down b lu ld su sd T E1 E2 E3 E4 L1 L2. unfold make_faces.
  destruct (T (grid_map (scale3 conversion_factor) up)) as (fu & ->).
  destruct (T (grid_map (scale3 conversion_factor) down)) as (fl & ->).
  unfold pair_grid, grid_map. rewrite !final_map, !first_map, E1, E2, E3, E4. cbn [bind].
  assert (K : forall a b : list pt3, List.length a = List.length b -> stackable [a; b] = true).
  { intros a c L. cbn. rewrite L, Nat.eqb_refl. reflexivity. }
  rewrite K by (rewrite !map_length; auto). rewrite K by (rewrite !map_length; auto). cbn [bind].
  destruct (T [map (scale3 conversion_factor) lu; map (scale3 conversion_factor) ld]) as (ft & ->).
  destruct (T [map (scale3 conversion_factor) su; map (scale3 conversion_factor) sd]) as (fr & ->). eauto.
Qed.

Lemma build_succeeds : forall surface refl st b m, (forall g, exists f, surface g = Ok f) ->
  consistent b -> sections b <> [] -> NoDup (sections b) ->
  Forall (fun r => r <> 0) (radii b) -> thickness b = None -> camber b = None ->
  (forall s, In s (sections b) -> uniform (st s) /\ List.length (xup (st s)) = m /\
     exists ref, reference_point (st s) = Ok ref) ->
  exists st' b', build surface refl st b = (st', b', Ok tt).
Proof.
  intros surface refl st b m TS C NE ND F T K U.
  destruct (apply_succeeds refl st b m C NE ND F T K U) as (st' & b1 & HA).
  destruct (apply_sections _ _ _ _ _ C HA) as (_ & _ & up & down & Hc & L1 & L2 & W).
  destruct (apply_places _ _ _ _ _ C ND F T K (fun s H => proj1 (U s H)) HA) as (P & _).
  assert (N : (0 < List.length (sections b))%nat) by (destruct (sections b); [contradiction|simpl; lia]).
  assert (LEN : forall i s r c Pi k sk, station b i s r c Pi k sk ->
     List.length (map (wrap r) (upper (st' s))) = List.length (map (wrap r) (lower (st' s)))).
  { intros i s r c Pi k sk S. destruct (P _ _ _ _ _ _ _ S) as (ref & _ & M). rewrite !map_length. symmetry.
    apply (moved_length_down _ _ _ (proj1 (U s (nth_error_In _ _ (st_section _ _ _ _ _ _ _ _ S)))) M). }
  destruct (consistent_station b 0 C N) as (s0 & r0 & c0 & P0 & k0 & sk0 & S0).
  destruct (consistent_station b (List.length (sections b) - 1) C ltac:(lia)) as (s1 & r1 & c1 & P1 & k1 & sk1 & S1).
  destruct (W _ _ _ _ _ _ _ S0) as (A & B). destruct (W _ _ _ _ _ _ _ S1) as (A' & B').
  rewrite Nat.sub_0_r in A, B. rewrite Nat.sub_diag in A', B'.
  destruct (make_faces_ok surface up down b1 (map (wrap r0) (upper (st' s0))) (map (wrap r0) (lower (st' s0)))
      (map (wrap r1) (upper (st' s1))) (map (wrap r1) (lower (st' s1))) TS) as (b' & HM).
  - rewrite final_nth, L1. unfold item. rewrite A. reflexivity.
  - rewrite final_nth, L2. unfold item. rewrite B. reflexivity.
  - rewrite first_nth. unfold item. rewrite A'. reflexivity.
  - rewrite first_nth. unfold item. rewrite B'. reflexivity.
  - eapply LEN; eauto.
  - eapply LEN; eauto.
  - exists st', b'. unfold build. rewrite HA, Hc, HM. reflexivity.
Qed.

(** The simplest builder: a face consists of the given points. *)
Definition point_surface (g : list (list pt3)) : res face := Ok (fun q => In q (concat g)).

Lemma point_surface_total : forall g, exists f, point_surface g = Ok f.
Proof. intros g. unfold point_surface. eauto. Qed.

Lemma in_concat_map : forall (T : pt3 -> pt3) g q, In q (concat (map (map T) g)) <-> exists p, In p (concat g) /\ q = T p.
Proof.
  intros T g q. rewrite <- concat_map. rewrite in_map_iff. split; intros (p & A & B); exists p; auto.
Qed.

Lemma point_surface_equivariant : equivariant point_surface.
Proof.
  intros k T g f _ _ H. unfold point_surface in *. injection H as <-. eexists. split; [reflexivity|].
  intros q. apply in_concat_map.
Qed.

(** ** A flat plate of chord 1 at radius 1 *)
Definition plate : profile := mkProfile [0; 1] [0; 1] [0; 0] [0; 0].
Definition plate_blade : blade := mkBlade [0%nat] [1] [1] [0] [0] [0] None None NoCoords None None None None.
Definition plate_store : store := fun _ => plate.

Lemma plate_facts : uniform plate /\ List.length (xup plate) = 2%nat /\ reference_point plate = Ok (1 / 2, 0).
Proof.
  split; [repeat split|]. split; [reflexivity|].
  rewrite (closed_reference plate (0, 0) (1, 0)); try reflexivity; [|repeat split].
  unfold pscale, padd; cbn [fst snd]. apply (f_equal Ok), f_equal2; lra.
Qed.

Lemma plate_built : exists st' b', build point_surface false plate_store plate_blade = (st', b', Ok tt).
Proof.
  apply (build_succeeds point_surface false plate_store plate_blade 2); try reflexivity.
  - apply point_surface_total.
  - repeat split.
  - discriminate.
  - constructor; [intros []|constructor].
  - constructor; [lra|constructor].
  - intros s _. destruct plate_facts as (A & B & C). split; auto. split; auto. eauto.
Qed.

Lemma plate_points : forall st' b', build point_surface false plate_store plate_blade = (st', b', Ok tt) ->
  exists y, coordinates b' = Built [[(0, - y, cos (1 / 2)); (0, y, cos (1 / 2))]] [[(0, - y, cos (1 / 2)); (0, y, cos (1 / 2))]] /\
    oface_eq (upper_face b') (Some (fun q => In q [scale3 1000 (0, - y, cos (1 / 2)); scale3 1000 (0, y, cos (1 / 2))])).
Proof.
  intros st' b' H. destruct (build_agrees _ _ _ _ _ _ H) as (FA & _ & _).
  apply build_inv in H as (b1 & up & down & HA & Hc & HM).
  assert (C : consistent plate_blade) by (repeat split).
  destruct (apply_sections _ _ _ _ _ C HA) as (_ & _ & up' & down' & Hc' & L1 & L2 & W).
  rewrite Hc in Hc'. injection Hc' as <- <-.
  destruct (apply_places _ _ _ _ _ C (NoDup_cons 0%nat (fun x : In 0%nat [] => match x with end) (NoDup_nil nat)) ltac:(constructor; [lra|constructor]) eq_refl eq_refl (fun s _ => proj1 plate_facts) HA) as (P & _).
  assert (S : station plate_blade 0 0 1 1 0 0 0) by (constructor; reflexivity).
  destruct (P _ _ _ _ _ _ _ S) as (ref & R & _ & M1 & M2). destruct plate_facts as (_ & _ & R0).
  change (plate_store 0%nat) with plate in *. rewrite R0 in R. injection R as <-.
  destruct (W _ _ _ _ _ _ _ S) as (A & B). rewrite M1 in A. rewrite M2 in B. cbn in L1, L2, A, B.
  destruct up as [|u [|]]; try discriminate. destruct down as [|d [|]]; try discriminate. cbn in A, B.
  assert (K1 : wrap 1 (seat 1 0 0 0 false (sized 1 (1 / 2, 0) (0, 0))) = (0, - sin (1 / 2), cos (1 / 2))).
  { assert (E : seat 1 0 0 0 false (sized 1 (1 / 2, 0) (0, 0)) = (0, - (1 / 2))).
    { unfold seat, sized, pscale, psub, padd, prot; cbn [fst snd]. replace (0 / (2 * PI * 1)) with 0 by (unfold Rdiv; ring).
      rewrite atan_0, Rminus_0_r, cos_PI2, sin_PI2. apply f_equal2; unfold Rdiv; ring. }
    rewrite E. unfold wrap; cbn [fst snd]. replace (- (1 / 2) / 1) with (- (1 / 2)) by field. rewrite sin_neg, cos_neg. apply pt3_eq; ring. }
  assert (K2 : wrap 1 (seat 1 0 0 0 false (sized 1 (1 / 2, 0) (1, 0))) = (0, sin (1 / 2), cos (1 / 2))).
  { assert (E : seat 1 0 0 0 false (sized 1 (1 / 2, 0) (1, 0)) = (0, 1 / 2)).
    { unfold seat, sized, pscale, psub, padd, prot; cbn [fst snd]. replace (0 / (2 * PI * 1)) with 0 by (unfold Rdiv; ring).
      rewrite atan_0, Rminus_0_r, cos_PI2, sin_PI2. apply f_equal2; field; pose proof PI_RGT_0; lra. }
    rewrite E. unfold wrap; cbn [fst snd]. replace (1 / 2 / 1) with (1 / 2) by field. apply pt3_eq; ring. }
  rewrite K1, K2 in A, B. injection A as ->. injection B as ->.
  assert (Hc2 : coordinates b' = coordinates b1).
  { apply make_faces_inv in HM as (fu & fl & ft & fr & lu & ld & su & sd & -> & _). reflexivity. }
  exists (sin (1 / 2)). split; [rewrite Hc2, Hc; reflexivity|].
  apply make_faces_inv in HM as (fu & fl & ft & fr & lu & ld & su & sd & -> & _ & _ & _ & _ & _ & _ & G & _).
  cbn [upper_face set_faces oface_eq]. unfold point_surface in G. injection G as <-. cbn. apply face_eq_refl.
Qed.

Lemma cos_half_pos : 0 < cos (1 / 2).
Proof. pose proof PI2_1. apply cos_gt_0; lra. Qed.

(** Rotation about y: faces turn the other way. *)
Lemma y_rotation_disagrees : exists st' b0 b',
  build point_surface false plate_store plate_blade = (st', b0, Ok tt) /\
  blade_rotate None (Some (PI / 2)) "y" b0 = (b', Ok tt) /\ ~ faces_agree point_surface b'.
Proof.
  destruct plate_built as (st' & b0 & HB). exists st', b0.
  destruct (build_agrees _ _ _ _ _ _ HB) as (_ & G & _).
  destruct (blade_rotate_ok (PI / 2) "y" b0 G ltac:(right; left; reflexivity)) as (b' & E & C & F & _ & _).
  exists b'. split; auto. split; auto.
  destruct (plate_points st' b0 HB) as (y & Hc & Hf).
  intros (up & down & fu & fl & ft & fr & lu & ld & su & sd & gu & gl & gt & gr & HC & U1 & _ & _ & _ & _ & _ & _ & _ & S1 & _ & _ & _ & Q1 & _).
  destruct C as (up' & down' & C0 & C1). rewrite Hc in C0. injection C0 as <- <-. rewrite HC in C1. injection C1 as -> _.
  destruct F as (F & _). rewrite U1 in F. destruct (upper_face b0) as [f0|]; [|contradiction]. cbn [option_map oface_eq] in F, Hf.
  unfold point_surface in S1. injection S1 as <-.
  assert (I : f0 (scale3 1000 (0, y, cos (1 / 2)))) by (apply Hf; right; left; reflexivity).
  assert (J : fu (turn "y" (- (PI / 2)) (scale3 1000 (0, y, cos (1 / 2))))) by (apply F; eexists; split; [exact I|reflexivity]).
  apply Q1 in J. pose proof cos_half_pos as CP.
  unfold turn, scale3 in J. cbn in J. rewrite cos_neg, sin_neg, cos_PI2, sin_PI2 in J.
  destruct J as [J|[J|[]]]; apply (f_equal (fun p => fst (fst p))) in J; cbn in J; lra.
Qed.

(** Mirror: the coordinates stay. *)
Lemma mirror_disagrees : exists st' b0 b',
  build point_surface false plate_store plate_blade = (st', b0, Ok tt) /\
  blade_mirror [[0; 0; 0]; [0; 0; 1]] [] b0 = (b', Ok tt) /\ ~ faces_agree point_surface b'.
Proof.
  destruct plate_built as (st' & b0 & HB). exists st', b0.
  destruct (build_agrees _ _ _ _ _ _ HB) as (_ & G & _).
  destruct (blade_mirror_normal (0, 0, 0) (0, 0, 1) b0 G) as (b' & E & F & C & _ & _).
  { intros Q. injection Q as Q. lra. }
  exists b'. split; auto. split; auto.
  destruct (plate_points st' b0 HB) as (y & Hc & Hf).
  intros (up & down & fu & fl & ft & fr & lu & ld & su & sd & gu & gl & gt & gr & HC & U1 & _ & _ & _ & _ & _ & _ & _ & S1 & _ & _ & _ & Q1 & _).
  rewrite C, Hc in HC. injection HC as <- <-.
  destruct F as (F & _). rewrite U1 in F. destruct (upper_face b0) as [f0|]; [|contradiction]. cbn [option_map oface_eq] in F, Hf.
  unfold point_surface in S1. injection S1 as <-.
  assert (I : f0 (scale3 1000 (0, y, cos (1 / 2)))) by (apply Hf; right; left; reflexivity).
  assert (J : fu (reflection (0, 0, 0) (0, 0, 1) (scale3 1000 (0, y, cos (1 / 2))))) by (apply F; eexists; split; [exact I|reflexivity]).
  apply Q1 in J. pose proof cos_half_pos as CP.
  unfold reflection, dot3, sub3, scale3 in J. cbn in J.
  destruct J as [J|[J|[]]]; apply (f_equal snd) in J; cbn in J; lra.
Qed.

(** ** A blade with two cambered sections, pitch, rake and skew *)
Definition foil3 : profile := mkProfile [0; 1 / 2; 1] [0; 1 / 2; 1] [0; 1 / 10; 0] [0; - (1 / 20); 0].
Definition two_blade : blade :=
  mkBlade [0%nat; 1%nat] [1; 2] [1 / 2; 1 / 4] [3; 4] [1 / 10; 1 / 5] [5; 10] None None NoCoords None None None None.
Definition foil_store : store := fun _ => foil3.

Lemma foil3_facts : uniform foil3 /\ List.length (xup foil3) = 3%nat /\ closed foil3 /\ reference_point foil3 = Ok (1 / 2, 0).
Proof.
  split; [repeat split|]. split; [reflexivity|]. split; [exists (0, 0), (1, 0); repeat split|].
  rewrite (closed_reference foil3 (0, 0) (1, 0)); try reflexivity; [|repeat split].
  unfold pscale, padd; cbn [fst snd]. apply (f_equal Ok), f_equal2; lra.
Qed.

Lemma two_blade_good : consistent two_blade /\ sections two_blade <> [] /\ NoDup (sections two_blade) /\
  Forall (fun r => r <> 0) (radii two_blade) /\ thickness two_blade = None /\ camber two_blade = None /\
  (forall s, In s (sections two_blade) -> uniform (foil_store s) /\ List.length (xup (foil_store s)) = 3%nat /\ closed (foil_store s)) /\
  station two_blade 1 1 2 (1 / 4) 4 (1 / 5) 10.
Proof.
  split; [repeat split|]. split; [discriminate|]. split.
  { constructor; [intros [H|[]]; discriminate|]. constructor; [intros []|constructor]. }
  split; [repeat constructor; lra|]. split; [reflexivity|]. split; [reflexivity|].
  split; [|constructor; reflexivity]. intros s _. destruct foil3_facts as (A & B & C & _). auto.
Qed.

Lemma two_blade_built : forall refl, exists st' b', build point_surface refl foil_store two_blade = (st', b', Ok tt).
Proof.
  intros refl. destruct two_blade_good as (C & NE & ND & F & T & K & U & _).
  apply (build_succeeds point_surface refl foil_store two_blade 3); auto using point_surface_total.
  intros s H. destruct (U s H) as (A & B & _). split; auto. split; auto. exists (1 / 2, 0). apply foil3_facts.
Qed.

Lemma two_blade_applied : forall refl, exists st' b', apply_transformations refl foil_store two_blade = (st', b', Ok tt).
Proof.
  intros refl. destruct (two_blade_built refl) as (st' & b' & H). apply build_inv in H as (b1 & _ & _ & H & _). eauto.
Qed.

Lemma two_blade_generated : exists b, generated b.
Proof.
  destruct (two_blade_built true) as (st' & b' & H). exists b'. apply (build_agrees _ _ _ _ _ _ H).
Qed.
