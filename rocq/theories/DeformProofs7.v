(** Data that are no more than the control points: the curve goes through them. *)
From Coq Require Import String Reals List ZArith Ascii Lra Lia.
From Verif Require Import Base ProfileProofs SolveProofs RbfModel BsplineModel BsplineSpec BsplineProofs BsplineProofs2 BsplineProofs3 BsplineProofs4 TextModel ParamsModel ParamsSpec ParamsProofs2 ParamsProofs3
  LstsqProofs DeformModel DeformSpec DeformProofs DeformProofs2 DeformProofs3 DeformProofs4 DeformProofs5 DeformProofs6.
Import ListNotations.
Open Scope R_scope.

Lemma last_repeat : forall (a : R) n, (0 < n)%nat -> last (repeat a n) 0 = a.
Proof. intros a n H. induction n; [lia|]. destruct n; [reflexivity|]. apply IHn. lia. Qed.

(** An optimal fit to few data has no error. *)
Lemma fit_through : forall g data c, best_fit g data c -> data <> [] -> fits (List.length c) (Z.of_nat (List.length data)) g ->
  (List.length data <= List.length c)%nat -> bspline1 c (Z.of_nat (List.length data)) g = Ok data.
Proof.
  intros g data c (s & S & B) ND F L. pose proof (bspline1_ends _ _ _ _ S) as (LS & _). rewrite Nat2Z.id in LS.
  assert (X : exists v, List.length v = List.length c /\ nth 0 v 0 = nth 0 data 0 /\ last v 0 = last data 0 /\ bspline1 v (Z.of_nat (List.length data)) g = Ok data).
  { destruct data as [|a [|b data]]; [congruence| |].
    - exists (repeat a (List.length c)). pose proof F as (_ & _ & F3). destruct (List.length c) as [|l] eqn:LC; [lia|]. rewrite repeat_length. split; auto. split; auto. split; [rewrite last_repeat by lia; auto|].
      apply bspline1_value; rewrite ?repeat_length; auto. intros i I. cbn in I. assert (i = 0%nat) as -> by lia. rewrite sample_0, spline_start by (rewrite repeat_length; auto). reflexivity.
    - destruct (bspline1_surjective (List.length c) (Z.of_nat (List.length (a :: b :: data))) g (a :: b :: data) F) as (v & LV & V).
      + lia.
      + rewrite Nat2Z.id. auto.
      + destruct (bspline1_ends _ _ _ _ V) as (_ & E1 & E2). specialize (E2 ltac:(cbn [List.length]; lia)). exists v. auto. }
  destruct X as (v & LV & V0 & V1 & V). destruct (B v data LV V0 V1 V) as (LE & _). rewrite sq_dist_self in LE.
  rewrite S. f_equal. apply sq_dist_zero; auto. pose proof (sq_dist_nonneg s data). lra.
Qed.

Lemma bspline2_both : forall w npoints degree xs ys, List.length xs = List.length ys -> bspline1 (map fst w) npoints degree = Ok xs -> bspline1 (map snd w) npoints degree = Ok ys ->
  bspline2 w npoints degree = Ok (combine xs ys).
Proof. intros w np dg xs ys L A B. unfold bspline2. rewrite A, B. reflexivity. Qed.

Lemma control_through : forall d k rbf d' X Y cv, compute_control_points d (key_name k) rbf = (d', Ok tt) ->
  radii R (param d) = Some X -> at_key (parameters R (param d)) k = Some Y -> at_key (control d') k = Some cv ->
  let g := at_key (degree R (param d)) k in let n := at_key (nbasis R (param d)) k in
  ((rbf_count rbf <= 0)%Z -> (Z.of_nat (List.length X) <= n)%Z -> bspline2 cv (Z.of_nat (List.length X)) g = Ok (combine X Y)) /\
  ((0 < rbf_count rbf)%Z -> (rbf_count rbf <= n)%Z ->
     let xx := linspace (nth 0 X 0) (last X 0) (Z.to_nat (rbf_count rbf)) in
     exists yy, reconstruct_1d X Y xx (zeros (Z.to_nat (rbf_count rbf))) "beckert_wendland_c2_basis" 2 = Ok yy /\
     bspline2 cv (rbf_count rbf) g = Ok (combine xx yy)).
Proof.
  intros d k rbf d' X Y cv H HX HY HC g n. pose proof (control_data _ _ _ _ _ _ _ H HX HY HC) as O. fold g n in O.
  destruct (optimum_inv _ _ _ _ _ _ O) as (X' & Y' & FD & LY & NB & F & LC & HD & LA & B1 & B2).
  assert (U : (Z.of_nat (List.length X') <= n)%Z -> bspline2 cv (Z.of_nat (List.length X')) g = Ok (combine X' Y')).
  { intros M. assert (NX : X' <> []) by (intros ->; destruct F as (F0 & _); cbn in F0; lia).
    assert (LC' : Z.to_nat n = List.length cv) by (unfold pt in *; lia). rewrite LC' in F.
    apply bspline2_both; auto.
    - apply (fit_through g X' (map fst cv) B1 NX); rewrite map_length; auto. unfold pt in *. lia.
    - rewrite <- LY. apply (fit_through g Y' (map snd cv) B2); rewrite ?map_length; rewrite ?LY; auto.
      + intros ->. cbn in LY. destruct X'; [congruence|discriminate].
      + unfold pt in *. lia. }
  destruct (fit_data_spec _ _ _ _ _ FD) as [P Q]. split; intros N M.
  - destruct (P N) as [-> ->]. auto.
  - destruct (Q N) as (_ & _ & _ & EX & RC & LX & _). intros xx. fold xx in EX. subst X'. exists Y'. split; auto. rewrite LX in U. rewrite Z2Nat.id in U by lia. apply U. auto.
Qed.

(** A finer curve meets the samples of a coarser one. *)
Lemma sample_finer : forall c k n m r i, (2 <= n)%nat -> (m - 1 = r * (n - 1))%nat -> (1 <= r)%nat -> sample c k m (r * i) = sample c k n i.
Proof.
  intros c k n m r i N E P. unfold sample. rewrite E, !mult_INR. assert (INR r <> 0) by (apply not_0_INR; lia). assert (INR (n - 1) <> 0) by (apply not_0_INR; lia). field. auto.
Qed.
Lemma bspline1_finer : forall cv n m g s t r i, bspline1 cv n g = Ok s -> bspline1 cv m g = Ok t -> (2 <= n)%Z -> (m - 1 = r * (n - 1))%Z -> (1 <= r)%Z ->
  (i < List.length s)%nat -> (Z.to_nat r * i < List.length t)%nat /\ nth (Z.to_nat r * i) t 0 = nth i s 0.
Proof.
  intros cv n m g s t r i S T N E P I. destruct (bspline1_spec _ _ _ _ S) as (_ & _ & LS & VS). destruct (bspline1_spec _ _ _ _ T) as (_ & _ & LT & VT). rewrite LS in I.
  assert (M2 : (2 <= m)%Z) by nia.
  assert (EN : (Z.to_nat m - 1 = Z.to_nat r * (Z.to_nat n - 1))%nat).
  { apply Nat2Z.inj. rewrite Nat2Z.inj_sub, Nat2Z.inj_mul, Nat2Z.inj_sub by lia. rewrite !Z2Nat.id by lia. lia. }
  assert (J : (Z.to_nat r * i < Z.to_nat m)%nat) by nia. split; [rewrite LT; exact J|]. rewrite VT, VS by auto. f_equal. apply sample_finer; auto; lia.
Qed.
Lemma bspline2_finer : forall cv n m g s t r i, bspline2 cv n g = Ok s -> bspline2 cv m g = Ok t -> (2 <= n)%Z -> (m - 1 = r * (n - 1))%Z -> (1 <= r)%Z ->
  (i < List.length s)%nat -> (Z.to_nat r * i < List.length t)%nat /\ nth (Z.to_nat r * i) t (0, 0) = nth i s (0, 0).
Proof.
  intros cv n m g s t r i S T N E P I. apply DeformProofs3.bspline2_parts in S. apply DeformProofs3.bspline2_parts in T. destruct S as [S1 S2]. destruct T as [T1 T2].
  destruct (bspline1_finer _ _ _ _ _ _ _ i S1 T1 N E P) as [A1 B1]; [rewrite map_length; auto|]. destruct (bspline1_finer _ _ _ _ _ _ _ i S2 T2 N E P) as [A2 B2]; [rewrite map_length; auto|].
  rewrite map_length in A1. split; auto. apply injective_projections.
  - etransitivity; [symmetry; apply (map_nth fst t (0, 0))|]. etransitivity; [exact B1|]. apply (map_nth fst s (0, 0)).
  - etransitivity; [symmetry; apply (map_nth snd t (0, 0))|]. etransitivity; [exact B2|]. apply (map_nth snd s (0, 0)).
Qed.

(** The curve after the control points have been moved. *)
Lemma moved_curve : forall cv (def : list R) n g s, List.length cv = List.length def -> bspline2 cv n g = Ok s ->
  exists e, bspline1 def n g = Ok e /\
    bspline2 (map2 (fun (p : pt) (y : R) => (fst p, snd p + y)) cv def) n g = Ok (combine (map fst s) (map2 Rplus (map snd s) e)).
Proof.
  intros cv def n g s L S. pose proof (bspline2_inv _ _ _ _ S) as F. destruct (DeformProofs3.bspline2_parts _ _ _ _ S) as [S1 S2].
  assert (FD : fits (List.length def) n g) by (rewrite <- L; exact F). pose proof (bspline1_ok def n g FD) as D. eexists. split; [exact D|].
  match type of D with _ = Ok ?x => set (e := x) in *; clearbody e end.
  assert (A : map fst (map2 (fun (p : pt) (y : R) => (fst p, snd p + y)) cv def) = map fst cv).
  { clear -L. revert def L. induction cv as [|p cv IH]; intros [|y def] L; try discriminate; auto. cbn. f_equal. apply IH. cbn in L. lia. }
  assert (B : map snd (map2 (fun (p : pt) (y : R) => (fst p, snd p + y)) cv def) = map2 (fun p q => 1 * p + 1 * q) (map snd cv) def).
  { clear -L. revert def L. induction cv as [|p cv IH]; intros [|y def] L; try discriminate; auto. cbn. f_equal; [ring|]. apply IH. cbn in L. lia. }
  pose proof (bspline1_linear (map snd cv) def 1 1 n g _ _ ltac:(rewrite map_length; exact L) S2 D) as M. rewrite <- B in M.
  destruct (bspline1_ends _ _ _ _ S2) as (L2 & _). destruct (bspline1_ends _ _ _ _ D) as (LE & _). destruct (bspline1_ends _ _ _ _ S1) as (L1 & _).
  assert (C : map2 (fun p q => 1 * p + 1 * q) (map snd s) e = map2 Rplus (map snd s) e).
  { clear. revert e. induction (map snd s) as [|p l IH]; intros [|y e]; auto. cbn. f_equal; [ring|]. apply IH. }
  rewrite C in M. apply bspline2_both; auto; [|rewrite A; exact S1]. rewrite map2_length; [congruence|]. congruence.
Qed.

Lemma compute_one_through : forall rbf tols d k, sound d -> (rbf_count rbf <= 0)%Z -> through d k -> 0 < at_key tols k -> snd (compute_one rbf tols d k) = Ok tt.
Proof.
  intros rbf tols d k S N TH TP. destruct (sound_data d S) as (X & RX & XN & K). destruct (K k) as (Y & HY & LY & NB & _). destruct TH as (LX & LN & G & GN & r & RP & RE). rewrite RX in *. cbn [or_empty] in *.
  set (n := at_key (nbasis R (param d)) k) in *. set (g := at_key (degree R (param d)) k) in *. set (m := at_key (npoints R (param d)) k) in *.
  unfold compute_one.
  pose proof (proj2 (control_success d k rbf S)) as CS. cbv zeta in CS. fold n g in CS. assert (N2 : (2 <= n)%Z) by lia. assert (NR : (0 < rbf_count rbf)%Z -> NoDup (or_empty R (radii R (param d)))) by lia. specialize (CS (conj N2 (conj G (conj GN NR)))).
  destruct (compute_control_points d (key_name k) rbf) as [d1 o1] eqn:E1. cbn [snd] in CS. subst o1. cbn [then_do].
  pose proof (proj1 (sound_calls d S) (key_name k) rbf) as S1. rewrite E1 in S1. cbn [fst] in S1.
  destruct (control_ends _ _ _ _ _ _ E1 RX HY) as ((P1 & _) & _ & _ & cv & C1 & LC & HD & _).
  pose proof (proj1 (control_through _ _ _ _ _ _ _ E1 RX HY C1) N LN) as CT. fold g in CT.
  destruct (update_ok d1 k cv S1 C1) as (d2 & E2 & (P2 & _) & _ & _ & cv2 & C2 & F2 & _). rewrite E2. cbn [then_do].
  pose proof (proj1 (proj2 (sound_calls d1 S1)) (key_name k)) as S2. rewrite E2 in S2. cbn [fst] in S2.
  assert (L2 : List.length cv2 = List.length cv) by (pose proof (f_equal (@List.length R) F2) as Q; rewrite !map_length in Q; exact Q).
  assert (PP : param d2 = param d) by congruence.
  assert (F : fits (List.length cv2) m g) by (unfold fits; split; [nia|]; split; auto; fold n in LC; lia).
  destruct (bspline2_ends _ _ _ F) as (s & B & LS & S0 & _).
  destruct (generate_spline d2 (key_name k)) as [d3 o3] eqn:E3. pose proof (spline_ok _ _ _ _ _ C2 E3) as Q. cbv zeta in Q. rewrite PP in Q. fold g m in Q. rewrite B in Q. destruct Q as [-> D3]. cbn [then_do].
  pose proof (proj1 (proj2 (proj2 (sound_calls d2 S2))) (key_name k)) as S3. rewrite E3 in S3. cbn [fst] in S3.
  assert (CU : at_key (curve d3) k = Some s) by (rewrite D3; cbn [set_curve curve]; apply at_same).
  assert (P3 : param d3 = param d) by (rewrite D3; auto).
  apply (deformed_success d3 k _ s S3 CU). rewrite P3, RX. cbn [or_empty]. intros x I. apply (In_nth _ _ 0) in I. destruct I as (i & I & <-).
  destruct (DeformProofs3.bspline2_parts _ _ _ _ CT) as [CX _]. destruct (DeformProofs3.bspline2_parts _ _ _ _ B) as [BX _]. rewrite F2 in BX.
  assert (MX : map fst (combine X Y) = X) by (apply map_fst_combine; congruence). rewrite MX in CX.
  destruct (bspline1_finer _ _ _ _ _ _ r i CX BX ltac:(lia) RE RP I) as [J V]. rewrite map_length in J.
  exists (nth (Z.to_nat r * i) s (0, 0)). split; [apply nth_In; auto|]. pose proof (map_nth fst s (0, 0) (Z.to_nat r * i)) as Q. cbn [fst] in Q. rewrite V in Q. unfold pt in *. rewrite <- Q.
  replace (nth i X 0 - nth i X 0) with 0 by ring. rewrite Rabs_R0. exact TP.
Qed.
Lemma compute_list_through : forall rbf tols ks d, sound d -> (rbf_count rbf <= 0)%Z -> (forall k, through d k) -> (forall k, 0 < at_key tols k) ->
  snd (compute_list rbf tols d ks) = Ok tt.
Proof.
  intros rbf tols ks. induction ks as [|k ks IH]; intros d S N H T; cbn [compute_list]; auto.
  pose proof (compute_one_through rbf tols d k S N (H k) (T k)) as W.
  destruct (compute_one rbf tols d k) as [d1 o1] eqn:E. cbn [snd] in W. subst o1. cbn [then_do].
  destruct (compute_one_ok_inv _ _ _ _ _ S E) as (S1 & [P1 _] & _). apply IH; auto. intros j. unfold through. rewrite P1. apply H.
Qed.
Lemma compute_all_through : forall rbf tols d, sound d -> (rbf_count rbf <= 0)%Z -> (forall k, through d k) -> (forall k, 0 < at_key tols k) ->
  exists d', compute_all d rbf tols = (d', Ok tt).
Proof.
  intros rbf tols d S N H T. pose proof (compute_list_through rbf tols keys d S N H T) as W. unfold compute_all.
  destruct (compute_list rbf tols d keys) as [d' o]. cbn [snd] in W. subst o. eauto.
Qed.

(** With one curve point per radius the deformation adds the curve of the
    displacements to the distribution. *)
Lemma through_values : forall rbf tols d d' k X Y, sound d -> compute_all d rbf tols = (d', Ok tt) ->
  radii R (param d) = Some X -> at_key (parameters R (param d)) k = Some Y -> (rbf_count rbf <= 0)%Z ->
  (Z.of_nat (List.length X) <= at_key (nbasis R (param d)) k)%Z -> at_key (npoints R (param d)) k = Z.of_nat (List.length X) ->
  (forall i j, (i < j < List.length X)%nat -> at_key tols k <= Rabs (nth i X 0 - nth j X 0)) ->
  exists e, bspline1 (at_key (deformations R (param d)) k) (Z.of_nat (List.length X)) (at_key (degree R (param d)) k) = Ok e /\
    at_key (deformed d') k = map2 Rplus Y e.
Proof.
  intros rbf tols d d' k X Y S E RX HY N LN NP SEP.
  destruct (compute_all_each _ _ _ _ S E) as (S' & P' & A). destruct (A k) as (da & db & SA & PA & E1 & (G1 & G2 & G3)).
  destruct (compute_one_ok_inv _ _ _ _ _ SA E1) as (_ & _ & d1 & cv & s & C & CC & _ & LD & BS & _ & LV & V).
  assert (RX' : radii R (param da) = Some X) by (rewrite PA; auto). assert (HY' : at_key (parameters R (param da)) k = Some Y) by (rewrite PA; auto).
  pose proof (proj1 (control_through _ _ _ _ _ _ _ C RX' HY' CC) N) as CT. rewrite PA in *. specialize (CT LN). rewrite NP in BS.
  destruct (moved_curve cv (at_key (deformations R (param d)) k) _ _ _ LD CT) as (e & BE & MC). exists e. split; auto.
  rewrite MC in BS. injection BS as <-. destruct (sound_data d S) as (X0 & RX0 & _ & K). destruct (K k) as (Y0 & HY0 & LY & _).
  assert (X0 = X) as -> by congruence. assert (Y0 = Y) as -> by congruence.
  rewrite map_fst_combine, map_snd_combine in V by congruence. rewrite RX in V, LV. cbn [or_empty] in V, LV. rewrite G1 in V, LV.
  destruct (bspline1_ends _ _ _ _ BE) as (LE & _). rewrite Nat2Z.id in LE.
  assert (LM : List.length (map2 Rplus Y e) = List.length X) by (rewrite map2_length; congruence).
  apply (nth_ext _ _ 0 0); [congruence|]. intros j J. rewrite LV in J. destruct (V j J) as (p & (i & NI & NR & _) & VP). rewrite VP.
  assert (IL : (i < List.length X)%nat).
  { assert (Q : nth_error (combine X (map2 Rplus Y e)) i <> None) by (unfold pt in *; rewrite NI; discriminate). apply nth_error_Some in Q. rewrite combine_length in Q. lia. }
  assert (PI : p = (nth i X 0, nth i (map2 Rplus Y e) 0)).
  { apply (nth_error_nth _ _ (0, 0)) in NI. rewrite <- NI. apply (combine_nth X (map2 Rplus Y e) i 0 0). congruence. }
  rewrite PI in *. cbn [fst snd] in *. destruct (Nat.lt_trichotomy i j) as [Q|[->|Q]]; [exfalso| |exfalso]; auto.
  - pose proof (SEP i j ltac:(lia)). lra.
  - pose proof (SEP j i ltac:(lia)) as Z. rewrite Rabs_minus_sym in Z. lra.
Qed.
Lemma map2_zeros : forall Y e, List.length e = List.length Y -> Forall (fun x => x = 0) e -> map2 Rplus Y e = Y.
Proof. induction Y as [|y Y IH]; intros [|x e] L F; try discriminate; auto. inversion F; subst. cbn. f_equal; [ring|]. apply IH; auto. Qed.
Lemma through_kept : forall rbf tols d d' k X Y, sound d -> compute_all d rbf tols = (d', Ok tt) ->
  radii R (param d) = Some X -> at_key (parameters R (param d)) k = Some Y -> (rbf_count rbf <= 0)%Z ->
  (Z.of_nat (List.length X) <= at_key (nbasis R (param d)) k)%Z -> at_key (npoints R (param d)) k = Z.of_nat (List.length X) ->
  (forall i j, (i < j < List.length X)%nat -> at_key tols k <= Rabs (nth i X 0 - nth j X 0)) ->
  Forall (fun x => x = 0) (at_key (deformations R (param d)) k) -> at_key (deformed d') k = Y.
Proof.
  intros rbf tols d d' k X Y S E RX HY N LN NP SEP Z. destruct (through_values _ _ _ _ _ _ _ S E RX HY N LN NP SEP) as (e & BE & ->).
  destruct (sound_data d S) as (X0 & RX0 & _ & K). destruct (K k) as (Y0 & HY0 & LY & _). assert (X0 = X) as -> by congruence. assert (Y0 = Y) as -> by congruence.
  destruct (bspline1_ends _ _ _ _ BE) as (LE & _). rewrite Nat2Z.id in LE. apply map2_zeros; [congruence|].
  apply Forall_forall. intros x I. rewrite Forall_forall in Z. assert (H : 0 <= x <= 0); [|lra].
  apply (bspline1_hull _ _ _ _ 0 0 BE); auto. intros v J. rewrite (Z v J). lra.
Qed.
