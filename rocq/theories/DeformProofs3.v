(** Statements about the deformation object, assembled from DeformProofs2. *)
From Coq Require Import String Reals List ZArith Ascii Bool Lra Lia.
From Verif Require Import Base ProfileProofs RbfModel RbfProofs RbfProofs2 SolveModel SolveProofs BsplineModel BsplineSpec BsplineProofs BsplineProofs2
  LstsqModel LstsqSpec LstsqProofs TextModel TextProofs ParamsModel ParamsSpec ParamsProofs ParamsProofs2 ParamsProofs3 DeformModel DeformSpec DeformProofs DeformProofs2.
Import ListNotations.
Open Scope R_scope.

Lemma key_name_inj : forall j k, key_name j = key_name k -> j = k.
Proof. intros [] []; try reflexivity; discriminate. Qed.
Lemma sound_data : forall d, sound d -> exists X, radii R (param d) = Some X /\ X <> [] /\ forall k, exists Y, at_key (parameters R (param d)) k = Some Y /\
  length Y = length X /\ at_key (nbasis R (param d)) k = Z.of_nat (length (at_key (deformations R (param d)) k)) /\ (0 < at_key (nbasis R (param d)) k)%Z /\
  length (at_key (deformed d) k) = length X.
Proof.
  intros d ((X & RX & C) & (P1 & P2) & K). exists X. split; auto. rewrite RX in P1. split; [exact P1|]. intros k. destruct (C k) as [(Y & A & B) D].
  exists Y. split; auto. split; auto. split; auto. specialize (P2 k). destruct (at_key (deformations R (param d)) k); [congruence|]. simpl in D. split; [simpl; lia|].
  destruct (K k) as (K1 & _). rewrite RX in K1. auto.
Qed.

(** C35 *)
Lemma control_ends : forall d k rbf d' X Y, compute_control_points d (key_name k) rbf = (d', Ok tt) ->
  radii R (param d) = Some X -> at_key (parameters R (param d)) k = Some Y ->
  same_elsewhere k d d' /\ at_key (curve d') k = at_key (curve d) k /\ at_key (deformed d') k = at_key (deformed d) k /\
  exists cv, at_key (control d') k = Some cv /\ Z.of_nat (length cv) = at_key (nbasis R (param d)) k /\
    hd_error cv = Some (nth 0 X 0, nth 0 Y 0) /\
    last cv (0, 0) = (if Z.eq_dec (rbf_count rbf) 1 then (nth 0 X 0, nth 0 Y 0) else (last X 0, last Y 0)).
Proof.
  intros d k rbf d' X Y H HX HY. destruct (control_inv _ _ _ _ _ H) as [[C _]|(k' & X1 & Y1 & cv & K & _ & E1 & E2 & O & ->)]; [congruence|].
  apply key_name_inj in K. subst k'. rewrite HX in E1. rewrite HY in E2. injection E1 as <-. injection E2 as <-.
  split; [apply same_control|]. split; auto. split; auto. exists cv. cbn [set_control control]. rewrite at_same. split; auto.
  destruct (optimum_inv _ _ _ _ _ _ O) as (X' & Y' & FD & LY & NB & F & L & HD & LA & _). split; auto.
  destruct (fit_data_spec _ _ _ _ _ FD) as [A B]. destruct (Z.eq_dec (rbf_count rbf) 1) as [E|E].
  - destruct (B ltac:(lia)) as (_ & _ & _ & _ & _ & L1 & L2 & B1 & B2 & _). rewrite E in L1, L2. rewrite <- B1, <- B2. split; auto.
    rewrite LA. destruct X' as [|x [|? ?]]; try discriminate. destruct Y' as [|y [|? ?]]; try discriminate. auto.
  - destruct (Z.le_gt_cases (rbf_count rbf) 0) as [N|N].
    + destruct (A N) as [-> ->]. auto.
    + destruct (B ltac:(lia)) as (_ & _ & _ & _ & _ & _ & _ & B1 & B2 & B3). destruct (B3 ltac:(lia)) as [B4 B5]. rewrite <- B1, <- B2, <- B4, <- B5. auto.
Qed.

Lemma control_best : forall d k rbf d' X Y cv, compute_control_points d (key_name k) rbf = (d', Ok tt) ->
  radii R (param d) = Some X -> at_key (parameters R (param d)) k = Some Y -> at_key (control d') k = Some cv ->
  let g := at_key (degree R (param d)) k in
  ((rbf_count rbf <= 0)%Z -> best_fit g X (map fst cv) /\ best_fit g Y (map snd cv)) /\
  ((0 < rbf_count rbf)%Z -> exists xx yy, xx = linspace (nth 0 X 0) (last X 0) (Z.to_nat (rbf_count rbf)) /\
     reconstruct_1d X Y xx (zeros (Z.to_nat (rbf_count rbf))) "beckert_wendland_c2_basis" 2 = Ok yy /\
     best_fit g xx (map fst cv) /\ best_fit g yy (map snd cv)).
Proof.
  intros d k rbf d' X Y cv H HX HY HC g. destruct (control_inv _ _ _ _ _ H) as [[C _]|(k' & X1 & Y1 & cv' & K & _ & E1 & E2 & O & ->)]; [congruence|].
  apply key_name_inj in K. subst k'. rewrite HX in E1. rewrite HY in E2. injection E1 as <-. injection E2 as <-.
  cbn [set_control control] in HC. rewrite at_same in HC. injection HC as ->.
  destruct (optimum_inv _ _ _ _ _ _ O) as (X' & Y' & FD & LY & NB & F & L & HD & LA & B1 & B2).
  destruct (fit_data_spec _ _ _ _ _ FD) as [A B]. split.
  - intros N. destruct (A N) as [-> ->]. auto.
  - intros N. destruct (B N) as (_ & _ & _ & -> & RC & _). eauto 8.
Qed.

Lemma sq_dist_nonneg : forall a b, 0 <= sq_dist a b.
Proof. intros. apply dot_self_nonneg. Qed.
Lemma sq_dist_zero : forall a b, length a = length b -> sq_dist a b = 0 -> a = b.
Proof.
  intros a b L H. unfold sq_dist in H. apply dot_self_zero in H. revert b L H. induction a; destruct b; simpl; intros L H; try discriminate; auto.
  injection H as H1 H2. f_equal; [lra|]. apply IHa; auto.
Qed.
Lemma sq_dist_self : forall a, sq_dist a a = 0.
Proof. intros. unfold sq_dist. induction a; simpl; auto. rewrite IHa. ring. Qed.
Lemma best_fit_exact : forall g D c v, best_fit g D c -> length v = length c -> nth 0 v 0 = nth 0 D 0 -> last v 0 = last D 0 ->
  bspline1 v (Z.of_nat (length D)) g = Ok D -> bspline1 c (Z.of_nat (length D)) g = Ok D.
Proof.
  intros g D c v (s & S & B) L A1 A2 E. destruct (B v D L A1 A2 E) as [P _]. rewrite sq_dist_self in P.
  rewrite S. f_equal. destruct (bspline1_ends _ _ _ _ S) as (LS & _). rewrite Nat2Z.id in LS. apply sq_dist_zero; auto. pose proof (sq_dist_nonneg s D). lra.
Qed.
Lemma control_exact : forall d k rbf d' X Y cv v, compute_control_points d (key_name k) rbf = (d', Ok tt) ->
  radii R (param d) = Some X -> at_key (parameters R (param d)) k = Some Y -> at_key (control d') k = Some cv -> (rbf_count rbf <= 0)%Z ->
  let g := at_key (degree R (param d)) k in
  Z.of_nat (length v) = at_key (nbasis R (param d)) k -> nth 0 v (0, 0) = (nth 0 X 0, nth 0 Y 0) -> last v (0, 0) = (last X 0, last Y 0) ->
  bspline2 v (Z.of_nat (length X)) g = Ok (combine X Y) -> bspline2 cv (Z.of_nat (length X)) g = Ok (combine X Y).
Proof.
  intros d k rbf d' X Y cv v H HX HY HC N g L V0 VL E.
  destruct (control_best _ _ _ _ _ _ _ H HX HY HC) as [B _]. destruct (B N) as [B1 B2]. fold g in B1, B2.
  destruct (control_inv _ _ _ _ _ H) as [[C _]|(k' & X1 & Y1 & cv' & K & _ & E1 & E2 & O & ->)]; [congruence|].
  apply key_name_inj in K. subst k'. rewrite HX in E1. rewrite HY in E2. injection E1 as <-. injection E2 as <-.
  cbn [set_control control] in HC. rewrite at_same in HC. injection HC as ->.
  destruct (optimum_inv _ _ _ _ _ _ O) as (X' & Y' & FD & LY & NB & F & LC & _).
  destruct (fit_data_spec _ _ _ _ _ FD) as [A _]. destruct (A N) as [-> ->]. clear A.
  assert (LVC : length v = length cv) by lia.
  unfold bspline2 in *. apply bind_ok in E. destruct E as (xs & EX & E). apply bind_ok in E. destruct E as (ys & EY & E). injection E as E.
  destruct (bspline1_ends _ _ _ _ EX) as (LX & _). destruct (bspline1_ends _ _ _ _ EY) as (LYs & _). rewrite Nat2Z.id in *.
  assert (xs = X) by (rewrite <- (map_fst_combine xs ys), <- (map_fst_combine X Y) by lia; congruence).
  assert (ys = Y) by (rewrite <- (map_snd_combine xs ys), <- (map_snd_combine X Y) by lia; congruence). subst xs ys.
  assert (VN : v <> []) by (intros ->; simpl in LVC; lia).
  assert (M0 : forall (f : pt -> R), f (0, 0) = 0 -> nth 0 (map f v) 0 = f (nth 0 v (0, 0)) /\ last (map f v) 0 = f (last v (0, 0))).
  { intros f F0. rewrite !last_nth_gen, map_length. split; match goal with |- nth ?j _ _ = _ => pose proof (map_nth f v (0, 0) j) as Q end; rewrite F0 in Q; exact Q. }
  destruct (M0 fst eq_refl) as [F1 F2]. destruct (M0 snd eq_refl) as [S1 S2]. rewrite V0 in F1, S1. rewrite VL in F2, S2. cbn [fst snd] in *.
  rewrite <- LY in EY. rewrite (best_fit_exact g X (map fst cv) (map fst v)); auto; [|rewrite !map_length; auto]. cbn [bind].
  rewrite <- LY. rewrite (best_fit_exact g Y (map snd cv) (map snd v)); auto. rewrite !map_length; auto.
Qed.

Lemma fit_data_ok : forall X Y n, X <> [] -> length Y = length X -> ((0 < n)%Z -> NoDup X) -> exists X' Y', fit_data X Y n = Ok (X', Y') /\ length Y' = length X' /\ X' <> [].
Proof.
  intros X Y n N L D. unfold fit_data. destruct (Z.ltb_spec 0 n) as [P|P]; [|eauto].
  destruct (exists_last N) as (m & b & E). assert (F1 : exists a, first X = Ok a) by (destruct X; [congruence|simpl; eauto]). destruct F1 as (a & ->). cbn [bind].
  assert (F2 : final X = Ok b) by (rewrite E; apply final_last). rewrite F2. cbn [bind].
  set (xx := linspace a b (Z.to_nat n)). assert (LX : length xx = Z.to_nat n) by apply linspace_length.
  assert (LZ : length (zeros (Z.to_nat n)) = length xx) by (rewrite LX; apply zeros_length).
  destruct (proj2 (proj1 (wendland_iff 2 X Y xx (zeros (Z.to_nat n)) ltac:(lra) L LZ)) (D P)) as (yy & HY). rewrite HY. cbn [bind].
  exists xx, yy. split; auto. split; [eapply reconstruct_1d_length; eauto|]. intros Q. rewrite Q in LX. simpl in LX. lia.
Qed.
Lemma control_success : forall d k rbf, sound d ->
  let n := at_key (nbasis R (param d)) k in let g := at_key (degree R (param d)) k in
  snd (compute_control_points d (key_name k) rbf) = Ok tt <->
  (2 <= n)%Z /\ (0 <= g <= 19)%Z /\ (g < n)%Z /\ ((0 < rbf_count rbf)%Z -> NoDup (or_empty R (radii R (param d)))).
Proof.
  intros d k rbf S n g. destruct (sound_data d S) as (X & RX & XN & K). destruct (K k) as (Y & HY & LY & NB & NP & _). rewrite RX. cbn [or_empty]. split.
  - intros H. destruct (compute_control_points d (key_name k) rbf) as [d' o] eqn:E. cbn [snd] in H. subst o.
    destruct (control_inv _ _ _ _ _ E) as [[C _]|(k' & X1 & Y1 & cv & KN & _ & E1 & E2 & O & ->)]; [congruence|].
    apply key_name_inj in KN. subst k'. rewrite RX in E1. rewrite HY in E2. injection E1 as <-. injection E2 as <-.
    destruct (optimum_inv _ _ _ _ _ _ O) as (X' & Y' & FD & LY' & NB' & (F1 & F2 & F3) & _). fold n in NB', F3. fold g in F2, F3. split; auto. split; auto. split; [lia|].
    intros P. destruct (fit_data_spec _ _ _ _ _ FD) as [_ B]. apply B; auto.
  - intros (A & B & C & D). unfold compute_control_points. rewrite check_name_key, RX, HY. fold n. fold g.
    destruct (fit_data_ok X Y (rbf_count rbf) XN LY D) as (X' & Y' & FD & LY' & XN').
    destruct (optimum_ok X Y g n rbf X' Y' FD LY' A) as (cv & ->); auto.
    unfold fits. split; [|split; auto; lia]. destruct X'; [congruence|simpl; lia].
Qed.

(** C36 *)
Lemma update_ok : forall d k cv, sound d -> at_key (control d) k = Some cv ->
  exists d', update_control_points d (key_name k) = (d', Ok tt) /\ same_elsewhere k d d' /\ at_key (curve d') k = at_key (curve d) k /\ at_key (deformed d') k = at_key (deformed d) k /\
    exists cv', at_key (control d') k = Some cv' /\ map fst cv' = map fst cv /\ map snd cv' = map2 Rplus (map snd cv) (at_key (deformations R (param d)) k).
Proof.
  intros d k cv S C. destruct (sound_data d S) as (X & RX & XN & K). destruct (K k) as (Y & HY & LY & NB & NP & _). destruct S as (_ & _ & SK). destruct (SK k) as (_ & L & _).
  specialize (L cv C). unfold update_control_points. rewrite check_name_key, C.
  assert (LE : length cv = length (at_key (deformations R (param d)) k)) by lia. rewrite LE, Nat.eqb_refl. eexists. split; eauto.
  split; [apply same_control|]. split; auto. split; auto. eexists. cbn [set_control control]. rewrite at_same. split; eauto.
  revert LE. generalize (at_key (deformations R (param d)) k). clear. induction cv; destruct l; simpl; intros; try discriminate; auto.
  injection LE as LE. destruct (IHcv l LE) as [-> ->]. auto.
Qed.
Lemma updates_ok : forall n d k cv, sound d -> at_key (control d) k = Some cv ->
  exists d' cv', updates n d (key_name k) = (d', Ok tt) /\ sound d' /\ param d' = param d /\ at_key (control d') k = Some cv' /\ map fst cv' = map fst cv /\
    map snd cv' = map2 (fun y z => y + INR n * z) (map snd cv) (at_key (deformations R (param d)) k).
Proof.
  induction n as [|n IH]; intros d k cv S C.
  - exists d, cv. split; auto. split; auto. split; auto. split; auto. split; auto. simpl INR.
    destruct (sound_data d S) as (X & RX & XN & K). destruct (K k) as (Y & HY & LY & NB & NP & _). pose proof S as (_ & _ & SK). destruct (SK k) as (_ & L & _). specialize (L cv C).
    assert (LE : length cv = length (at_key (deformations R (param d)) k)) by lia. revert LE. generalize (at_key (deformations R (param d)) k). clear.
    induction cv; destruct l; simpl; intros; try discriminate; auto. f_equal; [ring|]. apply IHcv. lia.
  - destruct (IH d k cv S C) as (d1 & cv1 & U & S1 & P1 & C1 & F1 & V1). cbn [updates]. rewrite U. cbn [then_do].
    destruct (update_ok d1 k cv1 S1 C1) as (d2 & U2 & SE & _ & _ & cv2 & C2 & F2 & V2). exists d2, cv2. split; auto.
    split. { pose proof (proj2 (call_inv d1 (AUpdate (key_name k))) S1) as Q. cbn [call] in Q. rewrite U2 in Q. auto. }
    split; [rewrite (proj1 SE); auto|]. split; auto. split; [congruence|]. rewrite V2, V1, P1. rewrite S_INR.
    generalize (map snd cv). generalize (at_key (deformations R (param d)) k). clear.
    induction l as [|a l IH]; intros [|b u]; simpl; auto. f_equal; [ring|]. apply IH.
Qed.
Lemma update_errors : forall d k, (at_key (control d) k = None \/ exists cv, at_key (control d) k = Some cv /\ length cv <> length (at_key (deformations R (param d)) k)) ->
  update_control_points d (key_name k) = (d, Err ValueError).
Proof.
  intros d k H. unfold update_control_points. rewrite check_name_key. destruct H as [->|(cv & -> & N)]; auto. apply Nat.eqb_neq in N. rewrite N. auto.
Qed.

(** C37 *)
Lemma bad_name : forall d s, (forall k, s <> key_name k) ->
  (forall r, compute_control_points d s r = (d, Err ValueError)) /\ update_control_points d s = (d, Err ValueError) /\
  generate_spline d s = (d, Err ValueError) /\ (forall t, compute_deformed_parameters d s t = (d, Err ValueError)) /\
  (forall o out, plot_parametric_curve d o out s = Err ValueError).
Proof.
  intros d s H. pose proof (check_name_bad s H) as E. unfold compute_control_points, update_control_points, generate_spline, compute_deformed_parameters, plot_parametric_curve.
  rewrite E. auto.
Qed.
Lemma out_of_order : forall d k,
  (at_key (control d) k = None -> update_control_points d (key_name k) = (d, Err ValueError) /\ generate_spline d (key_name k) = (d, Err ValueError)) /\
  (at_key (curve d) k = None -> forall t, compute_deformed_parameters d (key_name k) t = (d, Err ValueError)).
Proof.
  intros d k. unfold update_control_points, generate_spline, compute_deformed_parameters. rewrite check_name_key. split.
  - intros ->. auto.
  - intros -> t. auto.
Qed.
Lemma failed_calls : forall d name,
  (forall r d' e, compute_control_points d name r = (d', Err e) -> d' = d) /\ (forall d' e, update_control_points d name = (d', Err e) -> d' = d) /\
  (forall d' e, generate_spline d name = (d', Err e) -> d' = d).
Proof.
  intros d name. split; [|split].
  - intros r d' e H. destruct (control_inv _ _ _ _ _ H) as [[_ ->]|(? & ? & ? & ? & _ & Q & _)]; [auto|discriminate].
  - intros d' e H. destruct (update_inv _ _ _ _ H) as [[_ ->]|(? & ? & _ & Q & _)]; [auto|discriminate].
  - intros d' e H. destruct (spline_inv _ _ _ _ H) as [[_ ->]|(? & ? & ? & _ & Q & _)]; [auto|discriminate].
Qed.
Lemma spline_ok : forall d k cv d' o, at_key (control d) k = Some cv -> generate_spline d (key_name k) = (d', o) ->
  let s := bspline2 cv (at_key (npoints R (param d)) k) (at_key (degree R (param d)) k) in
  match s with
  | Ok c => o = Ok tt /\ d' = set_curve d k c
  | Err e => o = Err e /\ d' = d
  end.
Proof.
  intros d k cv d' o C H. unfold generate_spline in H. rewrite check_name_key, C in H. unfold assign in H. cbv zeta. destruct (bspline2 _ _ _); injection H as <- <-; auto.
Qed.
Lemma reachable : forall cd fs a fs' d0 d, new_deform cd fs a = (fs', Ok d0) -> after d0 d -> param d = param d0 /\ sound d.
Proof. intros cd fs a fs' d0 d N A. apply after_sound; auto. eapply new_deform_sound; eauto. Qed.

(** C38 *)
Lemma deformed_spec : forall d k tol s d' o, sound d -> at_key (curve d) k = Some s -> compute_deformed_parameters d (key_name k) tol = (d', o) ->
  let X := or_empty R (radii R (param d)) in let v := at_key (deformed d') k in
  same_elsewhere k d d' /\ at_key (control d') k = at_key (control d) k /\ at_key (curve d') k = at_key (curve d) k /\ length v = length X /\
  exists n, ((o = Ok tt /\ n = length X) \/ (o = Err ValueError /\ (n < length X)%nat /\ no_near s (nth n X 0) tol)) /\
    (forall j, (j < n)%nat -> exists p, first_near s (nth j X 0) tol p /\ nth j v 0 = snd p) /\
    (forall j, (n <= j)%nat -> nth j v 0 = nth j (at_key (deformed d) k) 0).
Proof.
  intros d k tol s d' o S C H X v. destruct (sound_data d S) as (X0 & RX & XN & K). destruct (K k) as (Y & HY & LY & NB & NP & LD).
  assert (EX : X = X0) by (unfold X; rewrite RX; auto). 
  unfold compute_deformed_parameters in H. rewrite check_name_key, C, RX in H.
  destruct (sample_radii s tol 0 X0 (at_key (deformed d) k)) as [w o'] eqn:SR. injection H as <- <-.
  split; [apply same_deformed|]. split; auto. split; auto. unfold v. cbn [set_deformed deformed]. rewrite at_same.
  destruct (sample_radii_spec _ _ _ 0%nat _ _ _ LD SR) as (LW & n & C1 & C2 & C3). rewrite EX. split; [congruence|]. exists n. split; [|split].
  - destruct C1 as [C1|(C1 & C1' & C1'')]; auto. right. split; auto. split; auto. apply near_none; auto.
  - intros j J. destruct (C2 j J) as (p & P1 & P2). exists p. split; auto. apply near_some; auto.
  - intros j J. apply C3. lia.
Qed.
Lemma deformed_success : forall d k tol s, sound d -> at_key (curve d) k = Some s ->
  (snd (compute_deformed_parameters d (key_name k) tol) = Ok tt <->
   forall r, In r (or_empty R (radii R (param d))) -> exists p, In p s /\ Rabs (fst p - r) < tol).
Proof.
  intros d k tol s S C. destruct (compute_deformed_parameters d (key_name k) tol) as [d' o] eqn:E. cbn [snd].
  destruct (deformed_spec _ _ _ _ _ _ S C E) as (_ & _ & _ & L & n & A & B & _). set (X := or_empty R (radii R (param d))) in *. split.
  - intros ->. destruct A as [[_ ->]|(A & _)]; [|discriminate]. intros r I. destruct (In_nth X r 0 I) as (j & J & <-). destruct (B j J) as (p & (i & P1 & P2 & _) & _).
    exists p. split; auto. eapply nth_error_In; eauto.
  - intros H. destruct A as [[-> _]|(_ & A & NN)]; auto. exfalso. destruct (H (nth n X 0) (nth_In X 0 A)) as (p & P1 & P2). specialize (NN p P1). lra.
Qed.

(** C71 *)
Lemma crossing : forall (s : list R) r n, (n < length s)%nat -> nth 0 s 0 <= r -> r <= nth n s 0 ->
  exists i, (S i <= n)%nat /\ nth i s 0 <= r <= nth (S i) s 0 \/ i = n /\ nth i s 0 = r.
Proof.
  intros s r. induction n; intros H A B.
  - exists 0%nat. right. split; auto. lra.
  - destruct (Rle_dec (nth n s 0) r) as [C|C]; [exists n; left; split; [lia|lra]|].
    destruct (IHn ltac:(lia) A ltac:(lra)) as (i & [[I1 I2]|[-> I2]]); [exists i; left; split; auto|lra].
Qed.
Lemma crossing_near : forall (s : list R) r tol, s <> [] -> 0 < tol -> (forall i, (S i < length s)%nat -> Rabs (nth (S i) s 0 - nth i s 0) < 2 * tol) ->
  Rmin (nth 0 s 0) (last s 0) <= r <= Rmax (nth 0 s 0) (last s 0) -> exists x, In x s /\ Rabs (x - r) < tol.
Proof.
  intros s r tol N T ST B.
  assert (W : forall s : list R, s <> [] -> (forall i, (S i < length s)%nat -> Rabs (nth (S i) s 0 - nth i s 0) < 2 * tol) ->
    forall r, nth 0 s 0 <= r <= last s 0 -> exists x, In x s /\ Rabs (x - r) < tol).
  { clear - T. intros s N ST r [B1 B2]. rewrite last_nth_gen in B2. assert (P : (0 < length s)%nat) by (destruct s; [congruence|simpl; lia]).
    destruct (crossing s r (length s - 1) ltac:(lia) B1 B2) as (i & [[I1 I2]|[-> I2]]).
    - specialize (ST i ltac:(lia)). apply Rabs_def2 in ST. destruct (Rlt_dec (r - nth i s 0) tol) as [D|D].
      + exists (nth i s 0). split; [apply nth_In; lia|]. apply Rabs_def1; lra.
      + exists (nth (S i) s 0). split; [apply nth_In; lia|]. apply Rabs_def1; lra.
    - exists (nth (length s - 1) s 0). split; [apply nth_In; lia|]. rewrite I2. rewrite Rminus_diag_eq, Rabs_R0; auto. }
  destruct (Rle_dec (nth 0 s 0) (last s 0)) as [C|C].
  - rewrite Rmin_left, Rmax_right in B by auto. eapply W; eauto.
  - rewrite Rmin_right, Rmax_left in B by lra. destruct (W (map Ropp s)) with (r := - r) as (x & I & X).
    + destruct s; [congruence|discriminate].
    + rewrite map_length. intros i I. rewrite !(nth_mapd _ _ _ _ _ 0) by lia. rewrite <- Rabs_Ropp. replace (- (- nth (S i) s 0 - - nth i s 0)) with (nth (S i) s 0 - nth i s 0) by ring. auto.
    + assert (P : (0 < length s)%nat) by (destruct s; [congruence|simpl; lia]). rewrite last_nth_gen in *. rewrite map_length. rewrite !(nth_mapd _ _ _ _ _ 0) by lia. lra.
    + apply in_map_iff in I. destruct I as (y & <- & I). exists y. split; auto. rewrite <- Rabs_Ropp. replace (- (y - r)) with (- y - - r) by ring. auto.
Qed.
Lemma bspline2_parts : forall cv n g s, bspline2 cv n g = Ok s -> bspline1 (map fst cv) n g = Ok (map fst s) /\ bspline1 (map snd cv) n g = Ok (map snd s).
Proof.
  intros cv n g s H. unfold bspline2 in H. apply bind_ok in H. destruct H as (xs & EX & H). apply bind_ok in H. destruct H as (ys & EY & H). injection H as <-.
  destruct (bspline1_ends _ _ _ _ EX) as (LX & _). destruct (bspline1_ends _ _ _ _ EY) as (LY & _). rewrite map_fst_combine, map_snd_combine by lia. auto.
Qed.
Lemma enough_points : forall d k tol cv s, sound d -> at_key (control d) k = Some cv ->
  let g := at_key (degree R (param d)) k in let n := at_key (npoints R (param d)) k in
  bspline2 cv n g = Ok s -> at_key (curve d) k = Some s -> (1 <= g)%Z -> (2 <= n)%Z -> 
  IZR g * variation (map fst cv) * (INR (length cv - Z.to_nat g) / INR (Z.to_nat n - 1)) < 2 * tol ->
  (forall r, In r (or_empty R (radii R (param d))) ->
     Rmin (fst (nth 0 cv (0, 0))) (fst (last cv (0, 0))) <= r <= Rmax (fst (nth 0 cv (0, 0))) (fst (last cv (0, 0)))) ->
  snd (compute_deformed_parameters d (key_name k) tol) = Ok tt.
Proof.
  intros d k tol cv s SD C g n B CU G N T X. apply (deformed_success d k tol s SD CU). intros r I.
  destruct (bspline2_parts _ _ _ _ B) as [BX _]. destruct (bspline1_ends _ _ _ _ BX) as (L & E0 & EL). specialize (EL N). rewrite map_length in L.
  assert (ST : forall i, (S i < length (map fst s))%nat -> Rabs (nth (S i) (map fst s) 0 - nth i (map fst s) 0) < 2 * tol).
  { intros i J. eapply Rle_lt_trans; [apply (bspline1_steps _ _ _ _ BX G i J)|]. rewrite !map_length, L. auto. }
  assert (SN : map fst s <> []) by (destruct s; [simpl in L; lia|discriminate]).
  assert (TP : 0 < tol). { assert (0 < 2 * tol); [|lra]. eapply Rle_lt_trans; [|apply (ST 0%nat); rewrite map_length; lia]. apply Rabs_pos. }
  assert (M0 : nth 0 (map fst cv) 0 = fst (nth 0 cv (0, 0)) /\ last (map fst cv) 0 = fst (last cv (0, 0))).
  { split; [apply (map_nth fst cv (0, 0) 0)|]. rewrite !last_nth_gen, map_length. apply (map_nth fst cv (0, 0)). }
  destruct M0 as [M0 M1]. destruct (crossing_near (map fst s) r tol SN TP ST) as (x & IX & HX).
  { rewrite E0, EL, M0, M1. auto. }
  apply in_map_iff in IX. destruct IX as (p & <- & IP). eauto.
Qed.

(** One parameter of compute_all. *)
Lemma compute_one_ok_inv : forall rbf tols d k d', sound d -> compute_one rbf tols d k = (d', Ok tt) ->
  let X := or_empty R (radii R (param d)) in let Y := or_empty R (at_key (parameters R (param d)) k) in
  let def := at_key (deformations R (param d)) k in
  sound d' /\ same_elsewhere k d d' /\
  exists d1 cv s, compute_control_points d (key_name k) rbf = (d1, Ok tt) /\ at_key (control d1) k = Some cv /\
    at_key (control d') k = Some (map2 (fun (p : pt) (y : R) => (fst p, snd p + y)) cv def) /\ length cv = length def /\
    bspline2 (map2 (fun (p : pt) (y : R) => (fst p, snd p + y)) cv def) (at_key (npoints R (param d)) k) (at_key (degree R (param d)) k) = Ok s /\
    at_key (curve d') k = Some s /\ length (at_key (deformed d') k) = length X /\
    forall j, (j < length X)%nat -> exists p, first_near s (nth j X 0) (at_key tols k) p /\ nth j (at_key (deformed d') k) 0 = snd p.
Proof.
  intros rbf tols d k d' S H X Y def. pose proof (compute_one_frame rbf tols k d) as FR. rewrite H in FR. cbn [fst] in FR.
  pose proof (compute_one_inv sound rbf tols d k) as SD. rewrite H in SD. cbn [fst] in SD.
  assert (SD' : sound d') by (apply SD; auto; intros; apply sound_calls; auto). clear SD. split; auto. split; auto.
  unfold compute_one in H. destruct (compute_control_points d (key_name k) rbf) as [d1 [[]|e]] eqn:E1; cbn [then_do] in H; [|discriminate].
  destruct (control_inv _ _ _ _ _ E1) as [[C _]|(k' & X1 & Y1 & cv & KN & _ & RX & PY & O & D1)]; [congruence|]. apply key_name_inj in KN. subst k'.
  exists d1, cv. assert (C1 : at_key (control d1) k = Some cv) by (rewrite D1; cbn [set_control control]; apply at_same).
  assert (P1 : param d1 = param d) by (rewrite D1; auto).
  destruct (update_control_points d1 (key_name k)) as [d2 [[]|e]] eqn:E2; cbn [then_do] in H; [|discriminate].
  destruct (update_inv _ _ _ _ E2) as [[C _]|(k' & cv' & KN & _ & C1' & LC & D2)]; [congruence|]. apply key_name_inj in KN. subst k'.
  rewrite C1 in C1'. injection C1' as <-. rewrite P1 in LC, D2. fold def in LC, D2.
  set (cv2 := map2 (fun (p : pt) (y : R) => (fst p, snd p + y)) cv def) in *.
  assert (C2 : at_key (control d2) k = Some cv2) by (rewrite D2; cbn [set_control control]; apply at_same).
  assert (P2 : param d2 = param d) by (rewrite D2; auto).
  destruct (generate_spline d2 (key_name k)) as [d3 [[]|e]] eqn:E3; cbn [then_do] in H; [|discriminate].
  destruct (spline_inv _ _ _ _ E3) as [[C _]|(k' & cv' & s & KN & _ & C2' & B & D3)]; [congruence|]. apply key_name_inj in KN. subst k'.
  rewrite C2 in C2'. injection C2' as <-. rewrite P2 in B. exists s.
  assert (S3 : sound d3).
  { assert (S1 : sound d1) by (pose proof (proj1 (sound_calls d S) (key_name k) rbf) as Q; rewrite E1 in Q; auto).
    assert (S2 : sound d2) by (pose proof (proj1 (proj2 (sound_calls d1 S1)) (key_name k)) as Q; rewrite E2 in Q; auto).
    pose proof (proj1 (proj2 (proj2 (sound_calls d2 S2))) (key_name k)) as Q; rewrite E3 in Q; auto. }
  assert (P3 : param d3 = param d) by (rewrite D3; auto).
  assert (CU : at_key (curve d3) k = Some s) by (rewrite D3; cbn [set_curve curve]; apply at_same).
  assert (C3 : at_key (control d3) k = Some cv2) by (rewrite D3; auto).
  destruct (deformed_spec _ _ _ _ _ _ S3 CU H) as (_ & Q1 & Q2 & Q3 & n & Q4 & Q5 & _). rewrite P3 in *. fold X in Q3, Q4, Q5.
  destruct Q4 as [[_ ->]|(Q4 & _)]; [|discriminate].
  repeat split; auto; congruence.
Qed.
Lemma hd_nth : forall (cv : list pt) p, hd_error cv = Some p -> nth 0 cv (0, 0) = p.
Proof. destruct cv; simpl; congruence. Qed.
Lemma compute_one_ends : forall rbf tols d k d', sound d -> compute_one rbf tols d k = (d', Ok tt) ->
  let X := or_empty R (radii R (param d)) in let Y := or_empty R (at_key (parameters R (param d)) k) in
  let def := at_key (deformations R (param d)) k in
  exists s, at_key (curve d') k = Some s /\ hd_error s = Some (nth 0 X 0, nth 0 Y 0 + nth 0 def 0) /\
    (rbf_count rbf <> 1%Z -> (2 <= at_key (npoints R (param d)) k)%Z -> last s (0, 0) = (last X 0, last Y 0 + last def 0)) /\
    nth 0 (at_key (deformed d') k) 0 = nth 0 Y 0 + nth 0 def 0 /\ (0 < at_key tols k).
Proof.
  intros rbf tols d k d' S H X Y def. destruct (compute_one_ok_inv _ _ _ _ _ S H) as (S' & _ & d1 & cv & s & E1 & C1 & C2 & LC & B & CU & LD & DF).
  fold X in LD, DF. fold def in C2, LC, B. set (cv2 := map2 (fun (p : pt) (y : R) => (fst p, snd p + y)) cv def) in *.
  destruct (sound_data d S) as (X0 & RX & XN & K). destruct (K k) as (Y0 & HY & LY & NB & NP & _).
  assert (EX : X = X0) by (unfold X; rewrite RX; auto). assert (EY : Y = Y0) by (unfold Y; rewrite HY; auto).
  destruct (control_ends _ _ _ _ _ _ E1 RX HY) as (_ & _ & _ & cv' & C1' & LN & HD & LA). rewrite C1 in C1'. injection C1' as <-. rewrite <- EX, <- EY in *.
  destruct (bspline2_ends _ _ _ (bspline2_inv _ _ _ _ B)) as (s' & B' & LS & S0 & SL). rewrite B in B'. injection B' as <-.
  exists s. split; auto.
  assert (CN : cv <> []) by (intros ->; discriminate). destruct cv as [|c0 cv]; [congruence|]. destruct def as [|e0 def'] eqn:ED; [discriminate|].
  simpl in HD. injection HD as ->.
  assert (H0 : hd_error s = Some (nth 0 X 0, nth 0 Y 0 + e0)).
  { unfold cv2 in S0. cbn [map2 nth fst snd] in S0. pose proof (bspline2_inv _ _ _ _ B) as (FN & _). destruct s as [|p s]; [simpl in LS; lia|]. simpl in S0. rewrite S0. reflexivity. }
  split; [exact H0|]. split.
  - intros N1 N2. rewrite (SL N2). destruct (Z.eq_dec (rbf_count rbf) 1); [congruence|].
    assert (Q : forall (c : list pt) (v : list R), length c = length v -> c <> [] -> last (map2 (fun (p : pt) (y : R) => (fst p, snd p + y)) c v) (0, 0) = (fst (last c (0, 0)), snd (last c (0, 0)) + last v 0)).
    { clear. induction c as [|a c IH]; destruct v as [|b v]; intros L N; try discriminate; [congruence|]. destruct c as [|a' c]; destruct v as [|b' v]; try discriminate; auto.
      change (last (map2 (fun (p : pt) (y : R) => (fst p, snd p + y)) (a' :: c) (b' :: v)) (0, 0) = (fst (last (a' :: c) (0, 0)), snd (last (a' :: c) (0, 0)) + last (b' :: v) 0)).
      apply IH; [simpl in *; lia|discriminate]. }
    unfold cv2. rewrite Q by (auto; discriminate). rewrite LA. auto.
  - assert (XP : (0 < length X)%nat) by (rewrite EX; destruct X0; [congruence|simpl; lia]).
    destruct (DF 0%nat XP) as (p & (j & P1 & P2 & P3) & P4).
    assert (TP : 0 < at_key tols k) by (eapply Rle_lt_trans; [apply Rabs_pos|exact P2]).
    split; auto. rewrite P4. destruct j as [|j].
    + destruct s as [|q s]; [discriminate|]. simpl in H0, P1. injection H0 as ->. injection P1 as <-. auto.
    + destruct s as [|q s]; [discriminate|]. simpl in H0. injection H0 as ->. specialize (P3 0%nat _ ltac:(lia) eq_refl). cbn [fst] in P3.
      rewrite Rminus_diag_eq, Rabs_R0 in P3 by auto. lra.
Qed.

Lemma compute_list_each : forall rbf tols ks d d', NoDup ks -> sound d -> compute_list rbf tols d ks = (d', Ok tt) ->
  sound d' /\ param d' = param d /\ forall k, In k ks -> exists da db, sound da /\ param da = param d /\ compute_one rbf tols da k = (db, Ok tt) /\ agree k db d'.
Proof.
  intros rbf tols ks. induction ks as [|k ks IH]; intros d d' ND S H; cbn [compute_list] in H.
  - injection H as <-. split; auto. split; auto. intros k [].
  - destruct (compute_one rbf tols d k) as [d1 [[]|e]] eqn:E; cbn [then_do] in H; [|discriminate]. inversion ND; subst.
    destruct (compute_one_ok_inv _ _ _ _ _ S E) as (S1 & [P1 _] & _). destruct (IH _ _ H3 S1 H) as (S' & P' & A). split; auto. split; [congruence|].
    assert (FR : forall j, ~ In j ks -> agree j d1 d').
    { clear - H. revert d1 H. induction ks as [|i ks IHk]; intros d1 H j N; cbn [compute_list] in H.
      - injection H as <-. repeat split.
      - pose proof (compute_one_frame rbf tols i d1) as [_ F]. destruct (compute_one rbf tols d1 i) as [d2 [[]|e]] eqn:E; cbn [then_do] in H; [|discriminate]. cbn [fst] in F.
        destruct (IHk _ H j) as (A & B & C); [simpl in N; tauto|]. destruct (F j) as (A' & B' & C'); [simpl in N; intros ->; tauto|]. repeat split; congruence. }
    intros j [<-|J].
    + exists d, d1. split; auto. 
    + destruct (A j J) as (da & db & A1 & A2 & A3 & A4). exists da, db. split; auto. split; [congruence|]. auto.
Qed.
Lemma compute_all_each : forall rbf tols d d', sound d -> compute_all d rbf tols = (d', Ok tt) ->
  sound d' /\ param d' = param d /\ forall k, exists da db, sound da /\ param da = param d /\ compute_one rbf tols da k = (db, Ok tt) /\ agree k db d'.
Proof.
  intros rbf tols d d' S H. destruct (compute_list_each _ _ _ _ _ keys_nodup S H) as (A & B & C). split; auto. split; auto. intros k. apply C. apply in_keys.
Qed.
Lemma compute_all_values : forall rbf tols d d' k, sound d -> compute_all d rbf tols = (d', Ok tt) ->
  let X := or_empty R (radii R (param d)) in let Y := or_empty R (at_key (parameters R (param d)) k) in let def := at_key (deformations R (param d)) k in
  param d' = param d /\ length (at_key (deformed d') k) = length X /\
  exists s, at_key (curve d') k = Some s /\ hd_error s = Some (nth 0 X 0, nth 0 Y 0 + nth 0 def 0) /\
    (rbf_count rbf <> 1%Z -> (2 <= at_key (npoints R (param d)) k)%Z -> last s (0, 0) = (last X 0, last Y 0 + last def 0)) /\
    nth 0 (at_key (deformed d') k) 0 = nth 0 Y 0 + nth 0 def 0 /\
    (forall j, (j < length X)%nat -> exists p, first_near s (nth j X 0) (at_key tols k) p /\ nth j (at_key (deformed d') k) 0 = snd p).
Proof.
  intros rbf tols d d' k S H X Y def. destruct (compute_all_each _ _ _ _ S H) as (S' & P' & A). destruct (A k) as (da & db & SA & PA & E & (G1 & G2 & G3)).
  destruct (compute_one_ok_inv _ _ _ _ _ SA E) as (SB & _ & d1 & cv & s & _ & _ & _ & _ & _ & CU & LD & DF).
  destruct (compute_one_ends _ _ _ _ _ SA E) as (s' & CU' & H0 & HL & V0 & _). rewrite CU in CU'. injection CU' as <-. rewrite PA in *. fold X in LD, DF, H0, HL. fold Y in H0, HL, V0. fold def in H0, HL, V0.
  split; auto. rewrite <- G1. split; auto. exists s. rewrite <- G3. auto 8.
Qed.
Lemma compute_all_again : forall rbf tols d d', sound d -> compute_all d rbf tols = (d', Ok tt) -> compute_all d' rbf tols = (d', Ok tt).
Proof.
  intros rbf tols d d' S H. destruct (compute_all_each _ _ _ _ S H) as (S' & P' & _). destruct (compute_all_same rbf tols d d' S S' ltac:(congruence)) as [A B].
  rewrite H in A, B. cbn [fst snd] in A, B. specialize (B eq_refl). destruct (compute_all d' rbf tols) as [e o]. cbn [fst snd] in *. congruence.
Qed.

(** compute_all succeeds with generous tolerances. *)
Lemma compute_one_wide : forall rbf tols d k, sound d ->
  let n := at_key (nbasis R (param d)) k in let g := at_key (degree R (param d)) k in let X := or_empty R (radii R (param d)) in
  (2 <= n)%Z -> (0 <= g <= 19)%Z -> (g < n)%Z -> (0 < at_key (npoints R (param d)) k)%Z -> ((0 < rbf_count rbf)%Z -> NoDup X) ->
  (forall r, In r X -> Rabs (nth 0 X 0 - r) < at_key tols k) -> snd (compute_one rbf tols d k) = Ok tt.
Proof.
  intros rbf tols d k S n g X N G GN NP ND T. unfold compute_one.
  pose proof (proj2 (control_success d k rbf S)) as CS. cbv zeta in CS. fold n g in CS. fold X in CS. specialize (CS (conj N (conj G (conj GN ND)))).
  destruct (compute_control_points d (key_name k) rbf) as [d1 o1] eqn:E1. cbn [snd] in CS. subst o1. cbn [then_do].
  pose proof (proj1 (sound_calls d S) (key_name k) rbf) as S1. rewrite E1 in S1. cbn [fst] in S1.
  destruct (sound_data d S) as (X0 & RX & XN & K). destruct (K k) as (Y0 & HY & LY & NB & NBP & _).
  destruct (control_ends _ _ _ _ _ _ E1 RX HY) as ((P1 & _) & _ & _ & cv & C1 & LN & HD & _).
  destruct (update_ok d1 k cv S1 C1) as (d2 & E2 & (P2 & _) & _ & _ & cv2 & C2 & F2 & _). rewrite E2. cbn [then_do].
  pose proof (proj1 (proj2 (sound_calls d1 S1)) (key_name k)) as S2. rewrite E2 in S2. cbn [fst] in S2.
  assert (L2 : length cv2 = length cv) by (pose proof (f_equal (@length R) F2) as Q; rewrite !map_length in Q; exact Q).
  assert (PP : param d2 = param d) by congruence.
  assert (F : fits (length cv2) (at_key (npoints R (param d)) k) g) by (unfold fits; split; auto; split; auto; fold n in LN; lia).
  destruct (bspline2_ends _ _ _ F) as (s & B & LS & S0 & _).
  destruct (generate_spline d2 (key_name k)) as [d3 o3] eqn:E3. pose proof (spline_ok _ _ _ _ _ C2 E3) as Q. cbv zeta in Q. rewrite PP in Q. fold g in Q. rewrite B in Q. destruct Q as [-> D3]. cbn [then_do].
  pose proof (proj1 (proj2 (proj2 (sound_calls d2 S2))) (key_name k)) as S3. rewrite E3 in S3. cbn [fst] in S3.
  assert (CU : at_key (curve d3) k = Some s) by (rewrite D3; cbn [set_curve curve]; apply at_same).
  assert (P3 : param d3 = param d) by (rewrite D3; auto).
  apply (deformed_success d3 k _ s S3 CU). rewrite P3. fold X. intros r I. destruct s as [|p s]; [simpl in LS; lia|]. exists p. split; [left; auto|].
  simpl in S0. assert (FP : fst p = nth 0 X 0).
  { rewrite S0. pose proof (map_nth fst cv2 (0, 0) 0%nat) as Q. rewrite F2 in Q. etransitivity; [symmetry; exact Q|].
    etransitivity; [apply (map_nth fst cv (0, 0))|]. pose proof (hd_nth _ _ HD) as HN. unfold pt in *. rewrite HN. unfold X. rewrite RX. auto. }
  rewrite FP. auto.
Qed.
Lemma compute_list_wide : forall rbf tols ks d, sound d ->
  (forall k, let n := at_key (nbasis R (param d)) k in let g := at_key (degree R (param d)) k in
    (2 <= n)%Z /\ (0 <= g <= 19)%Z /\ (g < n)%Z /\ (0 < at_key (npoints R (param d)) k)%Z) ->
  let X := or_empty R (radii R (param d)) in ((0 < rbf_count rbf)%Z -> NoDup X) -> (forall k r, In r X -> Rabs (nth 0 X 0 - r) < at_key tols k) ->
  snd (compute_list rbf tols d ks) = Ok tt.
Proof.
  intros rbf tols ks. induction ks as [|k ks IH]; intros d S H X ND T; cbn [compute_list]; auto.
  destruct (H k) as (A & B & C & D). pose proof (compute_one_wide rbf tols d k S A B C D ND (T k)) as W.
  destruct (compute_one rbf tols d k) as [d1 o1] eqn:E. cbn [snd] in W. subst o1. cbn [then_do].
  destruct (compute_one_ok_inv _ _ _ _ _ S E) as (S1 & [P1 _] & _). apply IH; auto; rewrite P1; auto.
Qed.
Lemma compute_all_wide : forall rbf tols d, sound d ->
  (forall k, let n := at_key (nbasis R (param d)) k in let g := at_key (degree R (param d)) k in
    (2 <= n)%Z /\ (0 <= g <= 19)%Z /\ (g < n)%Z /\ (0 < at_key (npoints R (param d)) k)%Z) ->
  let X := or_empty R (radii R (param d)) in ((0 < rbf_count rbf)%Z -> NoDup X) -> (forall k r, In r X -> Rabs (nth 0 X 0 - r) < at_key tols k) ->
  exists d', compute_all d rbf tols = (d', Ok tt).
Proof.
  intros rbf tols d S H X ND T. pose proof (compute_list_wide rbf tols keys d S H ND T) as W. unfold compute_all.
  destruct (compute_list rbf tols d keys) as [d' o]. cbn [snd] in W. subst o. eauto.
Qed.

(** A float is truncated, so any value below one switches the resampling off. *)
Lemma resampling_count : forall d k x n, (0 <= n)%Z ->
  IZR n <= x < IZR n + 1 -> compute_control_points d k (Some (PyFloat x)) = compute_control_points d k (Some (PyInt n)).
Proof.
  intros d k x n Hn Hx.
  assert (E : NacaModel.py_int x = n).
  { unfold NacaModel.py_int. pose proof (IZR_le _ _ Hn). destruct (Rlt_dec x 0); [lra|].
    unfold Int_part. rewrite <- (tech_up x (n + 1)); [lia| |]; rewrite plus_IZR; lra. }
  unfold compute_control_points, optimum_control_points. cbn [rbf_count]. rewrite E. reflexivity.
Qed.

Lemma resampling_off : forall d k rbf, rbf = None \/ (exists x, rbf = Some (PyFloat x) /\ x < 1) \/ (exists n, rbf = Some (PyInt n) /\ (n <= 0)%Z) ->
  compute_control_points d k rbf = compute_control_points d k (Some (PyInt 0)).
Proof.
  intros d k rbf H.
  assert (E : (rbf_count rbf <= 0)%Z).
  { destruct H as [->|[(x & -> & H)|(n & -> & H)]]; cbn [rbf_count]; [lia| |auto]. unfold NacaModel.py_int.
    destruct (Rlt_dec x 0) as [L|L].
    - destruct (base_Int_part (- x)) as [B1 B2]. apply le_IZR. rewrite opp_IZR.
      cut (-1 < IZR (Int_part (- x))); [|lra]. intros C. apply (lt_IZR (-1)) in C. assert (C' : (0 <= Int_part (- x))%Z) by lia. apply IZR_le in C'. lra.
    - destruct (base_Int_part x) as [B1 B2]. apply Z.lt_succ_r. apply lt_IZR. rewrite succ_IZR. lra. }
  unfold compute_control_points, optimum_control_points, fit_data. cbn [rbf_count].
  destruct (Z.ltb_spec 0 (rbf_count rbf)); [lia|]. reflexivity.
Qed.
