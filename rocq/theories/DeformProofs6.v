(** Uniqueness of the fitted control points, the abscissae they get, affine
    distributions. *)
From Coq Require Import String Reals List ZArith Ascii Lra Lia.
From Verif Require Import Base ProfileProofs SolveProofs RbfModel BsplineModel BsplineSpec BsplineProofs BsplineProofs2 BsplineProofs3 BsplineProofs4 TextModel ParamsModel ParamsSpec ParamsProofs2 ParamsProofs3
  LstsqProofs DeformModel DeformSpec DeformProofs DeformProofs2 DeformProofs3 DeformProofs4 DeformProofs5.
Import ListNotations.
Open Scope R_scope.

(** Parallelogram law. *)
Lemma sq_mid : forall a b c, List.length a = List.length c -> List.length b = List.length c ->
  sq_dist (map2 (fun p q => 1 / 2 * p + 1 / 2 * q) a b) c = 1 / 2 * sq_dist a c + 1 / 2 * sq_dist b c - 1 / 4 * sq_dist a b.
Proof.
  unfold sq_dist, dot. induction a as [|x a IH]; intros [|y b] [|z c] A B; try discriminate; cbn [map2 fold_right]; try lra.
  cbn in A, B. rewrite IH by lia. lra.
Qed.
Lemma mid_ends : forall (u v : list R), List.length u = List.length v -> nth 0 u 0 = nth 0 v 0 -> last u 0 = last v 0 ->
  let m := map2 (fun p q => 1 / 2 * p + 1 / 2 * q) u v in List.length m = List.length u /\ nth 0 m 0 = nth 0 u 0 /\ last m 0 = last u 0.
Proof.
  intros u v L A B m. assert (N : forall i, nth i m 0 = 1 / 2 * nth i u 0 + 1 / 2 * nth i v 0).
  { unfold m. clear A B m. revert v L. induction u as [|x u IH]; intros [|y v] L [|i]; try discriminate; cbn; try lra. apply IH. cbn in L. lia. }
  assert (LM : List.length m = List.length u) by (unfold m; rewrite map2_length; lia).
  split; auto. split; [rewrite N, A; lra|]. rewrite !last_nth_gen in *. rewrite LM, N. rewrite <- L in B. rewrite B. lra.
Qed.

(** With as many samples as control values nothing else fits as well. *)
Lemma fit_unique : forall g data c v s s', best_fit g data c -> List.length v = List.length c ->
  nth 0 c 0 = nth 0 data 0 -> last c 0 = last data 0 -> nth 0 v 0 = nth 0 data 0 -> last v 0 = last data 0 ->
  (Z.of_nat (List.length c) <= Z.of_nat (List.length data))%Z ->
  bspline1 c (Z.of_nat (List.length data)) g = Ok s -> bspline1 v (Z.of_nat (List.length data)) g = Ok s' ->
  sq_dist s' data <= sq_dist s data -> v = c.
Proof.
  intros g data c v s s' (s0 & S0 & B) L C0 C1 V0 V1 N S S' LE. rewrite S in S0. injection S0 as <-.
  destruct (mid_ends c v ltac:(congruence) ltac:(congruence) ltac:(congruence)) as (LM & M0 & M1).
  pose proof (bspline1_linear c v (1 / 2) (1 / 2) _ _ _ _ (eq_sym L) S S') as SM. set (m := map2 _ c v) in *.
  destruct (B m _ LM ltac:(congruence) ltac:(congruence) SM) as (OPT & _).
  destruct (bspline1_ends _ _ _ _ S) as (L1 & _). destruct (bspline1_ends _ _ _ _ S') as (L2 & _). rewrite Nat2Z.id in *.
  rewrite sq_mid in OPT by auto. pose proof (sq_dist_nonneg s s') as P. assert (s = s') by (apply sq_dist_zero; [congruence|lra]). subst s'.
  refine (bspline1_injective v c _ g s L _ S' S). rewrite L. exact N.
Qed.

(** What a successful fit says, with the resampled data named. *)
Lemma control_data : forall d k rbf d' X Y cv, compute_control_points d (key_name k) rbf = (d', Ok tt) ->
  radii R (param d) = Some X -> at_key (parameters R (param d)) k = Some Y -> at_key (control d') k = Some cv ->
  optimum_control_points X Y (at_key (degree R (param d)) k) (at_key (nbasis R (param d)) k) rbf = Ok cv.
Proof.
  intros d k rbf d' X Y cv H HX HY HC. destruct (control_inv _ _ _ _ _ H) as [[C _]|(k' & X1 & Y1 & cv' & K & _ & E1 & E2 & O & ->)]; [congruence|].
  apply key_name_inj in K. subst k'. rewrite HX in E1. rewrite HY in E2. injection E1 as <-. injection E2 as <-.
  cbn [set_control control] in HC. rewrite at_same in HC. injection HC as ->. exact O.
Qed.
Lemma map_ends : forall (f : pt -> R) cv p q, f (0, 0) = 0 -> hd_error cv = Some p -> last cv (0, 0) = q -> nth 0 (map f cv) 0 = f p /\ last (map f cv) 0 = f q.
Proof.
  intros f cv p q F H L. split.
  - destruct cv; [discriminate|]. injection H as ->. reflexivity.
  - subst q. clear H p. induction cv as [|x cv IH]; [auto|]. destruct cv as [|y cv]; [reflexivity|]. exact IH.
Qed.

(** Equally spaced data are fitted by Greville abscissae. *)
Lemma even_fit : forall g a b n c, (1 <= g)%Z -> (2 <= n)%nat -> fits (List.length c) (Z.of_nat n) g -> (2 <= List.length c)%nat ->
  (Z.of_nat (List.length c) <= Z.of_nat n)%Z ->
  best_fit g (linspace a b n) c -> nth 0 c 0 = a -> last c 0 = b -> c = even_control (List.length c) (Z.to_nat g) a b.
Proof.
  intros g a b n c G N F C2 M B A1 A2. pose proof (even_curve (List.length c) (Z.of_nat n) g a b F G ltac:(lia)) as E. rewrite Nat2Z.id in E.
  pose proof B as (s & S & _). destruct (linspace_ends a b n N) as (E1 & E2). pose proof (linspace_length a b n) as LL.
  destruct (bspline1_ends _ _ _ _ E) as (_ & H0 & H1). specialize (H1 ltac:(lia)). symmetry.
  rewrite <- LL in M.
  refine (fit_unique g (linspace a b n) c _ s (linspace a b n) B (even_length _ _ _ _) _ _ _ _ M S _ _); try congruence.
  rewrite sq_dist_self. apply sq_dist_nonneg.
Qed.

Lemma resampled_abscissae : forall d k rbf d' X Y cv, compute_control_points d (key_name k) rbf = (d', Ok tt) ->
  radii R (param d) = Some X -> at_key (parameters R (param d)) k = Some Y -> at_key (control d') k = Some cv ->
  let g := at_key (degree R (param d)) k in let n := at_key (nbasis R (param d)) k in
  (1 <= g)%Z -> (n <= rbf_count rbf)%Z ->
  map fst cv = even_control (Z.to_nat n) (Z.to_nat g) (nth 0 X 0) (last X 0).
Proof.
  intros d k rbf d' X Y cv H HX HY HC g n G M. pose proof (control_data _ _ _ _ _ _ _ H HX HY HC) as O. fold g n in O.
  destruct (optimum_inv _ _ _ _ _ _ O) as (X' & Y' & FD & LY & NB & F & LC & HD & LA & B1 & B2).
  assert (P : (2 <= rbf_count rbf)%Z) by (destruct F as (_ & ? & ?); assert (1 <= n - g)%Z by lia; nia).
  destruct (fit_data_spec _ _ _ _ _ FD) as [_ Q]. destruct (Q ltac:(lia)) as (_ & _ & _ & EX & _ & LX & LYY & Q1 & Q2 & Q3). destruct (Q3 P) as (Q4 & Q5).
  destruct (map_ends fst cv _ _ eq_refl HD LA) as (A1 & A2). cbn [fst] in A1, A2.
  assert (LM : List.length (map fst cv) = Z.to_nat n) by (rewrite map_length, <- LC, Nat2Z.id; reflexivity).
  rewrite EX in B1. rewrite <- LM. refine (even_fit g _ _ (Z.to_nat (rbf_count rbf)) _ G _ _ _ _ B1 (eq_trans A1 Q1) (eq_trans A2 Q4)); try rewrite LM.
  - lia.
  - rewrite LX in F. exact F.
  - lia.
  - destruct F as (_ & ? & ?). rewrite !Z2Nat.id by lia. exact M.
Qed.
Lemma control_unique : forall d k rbf d' X Y cv, compute_control_points d (key_name k) rbf = (d', Ok tt) ->
  radii R (param d) = Some X -> at_key (parameters R (param d)) k = Some Y -> at_key (control d') k = Some cv ->
  let g := at_key (degree R (param d)) k in let n := at_key (nbasis R (param d)) k in
  ((rbf_count rbf <= 0)%Z -> (n <= Z.of_nat (List.length X))%Z -> only_fit g X (map fst cv) /\ only_fit g Y (map snd cv)) /\
  ((0 < rbf_count rbf)%Z -> (n <= rbf_count rbf)%Z ->
     let xx := linspace (nth 0 X 0) (last X 0) (Z.to_nat (rbf_count rbf)) in
     exists yy, reconstruct_1d X Y xx (zeros (Z.to_nat (rbf_count rbf))) "beckert_wendland_c2_basis" 2 = Ok yy /\
     only_fit g xx (map fst cv) /\ only_fit g yy (map snd cv)).
Proof.
  intros d k rbf d' X Y cv H HX HY HC g n. pose proof (control_data _ _ _ _ _ _ _ H HX HY HC) as O. fold g n in O.
  destruct (optimum_inv _ _ _ _ _ _ O) as (X' & Y' & FD & LY & NB & F & LC & HD & LA & B1 & B2).
  destruct (map_ends fst cv _ _ eq_refl HD LA) as (A1 & A2). destruct (map_ends snd cv _ _ eq_refl HD LA) as (A3 & A4). cbn [fst snd] in A1, A2, A3, A4.
  assert (U : (n <= Z.of_nat (List.length X'))%Z -> only_fit g X' (map fst cv) /\ only_fit g Y' (map snd cv)).
  { intros M. split; intros v s s' L V0 V1 S S' LE.
    - refine (fit_unique g X' (map fst cv) v s s' B1 L A1 A2 V0 V1 _ S S' LE). rewrite map_length. unfold pt in *. rewrite LC. exact M.
    - refine (fit_unique g Y' (map snd cv) v s s' B2 L A3 A4 V0 V1 _ S S' LE). rewrite map_length. unfold pt in *. rewrite LC, LY. exact M. }
  destruct (fit_data_spec _ _ _ _ _ FD) as [P Q]. split; intros N M.
  - destruct (P N) as [-> ->]. auto.
  - destruct (Q N) as (_ & _ & _ & EX & RC & LX & _). intros xx. fold xx in EX. subst X'. exists Y'. split; auto. apply U. rewrite LX. lia.
Qed.

(** ** The curve then runs over equally spaced radii *)
Lemma even_samples : forall c cv npoints degree s a b, bspline2 cv npoints degree = Ok s -> map fst cv = even_control c (Z.to_nat degree) a b ->
  (1 <= degree)%Z -> (2 <= npoints)%Z -> map fst s = linspace a b (Z.to_nat npoints).
Proof.
  intros c cv np dg s a b H E G N. unfold bspline2 in H. apply bind_ok in H. destruct H as (xs & EX & H). apply bind_ok in H. destruct H as (ys & EY & H). injection H as <-.
  pose proof (bspline1_inv _ _ _ _ EX) as F. rewrite E in EX, F. rewrite even_length in F. rewrite (even_curve c np dg a b F G N) in EX. injection EX as <-.
  destruct (bspline1_ends _ _ _ _ EY) as (LY & _). apply map_fst_combine. rewrite linspace_length. congruence.
Qed.

Lemma in_even : forall (s : list pt) xs r tol, map fst s = xs -> ((exists p, In p s /\ Rabs (fst p - r) < tol) <-> (exists x, In x xs /\ Rabs (x - r) < tol)).
Proof.
  intros s xs r tol <-. split.
  - intros (p & I & L). exists (fst p). split; auto. apply in_map_iff. eauto.
  - intros (x & I & L). apply in_map_iff in I. destruct I as (p & <- & I). eauto.
Qed.

Lemma compute_one_even : forall rbf tols d k, sound d -> resampled d rbf k -> let X := or_empty R (radii R (param d)) in NoDup X ->
  let xs := linspace (nth 0 X 0) (last X 0) (Z.to_nat (at_key (npoints R (param d)) k)) in
  (snd (compute_one rbf tols d k) = Ok tt <-> forall r, In r X -> exists x, In x xs /\ Rabs (x - r) < at_key tols k) /\
  (snd (compute_one rbf tols d k) = Ok tt -> exists s, at_key (curve (fst (compute_one rbf tols d k))) k = Some s /\ map fst s = xs).
Proof.
  intros rbf tols d k S (G & GN & NP & M) X ND xs. set (n := at_key (nbasis R (param d)) k) in *. set (g := at_key (degree R (param d)) k) in *.
  unfold compute_one.
  pose proof (proj2 (control_success d k rbf S)) as CS. cbv zeta in CS. fold n g in CS. fold X in CS. assert (CS' : snd (compute_control_points d (key_name k) rbf) = Ok tt) by (apply CS; split; [lia|]; split; [lia|]; split; auto). clear CS. rename CS' into CS.
  destruct (compute_control_points d (key_name k) rbf) as [d1 o1] eqn:E1. cbn [snd] in CS. subst o1. cbn [then_do].
  pose proof (proj1 (sound_calls d S) (key_name k) rbf) as S1. rewrite E1 in S1. cbn [fst] in S1.
  destruct (sound_data d S) as (X0 & RX & XN & K). destruct (K k) as (Y0 & HY & LY & NB & NBP & _).
  destruct (control_ends _ _ _ _ _ _ E1 RX HY) as ((P1 & _) & _ & _ & cv & C1 & LN & HD & _).
  pose proof (resampled_abscissae _ _ _ _ _ _ _ E1 RX HY C1) as AB. cbv zeta in AB. fold g n in AB. specialize (AB ltac:(lia) M).
  destruct (update_ok d1 k cv S1 C1) as (d2 & E2 & (P2 & _) & _ & _ & cv2 & C2 & F2 & _). rewrite E2. cbn [then_do].
  pose proof (proj1 (proj2 (sound_calls d1 S1)) (key_name k)) as S2. rewrite E2 in S2. cbn [fst] in S2.
  assert (L2 : length cv2 = length cv) by (pose proof (f_equal (@length R) F2) as Q; rewrite !map_length in Q; exact Q).
  assert (PP : param d2 = param d) by congruence.
  assert (F : fits (length cv2) (at_key (npoints R (param d)) k) g) by (unfold fits; split; [lia|]; split; [lia|]; fold n in LN; lia).
  destruct (bspline2_ends _ _ _ F) as (s & B & LS & S0 & _).
  pose proof (even_samples _ _ _ _ _ _ _ B (eq_trans F2 AB) ltac:(lia) NP) as XS.
  replace (linspace _ _ _) with xs in XS by (unfold xs, X; rewrite RX; reflexivity).
  destruct (generate_spline d2 (key_name k)) as [d3 o3] eqn:E3. pose proof (spline_ok _ _ _ _ _ C2 E3) as Q. cbv zeta in Q. rewrite PP in Q. fold g in Q. rewrite B in Q. destruct Q as [-> D3]. cbn [then_do].
  pose proof (proj1 (proj2 (proj2 (sound_calls d2 S2))) (key_name k)) as S3. rewrite E3 in S3. cbn [fst] in S3.
  assert (CU : at_key (curve d3) k = Some s) by (rewrite D3; cbn [set_curve curve]; apply at_same).
  assert (P3 : param d3 = param d) by (rewrite D3; auto).
  split.
  - rewrite (deformed_success d3 k _ s S3 CU). rewrite P3. fold X. split; intros H r I; apply (in_even s xs r _ XS); auto.
  - intros _. exists s. split; auto. destruct (compute_deformed_parameters d3 (key_name k) (at_key tols k)) as [d4 o4] eqn:E4.
    destruct (deformed_spec _ _ _ _ _ _ S3 CU E4) as (_ & _ & CU4 & _). cbn [fst]. congruence.
Qed.

Lemma compute_list_even : forall rbf tols ks d, NoDup ks -> sound d -> (forall k, In k ks -> resampled d rbf k) -> let X := or_empty R (radii R (param d)) in NoDup X ->
  let xs k := linspace (nth 0 X 0) (last X 0) (Z.to_nat (at_key (npoints R (param d)) k)) in
  snd (compute_list rbf tols d ks) = Ok tt <-> forall k r, In k ks -> In r X -> exists x, In x (xs k) /\ Rabs (x - r) < at_key tols k.
Proof.
  intros rbf tols. induction ks as [|k ks IH]; intros d NK S H X ND xs; cbn [compute_list]; [split; auto; intros _ ? ? []|].
  inversion NK as [|? ? NI NK']; subst. destruct (compute_one_even rbf tols d k S (H k (or_introl eq_refl)) ND) as (A & _). fold X in A. fold (xs k) in A.
  destruct (compute_one rbf tols d k) as [d1 o1] eqn:E. cbn [snd] in A. destruct o1 as [[]|e]; cbn [then_do].
  - destruct (compute_one_ok_inv _ _ _ _ _ S E) as (S1 & [P1 _] & _).
    assert (H1 : forall j, In j ks -> resampled d1 rbf j) by (intros j J; unfold resampled; rewrite P1; apply H; right; auto).
    assert (ND1 : NoDup (or_empty R (radii R (param d1)))) by (rewrite P1; exact ND).
    rewrite (IH d1 NK' S1 H1 ND1). rewrite P1. fold X. split.
    + intros Q j r [<-|J] I; [apply A; auto|apply Q; auto].
    + intros Q j r J I. apply Q; auto. right; auto.
  - cbn [snd]. split; [discriminate|]. intros Q. exfalso. assert (C : Err e = Ok tt) by (apply A; intros; apply Q; auto; left; auto). discriminate.
Qed.
Lemma compute_all_even : forall rbf tols d, sound d -> (forall k, resampled d rbf k) -> let X := or_empty R (radii R (param d)) in NoDup X ->
  let xs k := linspace (nth 0 X 0) (last X 0) (Z.to_nat (at_key (npoints R (param d)) k)) in
  (snd (compute_all d rbf tols) = Ok tt <-> forall k r, In r X -> exists x, In x (xs k) /\ Rabs (x - r) < at_key tols k).
Proof.
  intros rbf tols d S H X ND xs. unfold compute_all. rewrite (compute_list_even rbf tols keys d keys_nodup S (fun k _ => H k) ND). fold X. split; intros Q k r; intros; apply Q; auto. apply in_keys.
Qed.
Lemma compute_all_even_curve : forall rbf tols d d' k, sound d -> resampled d rbf k -> compute_all d rbf tols = (d', Ok tt) ->
  let X := or_empty R (radii R (param d)) in
  exists s, at_key (curve d') k = Some s /\ map fst s = linspace (nth 0 X 0) (last X 0) (Z.to_nat (at_key (npoints R (param d)) k)).
Proof.
  intros rbf tols d d' k S H E X. destruct (compute_all_each _ _ _ _ S E) as (S' & P' & A). destruct (A k) as (da & db & SA & PA & E1 & (G1 & G2 & G3)).
  assert (HA : resampled da rbf k) by (unfold resampled in *; rewrite PA; auto).
  assert (ND : NoDup (or_empty R (radii R (param da)))).
  { destruct (compute_one_ok_inv _ _ _ _ _ SA E1) as (_ & _ & d1 & cv & s & C & _). apply (proj1 (control_success da k rbf SA)); [rewrite C; auto|].
    destruct H as (? & ? & ? & ?). nia. }
  destruct (compute_one_even rbf tols da k SA HA ND) as (_ & Q). rewrite E1 in Q. cbn [fst snd] in Q. destruct (Q eq_refl) as (s & C & M).
  exists s. rewrite <- G3. rewrite PA in M. auto.
Qed.

(** Radii between the first and the last one, steps below twice the tolerance. *)
Lemma linspace_near : forall a b n r tol, (2 <= n)%nat -> Rmin a b <= r <= Rmax a b -> Rabs (b - a) / INR (n - 1) < 2 * tol ->
  exists x, In x (linspace a b n) /\ Rabs (x - r) < tol.
Proof.
  intros a b n r tol N RR ST. set (q := INR (n - 1)) in *. assert (Q : 0 < q) by (apply lt_0_INR; lia).
  assert (IN : forall i, (i <= n - 1)%nat -> In (a + INR i * ((b - a) / q)) (linspace a b n)).
  { intros i I. unfold linspace. apply in_map_iff. exists i. split; auto. apply in_seq. lia. }
  (* walk along until [r] is passed *)
  assert (W : forall m, (m <= n - 1)%nat -> (exists i, (i < m)%nat /\ Rmin (a + INR i * ((b - a) / q)) (a + INR (S i) * ((b - a) / q)) <= r <= Rmax (a + INR i * ((b - a) / q)) (a + INR (S i) * ((b - a) / q))) \/
    ~ (Rmin a (a + INR m * ((b - a) / q)) <= r <= Rmax a (a + INR m * ((b - a) / q))) \/ r = a).
  { induction m; intros M.
    - right. destruct (Req_dec r a); auto. left. simpl. rewrite Rmult_0_l, Rplus_0_r. rewrite Rmin_left, Rmax_left by lra. lra.
    - destruct (IHm ltac:(lia)) as [(i & I & Z)|[Z|Z]]; [left; exists i; split; auto; lia| |auto].
      destruct (Rle_dec (Rmin a (a + INR (S m) * ((b - a) / q))) r) as [L1|L1]; [|right; left; lra].
      destruct (Rle_dec r (Rmax a (a + INR (S m) * ((b - a) / q)))) as [L2|L2]; [|right; left; lra].
      left. exists m. split; auto. set (u := a + INR m * ((b - a) / q)) in *. set (v := a + INR (S m) * ((b - a) / q)) in *.
      unfold Rmin, Rmax in *. destruct (Rle_dec a u), (Rle_dec a v), (Rle_dec u v); lra. }
  destruct (W (n - 1)%nat ltac:(lia)) as [(i & I & Z)|[Z|Z]].
  - set (h := (b - a) / q) in *. assert (HH : Rabs h < 2 * tol).
    { unfold h. unfold Rdiv. rewrite Rabs_mult, (Rabs_right (/ q)); auto. left. apply Rinv_0_lt_compat. auto. }
    pose proof (IN i ltac:(lia)) as I1. pose proof (IN (S i) ltac:(lia)) as I2. rewrite S_INR in *.
    set (u := a + INR i * h) in *. replace (a + (INR i + 1) * h) with (u + h) in * by (unfold u; ring).
    destruct (Rlt_dec (Rabs (u - r)) tol) as [L|L]; [exists u; auto|]. exists (u + h). split; auto.
    unfold Rmin, Rmax, Rabs in *. destruct (Rle_dec u (u + h)), (Rcase_abs h), (Rcase_abs (u - r)), (Rcase_abs (u + h - r)); lra.
  - exfalso. apply Z. fold q. replace (a + q * ((b - a) / q)) with b by (field; lra). auto.
  - exists a. split; [|rewrite Z, Rminus_diag_eq, Rabs_R0 by auto].
    + replace a with (a + INR 0 * ((b - a) / q)) at 1 by (simpl; ring). apply IN. lia.
    + pose proof (Rabs_pos (b - a)). assert (0 <= Rabs (b - a) / q) by (apply Rmult_le_pos; auto; left; apply Rinv_0_lt_compat; auto). lra.
Qed.
Lemma compute_all_fine : forall rbf tols d, sound d -> (forall k, resampled d rbf k) -> let X := or_empty R (radii R (param d)) in NoDup X ->
  (forall r, In r X -> Rmin (nth 0 X 0) (last X 0) <= r <= Rmax (nth 0 X 0) (last X 0)) ->
  (forall k, Rabs (last X 0 - nth 0 X 0) / IZR (at_key (npoints R (param d)) k - 1) < 2 * at_key tols k) ->
  exists d', compute_all d rbf tols = (d', Ok tt).
Proof.
  intros rbf tols d S H X ND B T. pose proof (proj2 (compute_all_even rbf tols d S H ND)) as Q. fold X in Q.
  destruct (compute_all d rbf tols) as [d' o]. exists d'. cbn [snd] in Q. f_equal. apply Q. intros k r I.
  destruct (H k) as (_ & _ & NP & _). apply linspace_near; auto; [lia|].
  replace (INR (Z.to_nat (at_key (npoints R (param d)) k) - 1)) with (IZR (at_key (npoints R (param d)) k - 1)); [apply T|].
  rewrite INR_IZR_INZ. f_equal. lia.
Qed.

(** ** Affine distributions, no resampling *)
Lemma bspline1_affine : forall u np dg s a b, bspline1 u np dg = Ok s -> bspline1 (map (fun x => a * x + b) u) np dg = Ok (map (fun x => a * x + b) s).
Proof.
  intros u np dg s a b H. pose proof (bspline1_inv _ _ _ _ H) as F. rewrite bspline1_ok in H by auto. injection H as <-.
  rewrite bspline1_ok by (rewrite map_length; auto). rewrite map_length, map_map. f_equal. apply map_ext_in. intros i I. apply in_seq in I. destruct F as (F1 & F2 & F3).
  pose proof (spline_comb u (fun x => x) (fun x => x) a 0 b (Z.to_nat dg) (sample (List.length u) (Z.to_nat dg) (Z.to_nat np) i) F3 ltac:(apply sample_range; lia)) as C.
  rewrite map_id in C. rewrite (map_ext (fun x => a * x + b) (fun p => a * p + 0 * p + b)) by (intros; ring). rewrite C. ring.
Qed.
Lemma affine_dist : forall a b u v, sq_dist (map (fun x => a * x + b) u) (map (fun x => a * x + b) v) = a * a * sq_dist u v.
Proof. intros a b. unfold sq_dist, dot. induction u as [|x u IH]; intros [|y v]; cbn [map map2 fold_right]; try lra. rewrite IH. ring. Qed.
Lemma affine_ends : forall a b (l : list R), l <> [] -> nth 0 (map (fun x => a * x + b) l) 0 = a * nth 0 l 0 + b /\ last (map (fun x => a * x + b) l) 0 = a * last l 0 + b.
Proof.
  intros a b l N. split; [destruct l; [congruence|reflexivity]|]. induction l as [|x l IH]; [congruence|]. destruct l as [|y l]; [reflexivity|]. apply IH. discriminate.
Qed.

Lemma affine_control : forall d k rbf d' X Y cv a b, compute_control_points d (key_name k) rbf = (d', Ok tt) ->
  radii R (param d) = Some X -> at_key (parameters R (param d)) k = Some Y -> at_key (control d') k = Some cv -> (rbf_count rbf <= 0)%Z ->
  let g := at_key (degree R (param d)) k in let n := at_key (nbasis R (param d)) k in
  (n <= Z.of_nat (List.length X))%Z -> Y = map (fun x => a * x + b) X -> map snd cv = map (fun x => a * x + b) (map fst cv).
Proof.
  intros d k rbf d' X Y cv a b H HX HY HC N g n M EY. pose proof (control_data _ _ _ _ _ _ _ H HX HY HC) as O. fold g n in O.
  destruct (optimum_inv _ _ _ _ _ _ O) as (X' & Y' & FD & LY & NB & F & LC & HD & LA & B1 & B2).
  destruct (fit_data_spec _ _ _ _ _ FD) as [Q _]. destruct (Q N) as [-> ->]. clear Q.
  destruct (map_ends fst cv _ _ eq_refl HD LA) as (A1 & A2). destruct (map_ends snd cv _ _ eq_refl HD LA) as (A3 & A4). cbn [fst snd] in A1, A2, A3, A4.
  assert (L1 : Z.of_nat (List.length (map fst cv)) = n) by (rewrite map_length; exact LC). assert (L2 : Z.of_nat (List.length (map snd cv)) = n) by (rewrite map_length; exact LC).
  set (xs := map fst cv) in *. set (ys := map snd cv) in *.
  change (nth 0 xs 0 = nth 0 X 0) in A1. change (last xs 0 = last X 0) in A2. change (nth 0 ys 0 = nth 0 Y 0) in A3. change (last ys 0 = last Y 0) in A4. clearbody xs ys.
  assert (NX : X <> []) by (intros ->; destruct F as (F0 & _); cbn in F0; lia).
  assert (Nx : xs <> []) by (intros ->; cbn in L1; lia). assert (Ny : ys <> []) by (intros ->; cbn in L2; lia).
  destruct (affine_ends a b X NX) as (X0 & X1). destruct (affine_ends a b xs Nx) as (x0 & x1). rewrite <- EY in X0, X1.
  pose proof B1 as (sx & SX & O1). pose proof B2 as (sy & SY & _). rewrite LY in SY.
  pose proof (bspline1_affine _ _ _ _ a b SX) as SV. symmetry.
  refine (fit_unique g Y ys (map (fun x => a * x + b) xs) sy (map (fun x => a * x + b) sx) B2 _ A3 A4 _ _ _ _ _ _); try rewrite LY; auto; try congruence.
  - rewrite map_length. lia.
  - rewrite EY at 1. rewrite affine_dist. destruct (Req_dec a 0) as [->|NA].
    + rewrite !Rmult_0_l. apply sq_dist_nonneg.
    + pose proof (bspline1_affine _ _ _ _ (/ a) (- b / a) SY) as SU.
      destruct (affine_ends (/ a) (- b / a) ys Ny) as (y0 & y1).
      assert (INV : forall z, / a * (a * z + b) + - b / a = z) by (intros; field; auto).
      assert (LU : List.length (map (fun x => / a * x + - b / a) ys) = List.length xs) by (rewrite map_length; lia).
      destruct (O1 _ _ LU ltac:(rewrite y0, A3, X0; apply INV) ltac:(rewrite y1, A4, X1; apply INV) SU) as (LE & _).
      assert (EX : X = map (fun x => / a * x + - b / a) Y) by (rewrite EY, map_map; rewrite (map_ext _ (fun x => x)) by (intros; apply INV); symmetry; apply map_id).
      rewrite EX in LE at 2. rewrite affine_dist in LE.
      apply Rmult_le_compat_l with (r := a * a) in LE; [|nra]. replace (a * a * (/ a * / a * sq_dist sy Y)) with (sq_dist sy Y) in LE by (field; auto). exact LE.
Qed.

Lemma affine_values : forall rbf tols d d' k X Y a b, sound d -> compute_all d rbf tols = (d', Ok tt) ->
  radii R (param d) = Some X -> at_key (parameters R (param d)) k = Some Y -> (rbf_count rbf <= 0)%Z ->
  let g := at_key (degree R (param d)) k in let n := at_key (nbasis R (param d)) k in
  (n <= Z.of_nat (List.length X))%Z -> Y = map (fun x => a * x + b) X -> Forall (fun x => x = 0) (at_key (deformations R (param d)) k) ->
  forall j, (j < List.length X)%nat -> Rabs (nth j (at_key (deformed d') k) 0 - nth j Y 0) <= Rabs a * at_key tols k.
Proof.
  intros rbf tols d d' k X Y a b S E HX HY N g n M EY Z j J.
  destruct (compute_all_each _ _ _ _ S E) as (S' & P' & A). destruct (A k) as (da & db & SA & PA & E1 & (G1 & G2 & G3)).
  destruct (compute_one_ok_inv _ _ _ _ _ SA E1) as (_ & _ & d1 & cv & s & C & CC & _ & LD & BS & _ & _ & V).
  rewrite PA in *. unfold g, n in M. pose proof (affine_control da k rbf d1 X Y cv a b C) as AC. rewrite PA in AC. specialize (AC HX HY CC N M EY).
  assert (ID : map2 (fun (p : pt) (y : R) => (fst p, snd p + y)) cv (at_key (deformations R (param d)) k) = cv).
  { revert LD Z. clear. intros LD Z. revert cv LD. induction Z as [|y l -> _ IH]; intros [|p cv] L; try discriminate; auto. cbn [map2]. cbn in L. apply (f_equal2 cons).
    - destruct p as [x y]. cbn [fst snd]. rewrite Rplus_0_r. reflexivity.
    - apply IH. lia. }
  rewrite ID in BS. rewrite HX in V. cbn [or_empty] in V. destruct (V j J) as (p & (i & NI & NR & _) & VP). rewrite G1 in VP. rewrite VP.
  assert (ON : forall q, In q cv -> (- a) * fst q + 1 * snd q = b).
  { clear -AC. induction cv as [|q cv IH]; intros r I; [destruct I|]. cbn in AC. injection AC as A1 A2. destruct I as [<-|I]; [rewrite A1; ring|auto]. }
  pose proof (bspline2_line _ _ _ _ (- a) 1 b BS ON p (nth_error_In _ _ NI)) as PL.
  assert (YJ : nth j Y 0 = a * nth j X 0 + b).
  { rewrite EY. rewrite (nth_indep _ 0 (a * 0 + b)) by (rewrite map_length; auto). apply (map_nth (fun x => a * x + b)). }
  rewrite YJ. replace (snd p - (a * nth j X 0 + b)) with (a * (fst p - nth j X 0)) by lra. rewrite Rabs_mult. apply Rmult_le_compat_l; [apply Rabs_pos|lra].
Qed.
