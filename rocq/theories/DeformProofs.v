(** The control points computed by [optimum_control_points]. *)
From Coq Require Import String Reals List ZArith Bool Lra Lia.
From Verif Require Import Base ProfileProofs RbfModel RbfProofs RbfProofs2 SolveModel SolveProofs BsplineModel BsplineSpec BsplineProofs BsplineProofs2
  LstsqModel LstsqSpec LstsqProofs TextModel ParamsModel ParamsSpec DeformModel DeformSpec.
Import ListNotations.
Open Scope R_scope.

Lemma one_hot_unit : forall n i, one_hot n i = unit_vec n i.
Proof.
  intros. unfold one_hot, unit_vec. apply map_ext. intros j. destruct (Nat.eq_dec j i) as [->|N]; [rewrite Nat.eqb_refl; auto|].
  apply Nat.eqb_neq in N. rewrite N. auto.
Qed.
Lemma mapM_total : forall A B (f : A -> res B) g l, (forall x, In x l -> f x = Ok (g x)) -> mapM f l = Ok (map g l).
Proof. induction l; simpl; intros; auto. rewrite H by auto. cbn [bind]. rewrite IHl by auto. auto. Qed.
Lemma nth_map2 : forall (f : R -> R -> R) u v i, length u = length v -> (i < length u)%nat -> nth i (map2 f u v) 0 = f (nth i u 0) (nth i v 0).
Proof. induction u; destruct v; destruct i; simpl; intros; try lia; auto. apply IHu; lia. Qed.
Lemma sumn_shift : forall n f, sumn (S n) f = f 0%nat + sumn n (fun i => f (S i)).
Proof. induction n; intros; simpl; [ring|]. simpl in IHn. rewrite IHn. ring. Qed.
Lemma comb_nth : forall m w vs i, Forall (fun v => length v = m) vs -> length w = length vs -> (i < m)%nat ->
  nth i (comb m w vs) 0 = sumn (length vs) (fun j => nth j w 0 * nth i (nth j vs []) 0).
Proof.
  induction w as [|a w IH]; intros vs i H L I; destruct vs as [|v vs]; try discriminate; cbn [comb].
  - unfold zeros. rewrite nth_repeat. auto.
  - inversion H; subst. cbn [length]. rewrite sumn_shift. rewrite nth_map2.
    2:{ rewrite vscale_length, comb_length; auto. } 2:{ rewrite vscale_length; auto. }
    rewrite IH by (auto; simpl in L; lia). unfold vscale. rewrite (nth_mapd _ _ _ _ i 0) by auto. simpl. ring.
Qed.

(** The columns of the design matrix, and curves as their combinations. *)
Definition design (n m k : nat) : list (list R) :=
  map (fun j => map (fun i => basis_fun n k j (sample n k m i)) (seq 0 m)) (seq 0 n).
Lemma design_lengths : forall n m k, length (design n m k) = n /\ Forall (fun v => length v = m) (design n m k).
Proof.
  intros. unfold design. split; [rewrite map_length, seq_length; auto|]. rewrite Forall_map. apply Forall_forall. intros.
  rewrite map_length, seq_length. auto.
Qed.
Lemma design_ok : forall n m degree, fits n (Z.of_nat m) degree ->
  mapM (fun i => bspline1 (one_hot n i) (Z.of_nat m) degree) (seq 0 n) = Ok (design n m (Z.to_nat degree)).
Proof.
  intros n m dg F. apply mapM_total. intros j J. apply in_seq in J. rewrite one_hot_unit.
  rewrite bspline1_ok by (rewrite unit_vec_length; auto). rewrite unit_vec_length, Nat2Z.id. f_equal. apply map_ext_in. intros i I.
  apply spline_unit. lia.
Qed.
Lemma design_curve : forall v m degree, fits (length v) (Z.of_nat m) degree ->
  bspline1 v (Z.of_nat m) degree = Ok (comb m v (design (length v) m (Z.to_nat degree))).
Proof.
  intros v m dg F. rewrite bspline1_ok by auto. f_equal. rewrite Nat2Z.id. set (k := Z.to_nat dg). set (n := length v).
  destruct (design_lengths n m k) as [L1 L2]. apply (nth_ext _ _ 0 0).
  - rewrite map_length, seq_length, comb_length; auto.
  - intros i. rewrite map_length, seq_length. intros I. rewrite comb_nth by auto. rewrite L1.
    rewrite (nth_mapd _ _ _ _ i 0%nat) by (rewrite seq_length; auto). rewrite seq_nth by auto. cbn [Nat.add].
    unfold spline_value. fold n. apply sumn_ext. intros j J. f_equal. unfold design.
    rewrite (nth_mapd _ _ _ _ j 0%nat) by (rewrite seq_length; auto). rewrite seq_nth by auto.
    rewrite (nth_mapd _ _ _ _ i 0%nat) by (rewrite seq_length; auto). rewrite seq_nth by auto. auto.
Qed.

Lemma comb_app : forall m w1 v1 w2 v2, length w1 = length v1 -> Forall (fun v => length v = m) v1 -> Forall (fun v => length v = m) v2 ->
  comb m (w1 ++ w2) (v1 ++ v2) = map2 Rplus (comb m w1 v1) (comb m w2 v2).
Proof.
  induction w1 as [|a w1 IH]; intros v1 w2 v2 L F1 F2; destruct v1 as [|v v1]; try discriminate; cbn [app comb].
  - apply dot_ext; [rewrite map2_length; rewrite zeros_length, ?comb_length; auto|]. intros z _. rewrite dot_vadd_l by (rewrite zeros_length, comb_length; auto).
    rewrite dot_zeros_l. ring.
  - inversion F1; subst. rewrite IH by (auto; simpl in L; lia).
    assert (A : forall a b c : list R, length a = length b -> length b = length c -> map2 Rplus a (map2 Rplus b c) = map2 Rplus (map2 Rplus a b) c).
    { clear. induction a; destruct b; destruct c; simpl; intros; try discriminate; auto. f_equal; [ring|]. apply IHa; lia. }
    apply A; rewrite ?vscale_length, !comb_length; auto.
Qed.

Lemma removelast_mid : forall (A : Type) (l : list A), (2 <= length l)%nat -> exists a m b, l = a :: m ++ [b] /\ removelast (tl l) = m.
Proof.
  intros A l H. destruct l as [|a l]; [simpl in H; lia|]. destruct (exists_last (l := l)) as (m & b & ->); [intros ->; simpl in H; lia|].
  exists a, m, b. split; auto. simpl. apply removelast_last.
Qed.
Lemma final_last : forall A (l : list A) b, final (l ++ [b]) = Ok b.
Proof. induction l as [|a l IH]; intros b; auto. change ((a :: l) ++ [b]) with (a :: (l ++ [b])). cbn [final]. rewrite IH. destruct (l ++ [b]) eqn:E; auto. destruct l; discriminate. Qed.
Lemma final_nth : forall (l : list R) x, final l = Ok x -> last l 0 = x.
Proof.
  intros l x. destruct l using rev_ind; [discriminate|]. rewrite final_last, last_last. congruence.
Qed.
Lemma first_nth : forall (l : list R) x, first l = Ok x -> nth 0 l 0 = x.
Proof. destruct l; simpl; congruence. Qed.
Lemma vzip_inv : forall A B C (f : A -> B -> C) a b r, vzip f a b = Ok r -> length a = length b /\ r = map2 f a b.
Proof. intros A B C f a b r. unfold vzip. destruct (Nat.eqb_spec (length a) (length b)); [|discriminate]. intros H; injection H as <-; auto. Qed.
Lemma vzip_ok : forall A B C (f : A -> B -> C) a b, length a = length b -> vzip f a b = Ok (map2 f a b).
Proof. intros. unfold vzip. rewrite H, Nat.eqb_refl. auto. Qed.

Lemma fit_ok : forall inner c0 cn v, v <> [] -> length c0 = length v -> length cn = length v ->
  exists xs, fit inner c0 cn v = Ok xs.
Proof.
  intros inner c0 cn v N L1 L2. unfold fit. destruct (exists_last N) as (m & b & E).
  assert (F1 : exists a, first v = Ok a) by (destruct v; [congruence|simpl; eauto]). destruct F1 as (a & ->). cbn [bind].
  assert (F2 : final v = Ok b) by (rewrite E; apply final_last). rewrite F2. cbn [bind].
  rewrite vzip_ok by auto. cbn [bind]. rewrite vzip_ok; [cbn [bind]; eauto|]. rewrite map2_length; lia.
Qed.

Lemma fit_best : forall n (D : list R) degree c0 inner cn xs, fits n (Z.of_nat (length D)) degree ->
  design n (length D) (Z.to_nat degree) = c0 :: inner ++ [cn] -> fit inner c0 cn D = Ok xs ->
  length xs = (n - 2)%nat /\ (2 <= n)%nat /\ best_fit degree D (nth 0 D 0 :: xs ++ [last D 0]).
Proof.
  intros n D dg c0 inner cn xs F E H. unfold fit in H. apply bind_ok in H. destruct H as (v0 & A0 & H). apply bind_ok in H. destruct H as (vn & An & H).
  apply bind_ok in H. destruct H as (d0 & D0 & H). apply bind_ok in H. destruct H as (d & D1 & H). injection H as <-.
  apply first_nth in A0. apply final_nth in An. apply vzip_inv in D0. apply vzip_inv in D1. destruct D0 as [L0 ->]. destruct D1 as [L1 ->].
  rewrite map2_length in L1 by auto. set (m := length D) in *. rewrite A0, An.
  destruct (design_lengths n m (Z.to_nat dg)) as [LN LM]. rewrite E in LN, LM. cbn [length] in LN. rewrite app_length in LN. cbn [length] in LN.
  pose proof (Forall_inv LM) as M0. pose proof (Forall_inv_tail LM) as LM'. apply Forall_app in LM'. destruct LM' as [MI MN]. pose proof (Forall_inv MN) as M1.
  clear LM. set (d := map2 _ _ cn). assert (LD : length d = m) by (unfold d; rewrite map2_length; rewrite map2_length; auto).
  (* the residual of the interior is the distance of the curves *)
  assert (RES : forall w, length w = length inner -> residual inner w d = sq_dist (comb m (v0 :: w ++ [vn]) (design n m (Z.to_nat dg))) D).
  { intros w W. unfold residual, sq_dist. cbv zeta. rewrite LD.
    assert (Q : map2 Rminus (comb m w inner) d = map2 Rminus (comb m (v0 :: w ++ [vn]) (design n m (Z.to_nat dg))) D); [|rewrite Q; auto].
    rewrite E. cbn [comb]. rewrite comb_app by auto. cbn [comb]. pose proof (comb_length m w inner MI) as LI. generalize dependent (comb m w inner).
    intros ci LI. unfold d. fold m in L0. clear - L0 L1 LI M0 M1. unfold m in *. clear m.
    revert c0 cn ci L0 L1 LI M0 M1. unfold zeros, vscale. induction D as [|x D IH]; intros c0 cn ci A B C A' B';
      destruct c0, cn, ci; try discriminate; auto. cbn [length map2 map repeat]. f_equal; [ring|]. apply IH; simpl in *; lia. }
  assert (HL : Forall (fun c => length c = length d) inner) by (rewrite LD; auto).
  destruct (lstsq_normal inner d HL) as (LX & _).
  assert (NN : n = S (S (length inner))) by lia.
  split; [lia|]. split; [lia|]. set (x := lstsq inner d) in *.
  assert (LC : length (v0 :: x ++ [vn]) = n) by (simpl; rewrite app_length; simpl; lia).
  exists (comb m (v0 :: x ++ [vn]) (design n m (Z.to_nat dg))). split.
  { rewrite <- LC. apply design_curve. rewrite LC. auto. }
  intros v s' LV V0 VN S. rewrite LC in LV.
  destruct (removelast_mid R v ltac:(lia)) as (a & w & b & -> & _).
  assert (a = v0) by (simpl in V0; unfold m in *; congruence). subst a.
  change (v0 :: w ++ [b]) with ((v0 :: w) ++ [b]) in VN. rewrite last_last in VN. assert (EB : b = vn) by congruence. clear VN. rewrite EB in *. clear EB b.
  assert (LW : length w = length inner) by (simpl in LV; rewrite app_length in LV; simpl in LV; lia).
  rewrite design_curve in S by (rewrite LV; auto). rewrite LV in S. fold m in S. assert (ES : s' = comb m (v0 :: w ++ [vn]) (design n m (Z.to_nat dg))) by congruence. rewrite ES. rewrite <- (RES x LX), <- (RES w LW).
  destruct (lstsq_optimal inner d w HL LW) as (_ & O1 & O2). fold x in O1, O2. split; [exact O1|]. intros LE. destruct (O2 LE) as [P1 P2].
  assert (DOT : forall u, dot (v0 :: u ++ [vn]) (v0 :: u ++ [vn]) = v0 * v0 + dot u u + vn * vn).
  { intros u. cbn [dot]. assert (Q : dot (u ++ [vn]) (u ++ [vn]) = dot u u + vn * vn) by (induction u; simpl; [ring|rewrite IHu; ring]). rewrite Q. ring. }
  rewrite !DOT. split; [lra|]. intros L2. rewrite (P2 ltac:(lra)). auto.
Qed.

(** The data the control points are fitted to. *)
Lemma wendland_lengths : forall X y xx out r o, reconstruct_1d X y xx out "beckert_wendland_c2_basis" r = Ok o -> length y = length X.
Proof.
  intros X y xx out r o H. unfold reconstruct_1d, reconstruct_f in H. cbn [basis_of_name bind] in H.
  apply bind_ok in H. destruct H as (b & B & H). apply bind_ok in H. destruct H as (A & HA & H). apply bind_ok in H. destruct H as (w & HW & _).
  assert (LA : length A = length X).
  { unfold weights_matrix in HA. assert (G : forall l (f : list R -> res (list R)) r, mapM f l = Ok r -> length r = length l).
    { clear. induction l; simpl; intros f r H; [injection H as <-; auto|]. apply bind_ok in H. destruct H as (b & _ & H). apply bind_ok in H. destruct H as (bs & B & H). injection H as <-. simpl. f_equal. eauto. }
    apply G in HA. rewrite HA. unfold column. apply map_length. }
  unfold linalg_solve in HW. destruct (forallb _ A); [|discriminate]. destruct (Nat.eqb_spec (length y) (length A)); [|discriminate]. congruence.
Qed.
Lemma linspace_ends : forall a b n, (2 <= n)%nat -> nth 0 (linspace a b n) 0 = a /\ last (linspace a b n) 0 = b.
Proof.
  intros a b n H. assert (LL : length (linspace a b n) = n) by (unfold linspace; rewrite map_length, seq_length; auto).
  split; [|rewrite last_nth_gen, LL]; unfold linspace; rewrite (nth_mapd _ _ _ _ _ 0%nat) by (rewrite seq_length; lia); rewrite seq_nth by lia.
  - simpl. ring.
  - cbn [Nat.add]. field. apply Rgt_not_eq, (lt_INR 0). lia.
Qed.
Lemma linspace_length : forall a b n, length (linspace a b n) = n.
Proof. intros. unfold linspace. rewrite map_length, seq_length. auto. Qed.
Lemma nth_error_last : forall (l : list R), l <> [] -> nth_error l (length l - 1) = Some (last l 0).
Proof. intros l H. rewrite last_nth_gen. apply nth_error_nth'. destruct l; simpl; [congruence|lia]. Qed.
Lemma nth_error_first : forall (l : list R), l <> [] -> nth_error l 0 = Some (nth 0 l 0).
Proof. intros l H. destruct l; simpl; congruence. Qed.
Lemma reconstruct_1d_length : forall X y xx out r o, reconstruct_1d X y xx out "beckert_wendland_c2_basis" r = Ok o -> length out = length xx -> length o = length xx.
Proof.
  intros X y xx out r o H L. destruct (reconstruct_interpolant "beckert_wendland_c2_basis" r (column X) y ltac:(do 3 eexists; exact H)) as (s & _ & S).
  unfold reconstruct_1d in H. rewrite S in H by (unfold column; rewrite map_length; auto). injection H as <-. rewrite map2_length; rewrite ?map_length; unfold column; rewrite ?map_length; auto.
Qed.

Lemma fit_data_spec : forall X Y n X' Y', fit_data X Y n = Ok (X', Y') ->
  ((n <= 0)%Z -> X' = X /\ Y' = Y) /\
  ((0 < n)%Z -> X <> [] /\ length Y = length X /\ NoDup X /\ X' = linspace (nth 0 X 0) (last X 0) (Z.to_nat n) /\
     reconstruct_1d X Y X' (zeros (Z.to_nat n)) "beckert_wendland_c2_basis" 2 = Ok Y' /\ length X' = Z.to_nat n /\ length Y' = Z.to_nat n /\
     nth 0 X' 0 = nth 0 X 0 /\ nth 0 Y' 0 = nth 0 Y 0 /\ ((2 <= n)%Z -> last X' 0 = last X 0 /\ last Y' 0 = last Y 0)).
Proof.
  intros X Y n X' Y' H. unfold fit_data in H. destruct (Z.ltb_spec 0 n) as [P|P]; [|injection H as <- <-; split; auto; lia].
  split; [lia|]. intros _. apply bind_ok in H. destruct H as (a & A & H). apply bind_ok in H. destruct H as (b & B & H). apply bind_ok in H. destruct H as (yy & HY & H).
  injection H as <- <-. pose proof (first_nth _ _ A) as A'. pose proof (final_nth _ _ B) as B'.
  assert (N : X <> []) by (intros ->; discriminate). split; auto.
  pose proof (wendland_lengths _ _ _ _ _ _ HY) as LY. split; auto. set (xx := linspace a b (Z.to_nat n)) in *.
  assert (LX : length xx = Z.to_nat n) by apply linspace_length.
  assert (LZ : length (zeros (Z.to_nat n)) = length xx) by (rewrite LX; apply zeros_length).
  split. { apply (proj1 (wendland_iff 2 X Y xx (zeros (Z.to_nat n)) ltac:(lra) LY LZ)). eauto. }
  split; [rewrite A', B'; auto|]. split; auto. split; auto.
  pose proof (reconstruct_1d_length _ _ _ _ _ _ HY LZ) as LO. rewrite LX in LO. split; auto.
  assert (X0 : nth 0 xx 0 = a). { unfold xx, linspace. rewrite (nth_mapd _ _ _ _ _ 0%nat) by (rewrite seq_length; lia). rewrite seq_nth by lia. simpl. ring. }
  assert (YN : Y <> []) by (intros ->; simpl in LY; destruct X; [congruence|discriminate]).
  assert (XN : xx <> []) by (intros E; rewrite E in LX; simpl in LX; lia).
  assert (YYN : yy <> []) by (intros E; rewrite E in LO; simpl in LO; lia).
  assert (CE : forall (l : list R) i x, nth_error l i = Some x -> nth_error (column l) i = Some [x]) by (intros; unfold column; rewrite nth_error_map, H; auto).
  assert (LC : length (column xx) = Z.to_nat n) by (unfold column; rewrite map_length; auto).
  unfold reconstruct_1d in HY. rewrite <- LC in HY.
  split; [congruence|]. split.
  - pose proof (reconstruct_node_value _ 2 (column X) Y (column xx) yy 0 0 [a] (nth 0 Y 0) HY) as V.
    rewrite (nth_error_first yy YYN) in V. injection V; auto.
    + apply CE. rewrite nth_error_first, A'; auto.
    + apply nth_error_first; auto.
    + apply CE. rewrite nth_error_first, X0; auto.
  - intros N2. destruct (linspace_ends a b (Z.to_nat n) ltac:(lia)) as [_ XL]. fold xx in XL. split; [congruence|].
    pose proof (reconstruct_node_value _ 2 (column X) Y (column xx) yy (length X - 1) (length xx - 1) [b] (last Y 0) HY) as V.
    rewrite LX, <- LO in V. rewrite (nth_error_last yy YYN) in V. injection V; auto.
    + apply CE. rewrite nth_error_last, B'; auto.
    + rewrite <- LY. apply nth_error_last; auto.
    + apply CE. rewrite LO, <- LX, nth_error_last, XL; auto.
Qed.

Lemma map_fst_combine : forall (a b : list R), length a = length b -> map fst (combine a b) = a.
Proof. induction a; destruct b; simpl; intros; try discriminate; auto. f_equal; auto. Qed.
Lemma map_snd_combine : forall (a b : list R), length a = length b -> map snd (combine a b) = b.
Proof. induction a; destruct b; simpl; intros; try discriminate; auto. f_equal; auto. Qed.

Lemma optimum_inv : forall X Y degree nbasis rbf cv, optimum_control_points X Y degree nbasis rbf = Ok cv ->
  exists X' Y', fit_data X Y (rbf_count rbf) = Ok (X', Y') /\ length Y' = length X' /\ (2 <= nbasis)%Z /\
    fits (Z.to_nat nbasis) (Z.of_nat (length X')) degree /\ Z.of_nat (length cv) = nbasis /\
    hd_error cv = Some (nth 0 X' 0, nth 0 Y' 0) /\ last cv (0, 0) = (last X' 0, last Y' 0) /\
    best_fit degree X' (map fst cv) /\ best_fit degree Y' (map snd cv).
Proof.
  intros X Y dg nb rbf cv H. unfold optimum_control_points in H. apply bind_ok in H. destruct H as ([X' Y'] & HD & H).
  exists X', Y'. split; auto. destruct (Z.ltb_spec nb 2) as [|NB]; [discriminate|].
  apply bind_ok in H. destruct H as (A & HA & H).
  assert (F : fits (Z.to_nat nb) (Z.of_nat (length X')) dg).
  { destruct (Z.to_nat nb) as [|n] eqn:E; [lia|]. cbn [seq mapM] in HA. apply bind_ok in HA. destruct HA as (c & HC & _). apply bspline1_inv in HC.
    rewrite one_hot_unit, unit_vec_length in HC. auto. }
  rewrite design_ok in HA by auto. injection HA as <-.
  destruct (design_lengths (Z.to_nat nb) (length X') (Z.to_nat dg)) as [L1 _].
  destruct (removelast_mid _ (design (Z.to_nat nb) (length X') (Z.to_nat dg)) ltac:(lia)) as (c0 & inner & cn & E & E2).
  rewrite E2 in H. rewrite E in H. cbn [first bind] in H. change (c0 :: inner ++ [cn]) with ((c0 :: inner) ++ [cn]) in H. rewrite final_last in H. cbn [bind] in H.
  apply bind_ok in H. destruct H as (xs & FX & H). apply bind_ok in H. destruct H as (ys & FY & H).
  apply bind_ok in H. destruct H as (x0 & X0 & H). apply bind_ok in H. destruct H as (xn & XN & H).
  apply bind_ok in H. destruct H as (y0 & Y0 & H). apply bind_ok in H. destruct H as (yn & YN & H). injection H as <-.
  assert (LY : length Y' = length X').
  { unfold fit in FY. rewrite Y0, YN in FY. cbn [bind] in FY. apply bind_ok in FY. destruct FY as (d0 & D0 & _). apply vzip_inv in D0. destruct D0 as [D0 _].
    destruct (design_lengths (Z.to_nat nb) (length X') (Z.to_nat dg)) as [_ L2]. rewrite E in L2. apply Forall_inv in L2. congruence. }
  split; auto. split; auto. split; auto.
  destruct (fit_best _ _ _ _ _ _ _ F E FX) as (LX & N2 & BX). rewrite <- LY in F, E. destruct (fit_best _ _ _ _ _ _ _ F E FY) as (LYs & _ & BY).
  apply first_nth in X0, Y0. apply final_nth in XN, YN. rewrite X0, XN in BX. rewrite Y0, YN in BY.
  assert (LL : length xs = length ys) by lia.
  unfold with_ends. split; [simpl; rewrite app_length, combine_length; simpl; lia|]. split; [cbn [hd_error]; rewrite X0, Y0; auto|].
  split. { change ((x0, y0) :: combine xs ys ++ [(xn, yn)]) with (((x0, y0) :: combine xs ys) ++ [(xn, yn)]). rewrite last_last. congruence. }
  cbn [map]. rewrite !map_app, map_fst_combine, map_snd_combine by auto. auto.
Qed.

Lemma optimum_ok : forall X Y degree nbasis rbf X' Y', fit_data X Y (rbf_count rbf) = Ok (X', Y') -> length Y' = length X' -> (2 <= nbasis)%Z ->
  fits (Z.to_nat nbasis) (Z.of_nat (length X')) degree -> exists cv, optimum_control_points X Y degree nbasis rbf = Ok cv.
Proof.
  intros X Y dg nb rbf X' Y' HD LY NB F. unfold optimum_control_points. rewrite HD. cbn [bind].
  destruct (Z.ltb_spec nb 2) as [|_]; [lia|]. rewrite design_ok by auto. cbn [bind].
  destruct (design_lengths (Z.to_nat nb) (length X') (Z.to_nat dg)) as [L1 L2].
  destruct (removelast_mid _ (design (Z.to_nat nb) (length X') (Z.to_nat dg)) ltac:(lia)) as (c0 & inner & cn & E & E2). rewrite E2. rewrite E in *. cbn [first bind].
  pose proof (Forall_inv L2) as M0. apply Forall_inv_tail, Forall_app in L2. destruct L2 as [_ M1]. apply Forall_inv in M1.
  change (c0 :: inner ++ [cn]) with ((c0 :: inner) ++ [cn]). rewrite final_last. cbn [bind].
  assert (N1 : X' <> []) by (intros ->; unfold fits in F; simpl in F; lia). assert (N2 : Y' <> []) by (intros EY; rewrite EY in LY; destruct X'; simpl in LY; congruence).
  destruct (fit_ok inner c0 cn X' N1) as (xs & ->); auto. cbn [bind]. destruct (fit_ok inner c0 cn Y' N2) as (ys & ->); try (rewrite LY; auto). cbn [bind].
  assert (FF : forall l : list R, l <> [] -> (exists a, first l = Ok a) /\ exists b, final l = Ok b).
  { intros l N. destruct (exists_last N) as (m & b & ->). split; [|rewrite final_last; eauto]. destruct m; simpl; eauto. }
  destruct (FF X' N1) as [(a1 & ->) (a2 & ->)]. destruct (FF Y' N2) as [(a3 & ->) (a4 & ->)]. cbn [bind]. eauto.
Qed.
