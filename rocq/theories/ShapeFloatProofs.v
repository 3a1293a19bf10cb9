(** The coordinate checks in binary64. *)
From Coq Require Import Reals ZArith List Lra Lia Bool.
From Flocq Require Import Core BinarySingleNaN.
From Verif Require Import Base PpgFloatModel PpgFloatProofs ProfileModel FloatModel FloatSpec FloatProofs FloatProofs2 CustomModel ShapeFloatModel ShapeFloatSpec.
Import ListNotations.
Open Scope R_scope.

Lemma eta_tiny : eta <= eps * (/ 10 ^ 9).
Proof.
  unfold eta, eps. replace (bpow radix2 (-1075)) with (bpow radix2 (-53) * bpow radix2 (-1022)) by (rewrite <- bpow_plus; f_equal).
  apply Rmult_le_compat_l; [apply bpow_ge_0|]. apply Rle_trans with (bpow radix2 (-30)); [apply bpow_le; lia|cbn; lra].
Qed.
Lemma eps_val : eps = / 9007199254740992.
Proof. reflexivity. Qed.
Lemma atol64_val : Rabs (val atol64 - 1 / 1000000) <= eps * (1 / 1000000) /\ finite atol64 = true.
Proof. split; [|reflexivity]. rewrite eps_val. unfold B2R, atol64, F2R. cbn. apply Rabs_le. lra. Qed.
Lemma rtol64_val : Rabs (val rtol64 - 1 / 100000) <= eps * (1 / 100000) /\ finite rtol64 = true.
Proof. split; [|reflexivity]. rewrite eps_val. unfold B2R, rtol64, F2R. cbn. apply Rabs_le. lra. Qed.

Lemma fabs_val : forall x, val (fabs64 x) = Rabs (val x).
Proof. intros x. apply B2R_Babs. Qed.
Lemma fabs_finite : forall x, finite (fabs64 x) = finite x.
Proof. intros x. apply is_finite_Babs. Qed.
Lemma val_bound : forall x : b64, Rabs (val x) < 2 * huge.
Proof.
  intros x. pose proof (@abs_B2R_lt_emax 53 1024 x) as B. unfold huge. replace (2 * bpow radix2 1023) with (bpow radix2 1024); [exact B|].
  change 1024%Z with (1 + 1023)%Z. rewrite bpow_plus. reflexivity.
Qed.
Lemma huge_big : 10 ^ 9 <= huge.
Proof. unfold huge. apply Rle_trans with (bpow radix2 30); [cbn; lra|apply bpow_le; lia]. Qed.

Lemma tolerance_ok : forall b, finite b = true ->
  let t := fadd atol64 (fmul rtol64 (fabs64 b)) in let T := 1 / 1000000 + 1 / 100000 * Rabs (val b) in
  finite t = true /\ Rabs (val t - T) <= 4 * eps * T /\ T <= huge / 1000.
Proof.
  intros b Fb t T. destruct atol64_val as (A & Fa). destruct rtol64_val as (D & Fr). pose proof (val_bound b) as VB. pose proof huge_big as HB.
  assert (Ff : finite (fabs64 b) = true) by (rewrite fabs_finite; auto). pose proof eps_bounds as [E1 E2]. pose proof eta_tiny as ET. pose proof eta_bounds as [H1 _].
  set (v := Rabs (val b)) in *. assert (V0 : 0 <= v) by apply Rabs_pos.
  assert (R1 : 0 <= val rtol64 <= 1 / 50000). { apply Rabs_le_inv in D. nra. }
  destruct (times_error rtol64 (fabs64 b) Fr Ff) as (Fm & Em).
  { rewrite fabs_val. fold v. rewrite Rabs_pos_eq by nra. nra. }
  rewrite fabs_val in Em. fold v in Em. rewrite (Rabs_pos_eq (val rtol64 * v)) in Em by nra.
  set (m := fmul rtol64 (fabs64 b)) in *. apply Rabs_le_inv in Em. apply Rabs_le_inv in D. apply Rabs_le_inv in A.
  assert (M1 : Rabs (val m - 1 / 100000 * v) <= (2 * eps + eps * eps) * (1 / 100000 * v) + eta).
  { assert (- (eps * (1 / 100000) * v) <= val rtol64 * v - 1 / 100000 * v <= eps * (1 / 100000) * v) by nra.
    assert (eps * (val rtol64 * v) <= eps * (1 / 100000 * v + eps * (1 / 100000) * v)) by (apply Rmult_le_compat_l; nra).
    apply Rabs_le. nra. }
  apply Rabs_le_inv in M1.
  assert (EE : eps * eps <= / 1024 * eps) by (apply Rmult_le_compat_r; lra).
  assert (EV : eps * (1 / 100000 * v) <= / 1024 * (1 / 100000 * v)) by (apply Rmult_le_compat_r; lra).
  assert (EEV : eps * eps * (1 / 100000 * v) <= / 1024 * eps * (1 / 100000 * v)) by (apply Rmult_le_compat_r; nra).
  assert (S1 : Rabs (val atol64 + val m - T) <= (2 * eps + / 1024 * eps) * T).
  { unfold T. apply Rabs_le. nra. }
  apply Rabs_le_inv in S1. assert (T0 : 0 < T <= huge / 1000) by (unfold T; nra).
  assert (ET2 : eps * T <= / 1024 * T) by (apply Rmult_le_compat_r; lra).
  assert (S2 : Rabs (val atol64 + val m) <= T + 3 * (eps * T)) by (apply Rabs_le; nra).
  destruct (fadd_ok atol64 m Fa Fm) as (Vt & Ft). { lra. }
  fold t in Vt, Ft. split; [exact Ft|]. split; [|lra].
  pose proof (rnd_add_error atol64 m) as R. rewrite <- Vt in R.
  assert (eps * Rabs (val atol64 + val m) <= eps * (T + 3 * (eps * T))) by (apply Rmult_le_compat_l; lra).
  assert (eps * (eps * T) <= / 1024 * (eps * T)) by (apply Rmult_le_compat_r; nra).
  apply Rabs_le_inv in R. apply Rabs_le. nra.
Qed.

(** Subtraction of numbers: the rounded difference or an infinity. *)
Lemma fsub_cases : forall x y, finite x = true -> finite y = true ->
  (finite (fsub x y) = true /\ val (fsub x y) = rnd (val x - val y)) \/
  (huge < Rabs (val x - val y) /\ exists s, fsub x y = B754_infinity s).
Proof.
  intros x y Fx Fy. destruct (Rle_lt_dec (Rabs (val x - val y)) huge) as [H|H].
  - destruct (fsub_ok x y Fx Fy H). auto.
  - pose proof (@Bminus_correct 53 1024 prec64 emax64 mode_NE x y Fx Fy) as C.
    destruct (Rlt_bool _ _) in C.
    + destruct C as (C1 & C2 & _). left. split; [exact C2|exact C1].
    + destruct C as (C & _). right. split; [exact H|]. fold (fsub x y) in C. destruct (fsub x y) as [s|s| |s m e Hm]; try discriminate. eauto.
Qed.
Lemma diff_error : forall x y : b64, Rabs (rnd (val x - val y) - (val x - val y)) <= eps * Rabs (val x - val y).
Proof. intros x y. pose proof (rnd_add_error x (fneg y)) as D. rewrite fneg_val in D. exact D. Qed.

Lemma close_number : forall a b, finite a = true -> finite b = true ->
  (isclose64 a b = true -> agrees (1 + 8 * eps) (val a) (val b)) /\
  (agrees (1 - 8 * eps) (val a) (val b) -> isclose64 a b = true).
Proof.
  intros a b Fa Fb. unfold isclose64, agrees. rewrite Fa, Fb. cbn [andb].
  destruct (tolerance_ok b Fb) as (Ft & Et & BT). set (t := fadd atol64 _) in *. set (T := 1 / 1000000 + _) in *.
  assert (T0 : 0 < T) by (unfold T; pose proof (Rabs_pos (val b)); lra). pose proof eps_bounds as [E1 E2]. pose proof huge_big as HB.
  set (g := Rabs (val a - val b)) in *. assert (G0 : 0 <= g) by apply Rabs_pos.
  assert (ET : eps * T <= / 1024 * T) by (apply Rmult_le_compat_r; lra).
  assert (EG : eps * g <= / 1024 * g) by (apply Rmult_le_compat_r; lra). apply Rabs_le_inv in Et.
  assert (EET : eps * (eps * T) <= / 1024 * (eps * T)) by (apply Rmult_le_compat_r; nra).
  destruct (fsub_cases a b Fa Fb) as [(Fs & Vs)|(Big & s & Inf)].
  - assert (Fg : finite (fabs64 (fsub a b)) = true) by (rewrite fabs_finite; auto).
    rewrite Bleb_correct by auto. rewrite fabs_val, Vs.
    pose proof (diff_error a b) as D. fold g in D.
    assert (D1 : Rabs (rnd (val a - val b)) <= g + eps * g).
    { replace (rnd (val a - val b)) with ((rnd (val a - val b) - (val a - val b)) + (val a - val b)) by ring.
      eapply Rle_trans; [apply Rabs_triang|]. fold g. lra. }
    assert (D2 : g - eps * g <= Rabs (rnd (val a - val b))).
    { pose proof (Rabs_triang_inv (val a - val b) ((val a - val b) - rnd (val a - val b))) as TI. rewrite (Rabs_minus_sym _ (rnd _)) in TI.
      replace (val a - val b - (val a - val b - rnd (val a - val b))) with (rnd (val a - val b)) in TI by ring. fold g in TI. lra. }
    split.
    + intros H. destruct (Rle_bool_spec (Rabs (rnd (val a - val b))) (val t)) as [L|]; [|discriminate].
      destruct (Rle_lt_dec g ((1 + 8 * eps) * T)) as [|C]; auto. exfalso.
      assert (eps * ((1 + 8 * eps) * T) <= eps * g) by (apply Rmult_le_compat_l; lra).
      assert ((1 - eps) * ((1 + 8 * eps) * T) < (1 - eps) * g) by (apply Rmult_lt_compat_l; lra). nra.
    + intros H. apply Rle_bool_true.
      assert ((1 + eps) * g <= (1 + eps) * ((1 - 8 * eps) * T)) by (apply Rmult_le_compat_l; lra). nra.
  - rewrite Inf. split.
    + destruct t as [q|q| |q m e Hm]; try discriminate.
    + intros H. exfalso. assert (8 * (eps * T) >= 0) by nra. fold g in Big. nra.
Qed.

Lemma close_other : forall a b, isclose64 a b = true ->
  ~ is_nan64 a /\ ~ is_nan64 b /\ (is_infinite a \/ is_infinite b -> a = b).
Proof.
  intros a b H. unfold is_infinite, is_number, is_nan64.
  destruct a as [s|s| |s m e Hm], b as [s'|s'| |s' m' e' Hm']; cbn [isclose64] in H; try discriminate H;
    cbn [is_finite is_nan]; (split; [discriminate|]; split; [discriminate|]); intros [(A & B)|(A & B)]; try (exfalso; apply A; reflexivity).
  all: destruct s, s'; try discriminate H; reflexivity.
Qed.

Lemma bleb_not_nan : forall a b : b64, Bleb a b = true -> ~ is_nan64 a /\ ~ is_nan64 b.
Proof.
  intros a b H. unfold is_nan64. destruct a as [s|s| |s m e Hm], b as [s'|s'| |s' m' e' Hm']; cbn [is_nan]; try discriminate H; split; discriminate.
Qed.

Lemma interior_map : forall (l : list b64), map real (interior l) = interior (map real l).
Proof.
  intros l. unfold interior. destruct l as [|x l]; [reflexivity|]. cbn [tl map].
  induction l as [|y l IH]; [reflexivity|]. destruct l; [reflexivity|]. cbn [removelast map] in *. f_equal. exact IH.
Qed.
Lemma interior_length : forall A (l : list A), length (interior l) = (length l - 2)%nat.
Proof.
  intros A l. unfold interior. destruct l as [|x l]; [reflexivity|]. cbn [tl length].
  induction l as [|y l IH]; [reflexivity|]. destruct l; [reflexivity|]. cbn [removelast length] in *. lia.
Qed.
Lemma interior_nth : forall A (l : list A) i, (S (S i) < length l)%nat -> nth_error (interior l) i = nth_error l (S i).
Proof.
  intros A l i H. unfold interior. destruct l as [|x l]; [cbn in H; lia|]. cbn [tl length nth_error] in *.
  revert i H. induction l as [|y l IH]; intros i H; [cbn in H; lia|]. destruct l as [|z l]; [cbn in H; lia|].
  cbn [removelast]. destruct i; [reflexivity|]. cbn [nth_error]. apply IH. cbn [length] in *. lia.
Qed.

(** Comparison of equally long arrays. *)
Lemma ge_equal : forall a b, length a = length b -> greater_equal64 a b = Ok (map2 (fun x y => Bleb y x) a b).
Proof.
  intros a b H. unfold greater_equal64, vzip. destruct a as [|x [|x' a]], b as [|y [|y' b]]; try discriminate H; try reflexivity.
  unfold b64 in *. rewrite (proj2 (Nat.eqb_eq _ _) H). reflexivity.
Qed.
Lemma forallb_map2 : forall (f : b64 -> b64 -> bool) a b, length a = length b ->
  (forallb (fun t => t) (map2 f a b) = true <-> forall i x y, nth_error a i = Some x -> nth_error b i = Some y -> f x y = true).
Proof.
  intros f. induction a as [|x a IH]; intros [|y b] L; try discriminate L.
  - split; [intros _ [|i] ? ? H; discriminate H|reflexivity].
  - cbn [map2 forallb length] in *. rewrite andb_true_iff, IH by lia. split.
    + intros (A & B) [|i] u v H1 H2; cbn [nth_error] in *; [congruence|eauto].
    + intros H. split; [apply (H 0%nat); reflexivity|]. intros i u v. apply (H (S i)).
Qed.

(** The check in one sentence. *)
Lemma check_iff : forall p, same_sizes p -> fxup p <> [] -> let h l := hd zero64 l in let t l := last l zero64 in
  (check_coordinates64 p = Ok tt <->
   (forall i u d, (S (S i) < length (fyup p))%nat -> nth_error (fyup p) (S i) = Some u -> nth_error (fydown p) (S i) = Some d -> Bleb d u = true) /\
   isclose64 (h (fxdown p)) (h (fxup p)) = true /\ isclose64 (t (fxdown p)) (t (fxup p)) = true /\
   isclose64 (h (fydown p)) (h (fyup p)) = true /\ isclose64 (t (fydown p)) (t (fyup p)) = true) /\
  (check_coordinates64 p = Ok tt \/ check_coordinates64 p = Err ValueError).
Proof.
  intros [a b c d] (S1 & S2 & S3) N h t. unfold check_coordinates64. cbn [fxup fxdown fyup fydown] in *.
  assert (Fi : forall l : list b64, length l = length a -> first l = Ok (h l)).
  { intros [|x l] L; [destruct a; [congruence|discriminate L]|reflexivity]. }
  assert (Fl : forall l : list b64, length l = length a -> final l = Ok (t l)).
  { intros l L. assert (l <> []) by (destruct l; [destruct a; [congruence|discriminate L]|discriminate]). clear -H. unfold t.
    induction l as [|x l IH]; [congruence|]. destruct l; [reflexivity|]. cbn [final last] in *. apply IH. discriminate. }
  rewrite S2, S3, S1, !Nat.eqb_refl. cbn [negb]. rewrite ge_equal by (rewrite !interior_length; congruence). cbn [bind].
  pose proof (forallb_map2 (fun x y => Bleb y x) (interior c) (interior d) ltac:(rewrite !interior_length; congruence)) as Q.
  assert (Q2 : forallb (fun t => t) (map2 (fun x y => Bleb y x) (interior c) (interior d)) = true <->
    forall i u v, (S (S i) < length c)%nat -> nth_error c (S i) = Some u -> nth_error d (S i) = Some v -> Bleb v u = true).
  { rewrite Q. split; intros H i u v.
    - intros L A B. apply (H i); rewrite interior_nth by congruence; auto.
    - intros A B. assert (L : (S (S i) < length c)%nat). { assert (i < length (interior c))%nat by (apply nth_error_Some; congruence). rewrite interior_length in H0. lia. }
      rewrite interior_nth in A by auto. rewrite interior_nth in B by congruence. eauto. }
  rewrite !Fi, !Fl by auto. cbn [bind].
  rewrite S2 in Q2. destruct (forallb _ _); cbn [negb].
  2:{ split; [|auto]. split; [discriminate|]. intros (H & _). apply Q2 in H. discriminate. }
  destruct (isclose64 (h b) (h a)); cbn [negb]; [|split; [split; [discriminate|intuition congruence]|auto]].
  destruct (isclose64 (t b) (t a)); cbn [negb]; [|split; [split; [discriminate|intuition congruence]|auto]].
  destruct (isclose64 (h d) (h c)); cbn [negb]; [|split; [split; [discriminate|intuition congruence]|auto]].
  destruct (isclose64 (t d) (t c)); cbn [negb]; [|split; [split; [discriminate|intuition congruence]|auto]].
  split; [|auto]. split; [intros _|reflexivity]. split; [apply Q2; reflexivity|auto].
Qed.

Lemma hd_real : forall l, hd 0 (map real l) = real (hd zero64 l).
Proof. destruct l; reflexivity. Qed.
Lemma last_real : forall l, last (map real l) 0 = real (last l zero64).
Proof. induction l as [|x l IH]; [reflexivity|]. destruct l; [reflexivity|]. cbn [map last] in *. exact IH. Qed.
Lemma hd_number : forall l, Forall is_number l -> is_number (hd zero64 l).
Proof. intros l H. destruct H; [reflexivity|assumption]. Qed.
Lemma last_number : forall l, Forall is_number l -> is_number (last l zero64).
Proof. intros l H. induction H as [|x l A B IH]; [reflexivity|]. destruct l; [exact A|exact IH]. Qed.
Lemma nth_number : forall l i x, Forall is_number l -> nth_error l i = Some x -> is_number x.
Proof. intros l i x H E. apply nth_error_In in E. rewrite Forall_forall in H. auto. Qed.

Lemma check_numbers : forall p, numbers p -> same_sizes p -> fxup p <> [] ->
  (check_coordinates64 p = Ok tt -> in_order (meaning p) /\ ends_agree (1 + 8 * eps) (meaning p)) /\
  (in_order (meaning p) -> ends_agree (1 - 8 * eps) (meaning p) -> check_coordinates64 p = Ok tt) /\
  (check_coordinates64 p <> Ok tt -> check_coordinates64 p = Err ValueError).
Proof.
  intros p (N1 & N2 & N3 & N4) S N. destruct (check_iff p S N) as (I & O). cbv zeta in I.
  unfold in_order, ends_agree, meaning. cbn [xup xdown yup ydown]. rewrite !hd_real, !last_real.
  assert (G : forall a b, is_number a -> is_number b -> (isclose64 a b = true -> agrees (1 + 8 * eps) (real a) (real b)) /\
    (agrees (1 - 8 * eps) (real a) (real b) -> isclose64 a b = true)) by (intros; apply close_number; auto).
  pose proof (hd_number _ N1). pose proof (hd_number _ N2). pose proof (hd_number _ N3). pose proof (hd_number _ N4).
  pose proof (last_number _ N1). pose proof (last_number _ N2). pose proof (last_number _ N3). pose proof (last_number _ N4).
  split; [|split].
  - intros H7. apply I in H7 as (A & B1 & B2 & B3 & B4). split.
    + intros [|i] u d Hi L U D; [lia|]. rewrite map_length in L. rewrite nth_error_map in U, D.
      destruct (nth_error (fyup p) (Datatypes.S i)) as [u'|] eqn:EU; [|discriminate]. destruct (nth_error (fydown p) (Datatypes.S i)) as [d'|] eqn:ED; [|discriminate].
      cbn in U, D. injection U as <-. injection D as <-. specialize (A i u' d' L EU ED).
      rewrite Bleb_correct in A; [|exact (nth_number _ _ _ N4 ED)|exact (nth_number _ _ _ N3 EU)]. revert A. case Rle_bool_spec; [intros Le _; exact Le|discriminate].
    + repeat split; apply G; auto.
  - intros A (B1 & B2 & B3 & B4). apply I. split; [|repeat split; apply G; auto].
    intros i u d L U D. rewrite Bleb_correct; [|exact (nth_number _ _ _ N4 D)|exact (nth_number _ _ _ N3 U)]. apply Rle_bool_true.
    apply (A (Datatypes.S i)); rewrite ?map_length, ?nth_error_map, ?U, ?D; auto; lia.
  - intros H7. destruct O; [contradiction|auto].
Qed.

Lemma check_not_numbers : forall p, same_sizes p -> check_coordinates64 p = Ok tt ->
  Forall (fun y => ~ is_nan64 y) (fyup p) /\ Forall (fun y => ~ is_nan64 y) (fydown p) /\
  (let same a b := ~ is_nan64 a /\ ~ is_nan64 b /\ (is_infinite a \/ is_infinite b -> a = b) in
   same (hd zero64 (fxdown p)) (hd zero64 (fxup p)) /\ same (last (fxdown p) zero64) (last (fxup p) zero64) /\
   same (hd zero64 (fydown p)) (hd zero64 (fyup p)) /\ same (last (fydown p) zero64) (last (fyup p) zero64)).
Proof.
  intros p S H. assert (N : fxup p <> []).
  { intros E. destruct p as [a b c d]. unfold same_sizes in S. cbn [fxup fxdown fyup fydown] in *. subst a. destruct S as (S1 & S2 & S3).
    destruct b, c, d; try discriminate. }
  destruct (check_iff p S N) as (I & _). cbv zeta in I. apply I in H as (A & B1 & B2 & B3 & B4).
  assert (Sy : length (fyup p) = length (fydown p)) by (destruct S as (_ & -> & ->); reflexivity).
  assert (K : forall l : list b64, (forall i x, (Datatypes.S (Datatypes.S i) < length l)%nat -> nth_error l (Datatypes.S i) = Some x -> ~ is_nan64 x) ->
    ~ is_nan64 (hd zero64 l) -> ~ is_nan64 (last l zero64) -> Forall (fun y => ~ is_nan64 y) l).
  { intros l M Hh Ht. apply Forall_forall. intros x Hx. apply In_nth_error in Hx as (i & Hi).
    assert (L : (i < length l)%nat) by (apply nth_error_Some; congruence). destruct i as [|i]; [destruct l; cbn in *; congruence|].
    destruct (Nat.eq_dec (Datatypes.S (Datatypes.S i)) (length l)) as [E|E]; [|apply (M i); auto; lia].
    replace x with (last l zero64); auto. clear -Hi E. revert i Hi E. induction l as [|y l IH]; intros i Hi E; [discriminate|].
    destruct l as [|z l]; [destruct i; discriminate|]. change (last (y :: z :: l) zero64) with (last (z :: l) zero64).
    destruct i as [|i]; [|apply (IH i); cbn in *; auto]. cbn in E. assert (l = []) by (destruct l; [reflexivity|cbn in E; lia]). subst l. cbn in *. congruence. }
  pose proof (close_other _ _ B1) as C1. pose proof (close_other _ _ B2) as C2. pose proof (close_other _ _ B3) as C3. pose proof (close_other _ _ B4) as C4.
  split; [|split; [|cbv zeta; auto]].
  - apply K; try tauto. intros i x L E. destruct (nth_error (fydown p) (Datatypes.S i)) as [d|] eqn:ED; [|apply nth_error_None in ED; lia].
    apply (bleb_not_nan d x). eapply A; eauto.
  - apply K; try tauto. intros i x L E. destruct (nth_error (fyup p) (Datatypes.S i)) as [u|] eqn:EU; [|apply nth_error_None in EU; lia].
    apply (bleb_not_nan x u). eapply A; eauto. lia.
Qed.

Lemma check_abscissae : forall p q, fyup p = fyup q -> fydown p = fydown q ->
  length (fxup p) = length (fxup q) -> length (fxdown p) = length (fxdown q) ->
  first (fxup p) = first (fxup q) -> first (fxdown p) = first (fxdown q) -> final (fxup p) = final (fxup q) -> final (fxdown p) = final (fxdown q) ->
  check_coordinates64 p = check_coordinates64 q.
Proof. intros p q A B C D E F G H. unfold check_coordinates64. rewrite A, B, C, D, E, F, G, H. reflexivity. Qed.
