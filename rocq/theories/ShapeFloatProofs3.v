(** Setting the thickness in binary64. *)
From Coq Require Import Reals ZArith List Lra Lia Bool.
From Flocq Require Import Core BinarySingleNaN.
From Verif Require Import Base PpgFloatModel PpgFloatProofs ProfileModel ProfileSpec ProfileProofs2 FloatModel FloatSpec FloatProofs FloatProofs2 ShapeFloatModel ShapeFloatSpec ShapeFloatProofs ShapeFloatProofs2.
Import ListNotations.
Open Scope R_scope.

(** The ratio, for a measured thickness [t] close to the exact [e]. *)
Lemma ratio_error : forall T t e, finite T = true -> finite t = true -> 0 < e -> Rabs (val t - e) <= eps * e ->
  val T = 0 \/ bpow radix2 (-1021) <= Rabs (val T / e) <= huge / 4 ->
  Beqb t zero64 = false /\ finite (fdiv64 T t) = true /\ Rabs (val (fdiv64 T t) - val T / e) <= 3 * eps * Rabs (val T / e).
Proof.
  intros T t e FT Ft He Ht B. pose proof eps_bounds as [E1 E2]. pose proof Ht as Ht'. apply Rabs_le_inv in Ht'.
  assert (Ee : eps * e <= / 1024 * e) by (apply Rmult_le_compat_r; lra). assert (Pt : 0 < val t) by lra.
  split. { rewrite Beqb_correct by auto. apply Req_bool_false. cbn. lra. }
  assert (Q : val T / val t - val T / e = val T / e * ((e - val t) / val t)) by (field; lra).
  assert (D : Rabs ((e - val t) / val t) <= (1 + / 512) * eps).
  { unfold Rdiv. rewrite Rabs_mult, Rabs_minus_sym, (Rabs_pos_eq (/ val t)) by (apply Rlt_le, Rinv_0_lt_compat; lra).
    apply Rmult_le_reg_r with (val t); auto. rewrite Rmult_assoc, Rinv_l, Rmult_1_r by lra.
    assert ((1 + / 512) * eps * (e - eps * e) <= (1 + / 512) * eps * val t) by (apply Rmult_le_compat_l; nra).
    assert (eps * (eps * e) <= / 1024 * (eps * e)) by (apply Rmult_le_compat_r; nra). nra. }
  set (x := Rabs (val T / e)) in *. assert (X0 : 0 <= x) by apply Rabs_pos.
  assert (D2 : Rabs (val T / val t - val T / e) <= (1 + / 512) * eps * x).
  { rewrite Q, Rabs_mult. fold x. rewrite Rmult_comm. apply Rmult_le_compat_r; auto. }
  assert (EX : eps * x <= / 1024 * x) by (apply Rmult_le_compat_r; lra).
  assert (EEX : eps * (eps * x) <= / 1024 * (eps * x)) by (apply Rmult_le_compat_r; nra).
  assert (Up : Rabs (val T / val t) <= x + (1 + / 512) * eps * x).
  { replace (val T / val t) with ((val T / val t - val T / e) + val T / e) by ring. eapply Rle_trans; [apply Rabs_triang|]. fold x. lra. }
  assert (Lo : x - (1 + / 512) * eps * x <= Rabs (val T / val t)).
  { pose proof (Rabs_triang_inv (val T / e) (val T / e - val T / val t)) as I. rewrite (Rabs_minus_sym _ (val T / val t)) in I.
    replace (val T / e - (val T / e - val T / val t)) with (val T / val t) in I by ring. fold x in I. lra. }
  assert (HP : 0 < huge) by apply bpow_gt_0.
  assert (R : Rabs (rnd (val T / val t) - val T / val t) <= eps * Rabs (val T / val t) /\ Rabs (val T / val t) <= huge).
  { destruct B as [B|B].
    - rewrite B. unfold Rdiv. rewrite Rmult_0_l, round_0, Rminus_0_r, Rabs_R0 by apply valid_rnd_N. lra.
    - split; [|lra]. apply rnd_error. apply Rle_trans with (bpow radix2 (-1021) / 2); [|lra].
      right. change (-1021)%Z with (1 + -1022)%Z. rewrite bpow_plus. change (bpow radix2 1) with 2. field. }
  destruct R as (R1 & R2). destruct (fdiv_ok T t FT) as (V & F); [lra|apply rnd_small; lra|].
  split; auto. rewrite V.
  replace (rnd (val T / val t) - val T / e) with ((rnd (val T / val t) - val T / val t) + (val T / val t - val T / e)) by ring.
  eapply Rle_trans; [apply Rabs_triang|]. 
  assert (eps * Rabs (val T / val t) <= eps * (x + (1 + / 512) * eps * x)) by (apply Rmult_le_compat_l; lra).
  assert (eps * ((1 + / 512) * eps * x) <= / 512 * (eps * x)) by nra. lra.
Qed.

Lemma product_error : forall y r x, finite y = true -> finite r = true -> Rabs (val r - x) <= 3 * eps * Rabs x -> Rabs (val y * x) <= huge / 4 ->
  finite (fmul y r) = true /\ Rabs (val (fmul y r) - val y * x) <= 5 * eps * Rabs (val y * x) + eta.
Proof.
  intros y r x Fy Fr H B. pose proof eps_bounds as [E1 E2]. assert (HP : 0 < huge) by apply bpow_gt_0.
  set (z := Rabs (val y * x)) in *. assert (Z0 : 0 <= z) by apply Rabs_pos.
  assert (EZ : eps * z <= / 1024 * z) by (apply Rmult_le_compat_r; lra).
  assert (EEZ : eps * (eps * z) <= / 1024 * (eps * z)) by (apply Rmult_le_compat_r; nra).
  assert (D : Rabs (val y * val r - val y * x) <= 3 * eps * z).
  { rewrite <- Rmult_minus_distr_l, Rabs_mult. unfold z. rewrite (Rabs_mult (val y) x).
    replace (3 * eps * (Rabs (val y) * Rabs x)) with (Rabs (val y) * (3 * eps * Rabs x)) by ring. apply Rmult_le_compat_l; [apply Rabs_pos|exact H]. }
  assert (U : Rabs (val y * val r) <= z + 3 * eps * z).
  { replace (val y * val r) with ((val y * val r - val y * x) + val y * x) by ring. eapply Rle_trans; [apply Rabs_triang|]. fold z. lra. }
  destruct (times_error y r Fy Fr) as (F & E); [lra|]. split; auto.
  replace (val (fmul y r) - val y * x) with ((val (fmul y r) - val y * val r) + (val y * val r - val y * x)) by ring.
  eapply Rle_trans; [apply Rabs_triang|].
  assert (0 <= eps * z) by nra. assert (eps * Rabs (val y * val r) <= eps * (z + 3 * eps * z)) by (apply Rmult_le_compat_l; lra). lra.
Qed.

Lemma scaled : forall l r x, Forall is_number l -> finite r = true -> Rabs (val r - x) <= 3 * eps * Rabs x ->
  Forall (fun y => Rabs (y * x) <= huge / 4) (map real l) ->
  Forall is_number (map (fun y => fmul y r) l) /\
  Forall2 (fun got y => Rabs (got - y * x) <= 5 * eps * Rabs (y * x) + eta) (map real (map (fun y => fmul y r) l)) (map real l).
Proof.
  intros l r x F Fr H B. induction F as [|y l Fy F IH]; cbn [map] in *; [split; constructor|]. inversion B; subst.
  destruct (product_error y r x Fy Fr H) as (P1 & P2); auto. destruct (IH ltac:(assumption)) as (I1 & I2). split; constructor; auto.
Qed.

Lemma within : forall l x M, 0 <= M -> Forall (fun y => Rabs y <= M) l -> M * Rabs x <= huge / 4 -> Forall (fun y => Rabs (y * x) <= huge / 4) l.
Proof.
  intros l x M HM F B. eapply Forall_impl; [|exact F]. cbn. intros y H. rewrite Rabs_mult.
  apply Rle_trans with (M * Rabs x); auto. apply Rmult_le_compat_r; [apply Rabs_pos|auto].
Qed.

Lemma set_error : forall T p e M, numbers p -> common_abscissae p -> same_sizes p -> fxup p <> [] ->
  Forall (fun g => g <= huge) (gap (yup (meaning p)) (ydown (meaning p))) ->
  Forall (fun y => Rabs y <= M) (yup (meaning p)) -> Forall (fun y => Rabs y <= M) (ydown (meaning p)) ->
  max_thickness None (meaning p) = Ok e -> reachable T e M ->
  exists q, set_thickness_max64 T p = Ok q /\ numbers q /\ fxup q = fxup p /\ fxdown q = fxdown p /\ same_sizes q /\
    (let bound got y := Rabs (got - y * (real T / e)) <= 5 * eps * Rabs (y * (real T / e)) + eta in
     Forall2 bound (yup (meaning q)) (yup (meaning p)) /\ Forall2 bound (ydown (meaning q)) (ydown (meaning p))).
Proof.
  intros T p e M N C S NE G BU BD E (FT & He & RT & RM). destruct (thickness_error p N C S NE G) as (t & e' & Et & Ee & Ft & Eb).
  assert (e' = e) by congruence. subst e'. destruct (ratio_error T t e FT Ft He Eb RT) as (Z & Fr & Er).
  unfold set_thickness_max64. rewrite Et. cbn [bind]. rewrite Z. destruct N as (N1 & N2 & N3 & N4).
  assert (M0 : 0 <= M).
  { destruct p as [a b c d]. destruct S as (_ & S2 & _). cbn in *. destruct a; [congruence|]. destruct c as [|y c]; [discriminate|]. inversion BU; subst.
    eapply Rle_trans; [apply Rabs_pos|eassumption]. }
  destruct (scaled (fyup p) (fdiv64 T t) (real T / e) N3 Fr Er) as (U1 & U2); [eapply within; eauto|].
  destruct (scaled (fydown p) (fdiv64 T t) (real T / e) N4 Fr Er) as (D1 & D2); [eapply within; eauto|].
  eexists. split; [reflexivity|]. unfold numbers, same_sizes, meaning. cbn [fxup fxdown fyup fydown yup ydown]. rewrite !map_length.
  destruct S as (S1 & S2 & S3). repeat (split; auto).
Qed.

(** The thickness measured afterwards. *)
Lemma gap_scaled : forall a b a' b' x M d, Forall (fun y => Rabs y <= M) a -> Forall (fun y => Rabs y <= M) b ->
  Forall2 (fun got y => Rabs (got - y * x) <= d) a' a -> Forall2 (fun got y => Rabs (got - y * x) <= d) b' b ->
  Forall2 (fun got g => Rabs (got - g * Rabs x) <= 2 * d) (gap a' b') (gap a b).
Proof.
  intros a b a' b' x M d A B HA. revert b b' B. induction HA as [|u' u a' a H HA IH]; intros b b' B HB; [constructor|].
  destruct HB as [|v' v b' b H2 HB]; [constructor|]. inversion A; inversion B; subst. unfold gap. cbn [map2]. constructor; [|apply IH; auto].
  rewrite <- Rabs_mult. eapply Rle_trans; [apply Rabs_triang_inv2|].
  replace (u' - v' - (u - v) * x) with ((u' - u * x) + - (v' - v * x)) by ring. eapply Rle_trans; [apply Rabs_triang|]. rewrite Rabs_Ropp. lra.
Qed.

Lemma set_measured : forall T p e M, numbers p -> common_abscissae p -> same_sizes p -> fxup p <> [] ->
  Forall (fun g => g <= huge) (gap (yup (meaning p)) (ydown (meaning p))) ->
  Forall (fun y => Rabs y <= M) (yup (meaning p)) -> Forall (fun y => Rabs y <= M) (ydown (meaning p)) ->
  max_thickness None (meaning p) = Ok e -> reachable T e M ->
  exists q t, set_thickness_max64 T p = Ok q /\ max_thickness64 q = Ok t /\ is_number t /\
    Rabs (real t - Rabs (real T)) <= 15 * eps * (M * Rabs (real T / e)) + 3 * eta.
Proof.
  intros T p e M N C S NE G BU BD E R. destruct (set_error T p e M N C S NE G BU BD E R) as (q & Q & Nq & X1 & X2 & Sq & YU & YD).
  destruct R as (FT & He & RT & RM). set (x := real T / e) in *. set (K := M * Rabs x) in *.
  pose proof eps_bounds as [E1 E2]. pose proof eta_bounds as [H1 H2]. pose proof huge_big as HB.
  assert (X0 : 0 <= Rabs x) by apply Rabs_pos.
  assert (Wk : forall a' a, Forall (fun y => Rabs y <= M) a -> Forall2 (fun got y => Rabs (got - y * x) <= 5 * eps * Rabs (y * x) + eta) a' a ->
    Forall2 (fun got y => Rabs (got - y * x) <= 5 * eps * K + eta) a' a).
  { intros a' a B F. induction F as [|s t a' a Q1 F IH]; [constructor|]. inversion B; subst. constructor; [|apply IH; auto].
    eapply Rle_trans; [exact Q1|]. apply Rplus_le_compat_r. apply Rmult_le_compat_l; [lra|]. rewrite Rabs_mult. unfold K. apply Rmult_le_compat_r; auto. }
  pose proof (gap_scaled _ _ _ _ x M (5 * eps * K + eta) BU BD (Wk _ _ BU YU) (Wk _ _ BD YD)) as GS.
  assert (TE : max_thickness None (meaning p) = vmax (gap (yup (meaning p)) (ydown (meaning p)))) by (apply thickness_exact; auto).
  rewrite TE in E. pose proof E as E'. apply vmax_spec in E' as (Ein & Emax).
  assert (EM : e <= 2 * M).
  { clear -Ein BU BD. unfold gap in Ein. revert Ein BU BD. generalize (yup (meaning p)) (ydown (meaning p)). induction l as [|u l IH]; intros [|v l'] I A B; try destruct I as [].
    - inversion A; inversion B; subst. unfold Rminus. eapply Rle_trans; [apply Rabs_triang|]. rewrite Rabs_Ropp. lra.
    - inversion A; inversion B; subst. eapply IH; eauto. }
  assert (TX : Rabs (real T) = e * Rabs x). { unfold x. unfold Rdiv. rewrite Rabs_mult, (Rabs_pos_eq (/ e)) by (apply Rlt_le, Rinv_0_lt_compat; lra). field. lra. }
  assert (K0 : 0 <= K) by (unfold K; nra). assert (TK : Rabs (real T) <= 2 * K) by (rewrite TX; unfold K; nra).
  assert (EK : eps * K <= / 1024 * K) by (apply Rmult_le_compat_r; lra).
  assert (EEK : eps * (eps * K) <= / 1024 * (eps * K)) by (apply Rmult_le_compat_r; nra).
  assert (Gq : Forall (fun g => g <= huge) (gap (yup (meaning q)) (ydown (meaning q)))).
  { clear -GS Emax TK TX EK E1 E2 H1 H2 HB RM K0 X0. fold K in RM. assert (Emax' : Forall (fun g => g <= e) (gap (yup (meaning p)) (ydown (meaning p)))) by (apply Forall_forall; auto).
    induction GS as [|s t a b Q1 F IH]; [constructor|]. inversion Emax'; subst. constructor; [|apply IH; auto; intros; apply Emax; cbn; auto].
    apply Rabs_le_inv in Q1. assert (t * Rabs x <= 2 * K) by (apply Rle_trans with (e * Rabs x); [apply Rmult_le_compat_r; auto|lra]). assert (1 <= huge) by lra. lra. }
  assert (Cq : common_abscissae q) by (destruct C as (C1 & C2 & C3); unfold common_abscissae; rewrite X1, X2; auto).
  assert (Nq' : fxup q <> []) by (rewrite X1; auto).
  destruct (thickness_error q Nq Cq Sq Nq' Gq) as (t & e' & Et & Ee & Ft & Eb).
  exists q, t. repeat (split; auto). rewrite (thickness_exact q Cq Sq) in Ee.
  assert (Near : Rabs (e' - Rabs (real T)) <= 2 * (5 * eps * K + eta)).
  { rewrite TX. pose proof (vmax_near _ (fun g => g * Rabs x - 2 * (5 * eps * K + eta)) (fun g => g * Rabs x + 2 * (5 * eps * K + eta)) _ _ _ _
      (fun s t (H : Rabs (s - t * Rabs x) <= 2 * (5 * eps * K + eta)) => ltac:(apply Rabs_le_inv in H; lra))
      ltac:(intros; nra) ltac:(intros; nra) GS Ee E) as Q1. apply Rabs_le. lra. }
  apply Rabs_le_inv in Near. apply Rabs_le_inv in Eb. assert (Up : e' <= 2 * K + 2 * (5 * eps * K + eta)) by (clear -Near TK; lra).
  assert (eps * e' <= eps * (2 * K + 2 * (5 * eps * K + eta))) by (apply Rmult_le_compat_l; [clear -E1; lra|exact Up]).
  assert (eps * (2 * eta) <= eta) by (clear -E1 E2 H1; nra). assert (0 <= eps * K) by (clear -E1 K0; nra).
  apply Rabs_le. nra.
Qed.
