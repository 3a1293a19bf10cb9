(** Placement of a section in binary64. *)
From Coq Require Import Reals ZArith List Lra Lia Bool.
From Flocq Require Import Core BinarySingleNaN.
From Verif Require Import Base ProfileModel PpgFloatModel PpgFloatProofs FloatModel FloatSpec FloatProofs FloatProofs2 NacaFloatProofs7 WrapFloatSpec WrapFloatProofs PitchFloatModel PitchFloatProofs RakeFloatModel RakeFloatSpec RakeFloatProofs TurnFloatProofs PlaceFloatModel PlaceFloatSpec.
Import ListNotations.
Open Scope R_scope.

Lemma shift_list : forall v V e f B C, is_number v -> Rabs (real v - V) <= f -> Rabs V <= C -> B + C + e + f <= huge -> forall l L, Forall is_number l ->
  Forall2 (fun g z => Rabs (g - z) <= e /\ Rabs z <= B) (map real l) L ->
  Forall is_number (map (fun x => fadd x v) l) /\ Forall2 (fun g z => Rabs (g - z) <= e + f + eps * (B + C + e + f) /\ Rabs z <= B + C) (map real (map (fun x => fadd x v) l)) (vshift V L).
Proof.
  intros v V e f B C Fv Ev BV HB. pose proof eps_bounds as [E1 _]. unfold vshift. induction l as [|x l IH]; intros L N F; inversion F as [|? z ? L' (X1 & X2) F']; subst; cbn [map]; [split; constructor|]. inversion N as [|? ? Nx N']; subst. destruct (IH _ N' F') as (I1 & I2).
  assert (S : Rabs (real x + real v) <= B + C + e + f). { replace (real x + real v) with ((real x - z) + z + ((real v - V) + V)) by ring. eapply Rle_trans; [apply Rabs_triang|]. pose proof (Rabs_triang (real x - z) z). pose proof (Rabs_triang (real v - V) V). lra. }
  destruct (shift_error x v Nx Fv) as (Fs & Es); [unfold real in S; lra|]. fold (real (fadd x v)) (real x) (real v) in Es. assert (eps * Rabs (real x + real v) <= eps * (B + C + e + f)) by (apply Rmult_le_compat_l; lra).
  split; constructor; auto. split; [|eapply Rle_trans; [apply Rabs_triang|lra]]. apply Rabs_le_inv in X1. apply Rabs_le_inv in Ev. apply Rabs_le_inv in Es. apply Rabs_le. lra.
Qed.
Lemma shift_all : forall v V e f B C p P, is_number (fst v) -> is_number (snd v) -> Rabs (real (fst v) - fst V) <= f -> Rabs (real (snd v) - snd V) <= f -> Rabs (fst V) <= C -> Rabs (snd V) <= C -> B + C + e + f <= huge -> numbers p ->
  pointwise (fun g z => Rabs (g - z) <= e /\ Rabs z <= B) (meaning p) P ->
  numbers (translate64 v p) /\ pointwise (fun g z => Rabs (g - z) <= e + f + eps * (B + C + e + f) /\ Rabs z <= B + C) (meaning (translate64 v p)) (translate V P).
Proof.
  intros v V e f B C [a b c d] [a' b' c' d'] F1 F2 E1 E2 B1 B2 HB (N1 & N2 & N3 & N4) (P1 & P2 & P3 & P4). unfold meaning, translate64, translate, numbers, pointwise in *. cbn [fxup fxdown fyup fydown xup xdown yup ydown] in *.
  destruct (shift_list _ _ e f B C F1 E1 B1 HB _ _ N1 P1). destruct (shift_list _ _ e f B C F1 E1 B1 HB _ _ N2 P2). destruct (shift_list _ _ e f B C F2 E2 B2 HB _ _ N3 P3). destruct (shift_list _ _ e f B C F2 E2 B2 HB _ _ N4 P4). auto 10.
Qed.

Lemma rotated_bound : forall t M p q, 0 <= M -> every (fun z => Rabs z <= M) p -> rotate (Some t) None p = Ok q -> every (fun z => Rabs z <= 2 * M) q.
Proof.
  intros t M [a b c d] q M0 (B1 & B2 & B3 & B4) H. unfold rotate in H. cbn [rotation_angle bind fst snd xup xdown yup ydown] in *. destruct (negb _); [discriminate|]. destruct (negb _); [discriminate|]. destruct (Nat.ltb _ _); [discriminate|]. injection H as <-.
  assert (G : forall (h : R -> R -> R), (forall x y, Rabs x <= M -> Rabs y <= M -> Rabs (h x y) <= 2 * M) -> forall l m, Forall (fun z => Rabs z <= M) l -> Forall (fun z => Rabs z <= M) m -> Forall (fun z => Rabs z <= 2 * M) (map2 h l m)).
  { intros h Hh. induction l as [|x l IH]; intros [|y m] L N; cbn [map2]; try constructor; inversion L; inversion N; subst; auto. }
  assert (K : forall g u, Rabs g <= 1 -> Rabs u <= M -> Rabs (g * u) <= M). { intros g u A B. rewrite Rabs_mult, <- (Rmult_1_l M). apply Rmult_le_compat; try apply Rabs_pos; lra. }
  pose proof (sine_bound t) as SB. pose proof (cosine_bound t) as CB.
  assert (HX : forall x y, Rabs x <= M -> Rabs y <= M -> Rabs (rot_x (cos t) (sin t) x y) <= 2 * M). { intros x y X Y. pose proof (K _ _ CB X) as K1. pose proof (K _ _ SB Y) as K2. apply Rabs_le_inv in K1. apply Rabs_le_inv in K2. unfold rot_x. apply Rabs_le. lra. }
  assert (HY : forall x y, Rabs x <= M -> Rabs y <= M -> Rabs (rot_y (cos t) (sin t) x y) <= 2 * M). { intros x y X Y. pose proof (K _ _ SB X) as K1. pose proof (K _ _ CB Y) as K2. apply Rabs_le_inv in K1. apply Rabs_le_inv in K2. unfold rot_y. apply Rabs_le. lra. }
  assert (T : forall (l : list R) n, Forall (fun z => Rabs z <= M) l -> Forall (fun z => Rabs z <= M) (firstn n l)). { intros l n L. apply Forall_forall. intros z I. rewrite Forall_forall in L. apply L. rewrite <- (firstn_skipn n l). apply in_or_app. left. exact I. }
  assert (Z : forall n, Forall (fun z => Rabs z <= 2 * M) (zeros n)). { intros n. unfold zeros. apply Forall_forall. intros z I. apply repeat_spec in I as ->. rewrite Rabs_R0. lra. }
  unfold every. cbn [xup xdown yup ydown]. split; [apply G; auto|]. split; [apply Forall_app; split; [apply G; auto|apply Z]|]. split; [apply G; auto|apply Forall_app; split; [apply G; auto|apply Z]].
Qed.
Lemma pointwise_every : forall e B p q, pointwise (fun g z => Rabs (g - z) <= e) p q -> every (fun z => Rabs z <= B) q -> pointwise (fun g z => Rabs (g - z) <= e /\ Rabs z <= B) p q.
Proof.
  intros e B p q (P1 & P2 & P3 & P4) (Q1 & Q2 & Q3 & Q4). assert (G : forall l m, Forall2 (fun g z => Rabs (g - z) <= e) l m -> Forall (fun z => Rabs z <= B) m -> Forall2 (fun g z => Rabs (g - z) <= e /\ Rabs z <= B) l m). { induction 1; intros F; inversion F; subst; constructor; auto. }
  unfold pointwise. auto 10.
Qed.
Lemma pointwise_weaken : forall (r r' : R -> R -> Prop) p q, (forall a b, r a b -> r' a b) -> pointwise r p q -> pointwise r' p q.
Proof.
  intros r r' p q H (P1 & P2 & P3 & P4). assert (G : forall l m, Forall2 r l m -> Forall2 r' l m) by (induction 1; constructor; auto). unfold pointwise. auto 10.
Qed.

Lemma half_pi_sf : B2SF (fdiv64 pi64 two64) = SpecFloat.S754_finite false 7074237752028440 (-52).
Proof. vm_compute. reflexivity. Qed.
Lemma half_pi_near : Rabs (val (fdiv64 pi64 two64) - PI / 2) <= 0.63 * eps.
Proof.
  rewrite (sf_val _ _ _ half_pi_sf). unfold eps. change (bpow radix2 (-52)) with (/ 4503599627370496). change (bpow radix2 (-53)) with (/ 9007199254740992). pose proof pi_close. apply Rabs_le. lra.
Qed.
Lemma setting_near : forall at64 p r, accurate at64 atan -> moderate_ordinate p -> moderate_radius r -> let t := fsub (fdiv64 pi64 two64) (pitch_angle64 at64 p r) in
  is_number t /\ Rabs (real t - (PI / 2 - atan (real p / (2 * PI * real r)))) <= 7.1 * eps.
Proof.
  intros at64 p r A Mp Mr t. destruct (angle_near at64 p r A Mp Mr) as (Fa & Ea). fold (pitch_angle64 at64 p r) in Fa, Ea. unfold t. set (a := pitch_angle64 at64 p r) in *. set (b := atan _) in *. pose proof half_pi_near as H. pose proof (atan_bound (real p / (2 * PI * real r))) as AB. fold b in AB.
  pose proof eps_bounds as [E1 _]. assert (E2 : eps <= / 1000000) by (unfold eps; change (bpow radix2 (-53)) with (/ 9007199254740992); lra). pose proof pi_close as PC. assert (HB : 16 <= huge) by (change 16 with (bpow radix2 4); unfold huge; apply bpow_le; lia).
  set (h := fdiv64 pi64 two64) in *. apply Rabs_le_inv in H. apply Rabs_le_inv in Ea. assert (D : Rabs (val h - val a) <= 3.15). { fold (real a). apply Rabs_le. lra. }
  destruct (fsub_ok h a eq_refl Fa) as (V & F); [lra|]. split; [exact F|]. unfold real at 1. rewrite V. pose proof (rnd_add_error h (fneg a)) as R. rewrite fneg_val in R. fold (val h - val a) in R. assert (eps * Rabs (val h - val a) <= eps * 3.15) by (apply Rmult_le_compat_l; lra). apply Rabs_le_inv in R. fold (real a) in *. apply Rabs_le. lra.
Qed.

Lemma arm_near : forall r s, moderate_radius r -> moderate_ordinate s -> let S := real s * PI / 180 in
  is_number (fmul (fneg r) (radians64 s)) /\ Rabs (real (fmul (fneg r) (radians64 s)) - - (real r * S)) <= 3.52 * (eps * (real r * Rabs S)) + (1.01 * (real r * eta) + eta).
Proof.
  intros r s (Fr & Br) (Fs & Bs) S. destruct (radians_near s Fs Bs) as (Fd & Ed). fold S in Ed. set (d := radians64 s) in *. pose proof (bpow_gt_0 radix2 (-300)) as P3. assert (r0 : 0 < real r) by lra. pose proof eps_bounds as [E1 _]. assert (E2 : eps <= / 1000000) by (unfold eps; change (bpow radix2 (-53)) with (/ 9007199254740992); lra). pose proof eta_bounds as [H1 H2]. pose proof pi_close as PC.
  set (rr := real r) in *. set (m := rr * Rabs S). assert (AS : 0 <= Rabs S) by apply Rabs_pos. assert (m0 : 0 <= m) by (unfold m; apply Rmult_le_pos; lra). assert (Em : 0 <= eps * m <= / 1000000 * m) by (split; [apply Rmult_le_pos; lra|apply Rmult_le_compat_r; lra]). assert (re : 0 <= rr * eta) by (apply Rmult_le_pos; lra). assert (Ere : 0 <= eps * (rr * eta) <= / 1000000 * (rr * eta)) by (split; [apply Rmult_le_pos; lra|apply Rmult_le_compat_r; lra]).
  assert (H3 : Rabs (- rr * real d - - (rr * S)) <= 2.51 * (eps * m) + rr * eta). { replace (- rr * real d - - (rr * S)) with (- (rr * (real d - S))) by ring. rewrite Rabs_Ropp, Rabs_mult, (Rabs_pos_eq rr) by lra. replace (2.51 * (eps * m) + rr * eta) with (rr * (2.51 * (eps * Rabs S) + eta)) by (unfold m; ring). apply Rmult_le_compat_l; lra. }
  assert (RM : Rabs (- (rr * S)) = m) by (unfold m; rewrite Rabs_Ropp, Rabs_mult, (Rabs_pos_eq rr) by lra; reflexivity).
  assert (H4 : Rabs (- rr * real d) <= 1.001 * m + rr * eta). { replace (- rr * real d) with ((- rr * real d - - (rr * S)) + - (rr * S)) by ring. eapply Rle_trans; [apply Rabs_triang|]. lra. }
  assert (S3 : Rabs S <= bpow radix2 300). { unfold S, Rdiv. rewrite !Rabs_mult, (Rabs_pos_eq PI), (Rabs_pos_eq (/ 180)) by lra. replace (Rabs (real s) * PI * / 180) with (Rabs (real s) * (PI / 180)) by (unfold Rdiv; ring). rewrite <- (Rmult_1_r (bpow radix2 300)). apply Rmult_le_compat; try lra. apply Rabs_pos. }
  assert (P300 : 1 <= bpow radix2 300) by (change 1 with (bpow radix2 0); apply bpow_le; lia). assert (MB : m <= bpow radix2 600). { unfold m. replace (bpow radix2 600) with (bpow radix2 300 * bpow radix2 300) by (rewrite <- bpow_plus; reflexivity). apply Rmult_le_compat; lra. }
  assert (RB : rr * eta <= bpow radix2 300). { rewrite <- (Rmult_1_r (bpow radix2 300)). apply Rmult_le_compat; lra. } assert (P36 : bpow radix2 300 <= bpow radix2 600) by (apply bpow_le; lia). assert (HB : 16 * bpow radix2 600 <= huge). { change 16 with (bpow radix2 4). rewrite <- bpow_plus. unfold huge. apply bpow_le. lia. }
  assert (VN : val (fneg r) = - rr) by apply fneg_val. destruct (fmul_fine (fneg r) d) as (V & F); [rewrite fneg_finite; exact Fr|exact Fd|rewrite VN; fold (real d); lra|]. split; [exact F|]. unfold real at 1. rewrite V, VN. fold (real d). pose proof (rnd_error_any (- rr * real d)) as R2. assert (eps * Rabs (- rr * real d) <= eps * (1.001 * m + rr * eta)) by (apply Rmult_le_compat_l; lra).
  replace (rnd (- rr * real d) - - (rr * S)) with ((rnd (- rr * real d) - - rr * real d) + (- rr * real d - - (rr * S))) by ring. eapply Rle_trans; [apply Rabs_triang|]. lra.
Qed.

Lemma placed_bounded : forall how at64 tn64 sn cs refl p r s k q M, accurate at64 atan -> accurate_tangent tn64 -> accurate sn sin -> accurate cs cos -> at_most_one sn -> at_most_one cs ->
  moderate_ordinate p -> moderate_radius r -> moderate_ordinate s -> is_number k -> numbers q -> let v := real p / (2 * PI * real r) in let S := real s * PI / 180 in Rabs v <= 4 ->
  every (fun z => Rabs z <= M) (meaning q) -> real r * Rabs S <= M -> Rabs (real k) <= M -> Rabs (real p * real s / 360) <= M -> M <= bpow radix2 600 ->
  match place64 how at64 tn64 sn cs refl p r s k q,
        (let* t := rotate (Some (PI / 2 - atan v)) None (if refl then reflect (meaning q) else meaning q) in
         Ok (translate (- (real k + real p * real s / 360), 0) (translate (0, - (real r * S)) t))) with
  | Ok got, Ok exact => numbers got /\ pointwise (fun g z => Rabs (g - z) <= (39 + 10 * (1 + v * v)) * eps * M + 14 * (1 + real r) * eta /\ Rabs z <= 5 * M) (meaning got) exact
  | Err e, Err e' => e = e'
  | _, _ => False
  end.
Proof.
  intros how at64 tn64 sn cs refl p r s k q M At Tn Sn Cs S1 C1 Mp Mr Ms Fk Nq v S V4 BQ BA BK BI BM.
  pose proof eps_bounds as [E1 _]. assert (E2 : eps <= / 1000000) by (unfold eps; change (bpow radix2 (-53)) with (/ 9007199254740992); lra). pose proof eta_bounds as [H1 H2]. assert (M0 : 0 <= M) by (pose proof (Rabs_pos (real k)); lra).
  assert (r0 : 0 < real r <= bpow radix2 300) by (destruct Mr as (_ & B); pose proof (bpow_gt_0 radix2 (-300)); lra).
  destruct (setting_near at64 p r At Mp Mr) as (Ft & Et). fold v in Et. unfold place64. set (t := fsub _ _) in *. destruct (sin_lip (real t) (PI / 2 - atan v)) as (LS & LC). destruct (Sn t Ft) as (Fs & Es). destruct (Cs t Ft) as (Fc & Ec).
  set (q1 := if refl then reflect64 q else q). assert (Q1 : meaning q1 = if refl then reflect (meaning q) else meaning q) by (unfold q1; destruct refl; [apply reflect64_meaning|reflexivity]). assert (N1 : numbers q1) by (unfold q1; destruct refl; [apply reflect64_meaning|]; exact Nq). rewrite <- Q1.
  assert (B1 : every (fun z => Rabs z <= M) (meaning q1)). { rewrite Q1. destruct refl; [|exact BQ]. destruct BQ as (X1 & X2 & X3 & X4). assert (G : forall l, Forall (fun z => Rabs z <= M) l -> Forall (fun z => Rabs z <= M) (vscale (-1) l)). { intros l L. unfold vscale. rewrite Forall_map. eapply Forall_impl; [|exact L]. cbn beta. intros z Z. rewrite Rabs_mult, (Rabs_left (-1)) by lra. lra. } unfold every, reflect. cbn [xup xdown yup ydown]. auto. }
  assert (EC : Rabs (real (cs t) - cos (PI / 2 - atan v)) <= 9.1 * eps). { replace (real (cs t) - cos (PI / 2 - atan v)) with ((real (cs t) - cos (real t)) + (cos (real t) - cos (PI / 2 - atan v))) by ring. eapply Rle_trans; [apply Rabs_triang|]. lra. }
  assert (ES : Rabs (real (sn t) - sin (PI / 2 - atan v)) <= 9.1 * eps). { replace (real (sn t) - sin (PI / 2 - atan v)) with ((real (sn t) - sin (real t)) + (sin (real t) - sin (PI / 2 - atan v))) by ring. eapply Rle_trans; [apply Rabs_triang|]. lra. }
  assert (P36 : bpow radix2 300 <= bpow radix2 600) by (apply bpow_le; lia). assert (P1 : 1 <= bpow radix2 300) by (change 1 with (bpow radix2 0); apply bpow_le; lia). assert (HB : 1024 * bpow radix2 600 <= huge). { change 1024 with (bpow radix2 10). rewrite <- bpow_plus. unfold huge. apply bpow_le. lia. }
  pose proof (rotate64_error how (cs t) (sn t) q1 (PI / 2 - atan v) (9.1 * eps) M N1 Fc Fs (C1 t Ft) (S1 t Ft) EC ES B1 ltac:(lra)) as RE.
  destruct (rotate64 how (cs t) (sn t) q1) as [q2|]; destruct (rotate (Some (PI / 2 - atan v)) None (meaning q1)) as [R2|] eqn:RR; cbn [bind]; try exact RE. destruct RE as (N2 & W2).
  pose proof (pointwise_every _ _ _ _ W2 (rotated_bound _ _ _ _ M0 B1 RR)) as W3.
  assert (EM : 0 <= eps * M <= / 1000000 * M) by (split; [apply Rmult_le_pos; lra|apply Rmult_le_compat_r; lra]). assert (re : 0 <= real r * eta <= bpow radix2 300) by (split; [apply Rmult_le_pos; lra|rewrite <- (Rmult_1_r (bpow radix2 300)); apply Rmult_le_compat; lra]).
  assert (Ere : 0 <= eps * (real r * eta) <= / 1000000 * (real r * eta)) by (split; [apply Rmult_le_pos; lra|apply Rmult_le_compat_r; lra]). assert (Eet : 0 <= eps * eta <= / 1000000 * eta) by (split; [apply Rmult_le_pos; lra|apply Rmult_le_compat_r; lra]). assert (EEM : 0 <= eps * (eps * M) <= / 1000000 * (eps * M)) by (split; [apply Rmult_le_pos; lra|apply Rmult_le_compat_r; lra]).
  (* skew *)
  destruct (arm_near r s Mr Ms) as (Fa & Ea). fold S in Ea. assert (EA : eps * (real r * Rabs S) <= eps * M) by (apply Rmult_le_compat_l; lra).
  set (e2 := 2 * M * (9.1 * eps + 3 * eps) + 3 * eta) in *. set (f2 := 3.52 * (eps * M) + (1.01 * (real r * eta) + eta)).
  assert (F20 : 0 <= f2 <= M + 3 * bpow radix2 300) by (unfold f2; lra). assert (E20 : 0 <= e2 <= M + 3) by (unfold e2; lra).
  destruct (shift_all (zero64, fmul (fneg r) (radians64 s)) (0, - (real r * S)) e2 f2 (2 * M) M q2 R2) as (N3 & W4); auto; cbn [fst snd].
  { reflexivity. } { change (real zero64) with 0. rewrite Rminus_0_r, Rabs_R0. lra. } { unfold f2. lra. } { rewrite Rabs_R0. lra. } { rewrite Rabs_Ropp, Rabs_mult, (Rabs_pos_eq (real r)) by lra. exact BA. } { lra. }
  set (q3 := translate64 _ q2) in *. set (R3 := translate _ R2) in *.
  set (e3 := e2 + f2 + eps * (2 * M + M + e2 + f2)) in *. assert (e3_le : 0 <= e3 <= 31 * (eps * M) + 5 * eta + 5 * (real r * eta)) by (unfold e3, e2, f2; lra).
  (* rake *)
  destruct (rake_near at64 tn64 p r s At Tn Mp Mr Ms V4) as (Fi & Ei). fold (pitch_angle64 at64 p r) in Fi, Ei. fold (skew_rake64 at64 tn64 p r s) in Fi, Ei. set (i := skew_rake64 at64 tn64 p r s) in *. fold v S in Ei. set (w := 1 + v * v) in *.
  assert (W : 1 <= w <= 17). { unfold w. pose proof (Rle_0_sqr v) as Q. unfold Rsqr in Q. assert (Rabs v * Rabs v <= 4 * 4) by (apply Rmult_le_compat; try apply Rabs_pos; lra). rewrite <- Rabs_mult, Rabs_pos_eq in H by lra. lra. }
  set (J := real p * real s / 360) in *. assert (Z : real r * Rabs S * w <= M * w) by (apply Rmult_le_compat_r; lra). assert (EZ : eps * (real r * Rabs S * w) <= eps * (M * w)) by (apply Rmult_le_compat_l; lra). assert (MW : eps * M <= eps * M * w <= eps * M * 17) by (split; [rewrite <- (Rmult_1_r (eps * M)) at 1; apply Rmult_le_compat_l; lra|apply Rmult_le_compat_l; lra]).
  assert (EI : Rabs (real i - J) <= 9 * (eps * M * w) + 8 * eta + 8 * (real r * eta)) by lra.
  assert (KI : Rabs (real k + real i) <= 2 * M + (9 * (eps * M * w) + 8 * eta + 8 * (real r * eta))). { replace (real k + real i) with (real k + ((real i - J) + J)) by ring. eapply Rle_trans; [apply Rabs_triang|]. pose proof (Rabs_triang (real i - J) J). lra. }
  destruct (shift_error k i Fk Fi) as (Fki & Eki). { fold (real k) (real i). lra. } fold (real k) (real i) (real (fadd k i)) in Eki. assert (EKI : eps * Rabs (real k + real i) <= eps * (2 * M + (9 * (eps * M * w) + 8 * eta + 8 * (real r * eta)))) by (apply Rmult_le_compat_l; lra).
  assert (EMW : 0 <= eps * (eps * M * w) <= / 1000000 * (eps * M * w)) by (split; [apply Rmult_le_pos; lra|apply Rmult_le_compat_r; lra]).
  set (f3 := 9.01 * (eps * M * w) + 2 * (eps * M) + 8.01 * eta + 8.01 * (real r * eta)).
  assert (EF : Rabs (real (fneg (fadd k i)) - - (real k + J)) <= f3). { unfold real at 1. rewrite fneg_val. fold (real (fadd k i)). apply Rabs_le_inv in Eki. apply Rabs_le_inv in EI. unfold f3. apply Rabs_le. lra. }
  assert (f30 : 0 <= f3 <= M + 20 * bpow radix2 300) by (unfold f3; lra).
  destruct (shift_all (fneg (fadd k i), zero64) (- (real k + J), 0) e3 f3 (2 * M + M) (2 * M) q3 R3) as (N4 & W5); auto; cbn [fst snd].
  { unfold is_number. rewrite fneg_finite. exact Fki. } { reflexivity. } { change (real zero64) with 0. rewrite Rminus_0_r, Rabs_R0. lra. } { rewrite Rabs_Ropp. eapply Rle_trans; [apply Rabs_triang|]. lra. } { rewrite Rabs_R0. lra. } { lra. }
  split; [exact N4|]. eapply pointwise_weaken; [|exact W5]. cbn beta. intros g z (G & G5). split; [|lra]. eapply Rle_trans; [exact G|].
  assert (eps * e3 <= eps * (31 * (eps * M) + 5 * eta + 5 * (real r * eta))) by (apply Rmult_le_compat_l; lra). unfold f3. replace ((39 + 10 * w) * eps * M) with (39 * (eps * M) + 10 * (eps * M * w)) by ring. lra.
Qed.
Lemma placed : forall how at64 tn64 sn cs refl p r s k q M, accurate at64 atan -> accurate_tangent tn64 -> accurate sn sin -> accurate cs cos -> at_most_one sn -> at_most_one cs ->
  moderate_ordinate p -> moderate_radius r -> moderate_ordinate s -> is_number k -> numbers q -> let v := real p / (2 * PI * real r) in let S := real s * PI / 180 in Rabs v <= 4 ->
  every (fun z => Rabs z <= M) (meaning q) -> real r * Rabs S <= M -> Rabs (real k) <= M -> Rabs (real p * real s / 360) <= M -> M <= bpow radix2 600 ->
  match place64 how at64 tn64 sn cs refl p r s k q,
        (let* t := rotate (Some (PI / 2 - atan v)) None (if refl then reflect (meaning q) else meaning q) in
         Ok (translate (- (real k + real p * real s / 360), 0) (translate (0, - (real r * S)) t))) with
  | Ok got, Ok exact => numbers got /\ pointwise (fun g z => Rabs (g - z) <= (39 + 10 * (1 + v * v)) * eps * M + 14 * (1 + real r) * eta) (meaning got) exact
  | Err e, Err e' => e = e'
  | _, _ => False
  end.
Proof.
  intros how at64 tn64 sn cs refl p r s k q M At Tn Sn Cs S1 C1 Mp Mr Ms Fk Nq v S V4 BQ BA BK BI BM. pose proof (placed_bounded how at64 tn64 sn cs refl p r s k q M At Tn Sn Cs S1 C1 Mp Mr Ms Fk Nq V4 BQ BA BK BI BM) as H. cbv zeta in H. fold v S in H.
  destruct (place64 _ _ _ _ _ _ _ _ _ _ _), (bind _ _); try exact H. destruct H as (N & W). split; [exact N|]. eapply pointwise_weaken; [|exact W]. cbn beta. tauto.
Qed.

Lemma nearest54_at_most_one : forall g, (forall t, Rabs (g t) <= 1) -> at_most_one (nearest54 g).
Proof.
  intros g G t _. unfold nearest54. set (z := ZnearestE (g (real t) * 2 ^ 54)). pose proof (G (real t)) as B. apply Rabs_le_inv in B.
  assert (ZB : (Z.abs z <= 18014398509481984)%Z).
  { pose proof (Znearest_half (fun x => negb (Z.even x)) (g (real t) * 2 ^ 54)) as Q. change (Znearest (fun x => negb (Z.even x)) (g (real t) * 2 ^ 54)) with z in Q. replace (2 ^ 54) with 18014398509481984 in Q by (cbn; lra). apply Rabs_le_inv in Q.
    assert (z < 18014398509481985)%Z by (apply lt_IZR; lra). assert (-18014398509481985 < z)%Z by (apply lt_IZR; lra). lia. }
  assert (W : -1 <= IZR z * bpow radix2 (-54) <= 1). { change (bpow radix2 (-54)) with (/ 18014398509481984). assert (IZR z <= 18014398509481984) by (apply IZR_le; lia). assert (-18014398509481984 <= IZR z) by (apply IZR_le; lia). lra. }
  pose proof (@binary_normalize_correct 53 1024 prec64 emax64 mode_NE z (-54) false) as H. unfold F2R in H. cbn [Fnum Fexp] in H. change (round radix2 (SpecFloat.fexp 53 1024) (round_mode mode_NE) (IZR z * bpow radix2 (-54))) with (rnd (IZR z * bpow radix2 (-54))) in H.
  assert (HB : 1 <= huge) by (change 1 with (bpow radix2 0); unfold huge; apply bpow_le; lia). rewrite Rlt_bool_true in H by (apply rnd_small; apply Rabs_le; lra). destruct H as (V & _ & _). unfold real. rewrite V.
  assert (O : rnd 1 = 1) by (rewrite <- one64_val; apply rnd_exact, format_val). assert (U : rnd (- (1)) = - (1)) by (rewrite rnd_opp, O; reflexivity). destruct W as (W1 & W2). apply rnd_le in W1. apply rnd_le in W2. rewrite O in W2. change (-1) with (- (1)) in W1. replace (-1) with (- (1)) in W1 by ring. rewrite U in W1. apply Rabs_le. lra.
Qed.

(** The entries of the arrays used by the placement. *)
Lemma entries : forall at64 tn64 pitch radii skew i p r s, length pitch = length radii -> length skew = length radii -> nth_error pitch i = Some p -> nth_error radii i = Some r -> nth_error skew i = Some s ->
  exists angles rakes, pitch_angles64 at64 pitch radii = Ok angles /\ induced_rake64 at64 tn64 pitch radii skew = Ok rakes /\ nth_error angles i = Some (pitch_angle64 at64 p r) /\ nth_error rakes i = Some (skew_rake64 at64 tn64 p r s).
Proof.
  intros at64 tn64 pitch radii skew i p r s L1 L2 Hp Hr Hs. unfold induced_rake64, pitch_angles64, vzip. rewrite !map_length, L1, L2, !Nat.eqb_refl. cbn [bind].
  assert (M : length (map2 fmul radii (map radians64 skew)) = length radii) by (apply map2_len; rewrite map_length; congruence). assert (N : length (map2 fdiv64 pitch (map (fun r => fmul (fmul two64 pi64) r) radii)) = length radii) by (rewrite map2_len; [exact L1|rewrite map_length; exact L1]).
  assert (A : nth_error (map2 fdiv64 pitch (map (fun r => fmul (fmul two64 pi64) r) radii)) i = Some (fdiv64 p (fmul (fmul two64 pi64) r))) by (apply map2_nth; [exact Hp|rewrite nth_error_map, Hr; reflexivity]).
  assert (A2 : nth_error (map2 fmul radii (map radians64 skew)) i = Some (fmul r (radians64 s))) by (apply map2_nth; [exact Hr|rewrite nth_error_map, Hs; reflexivity]).
  unfold b64 in *. rewrite !map_length, M, N, Nat.eqb_refl. do 2 eexists. split; [reflexivity|]. split; [reflexivity|].
  pose proof (map_nth_error at64 _ _ A) as A1. split; [exact A1|]. unfold skew_rake64. apply map2_nth; [exact A2|]. exact (map_nth_error tn64 _ _ A1).
Qed.
