(** Sections laid on cylinders in binary64. *)
From Coq Require Import Reals ZArith List Lra Lia Bool.
From Flocq Require Import Core BinarySingleNaN.
From Verif Require Import Base ProfileModel PpgFloatModel PpgFloatProofs FloatModel FloatSpec FloatProofs FloatProofs2 NacaFloatProofs7 WrapFloatModel WrapFloatSpec WrapFloatProofs PitchFloatModel PitchFloatProofs RakeFloatModel RakeFloatSpec RakeFloatProofs PlaceFloatModel PlaceFloatSpec PlaceFloatProofs LayFloatModel LayFloatSpec.
Import ListNotations.
Open Scope R_scope.

Lemma map2_same_length : forall (f g : R -> R -> R) l m, length (map2 f l m) = length (map2 g l m).
Proof. intros f g. induction l as [|a l IH]; intros [|b m]; cbn [map2 length]; auto. Qed.
Lemma rotated_lengths : forall t p q, rotate (Some t) None p = Ok q -> length (xup q) = length (yup q) /\ length (xdown q) = length (ydown q).
Proof.
  intros t p q H. unfold rotate in H. cbn [rotation_angle bind fst snd] in H. destruct (negb _); [discriminate|]. destruct (negb _); [discriminate|]. destruct (Nat.ltb _ _); [discriminate|]. injection H as <-. cbn [xup xdown yup ydown]. rewrite !app_length. split; [apply map2_same_length|f_equal; apply map2_same_length].
Qed.
Lemma Forall2_at : forall (P : R -> R -> Prop) l m, Forall2 P (map real l) m -> length l = length m /\ forall j z, nth_error m j = Some z -> exists x, nth_error l j = Some x /\ P (real x) z.
Proof.
  intros P. induction l as [|a l IH]; intros m F; inversion F as [|? b ? m' Pab F']; subst; cbn [length]; [split; [reflexivity|intros [|]; discriminate]|]. destruct (IH _ F') as (L & A). split; [f_equal; exact L|]. intros [|j] z H; cbn [nth_error] in *; [injection H as <-; eauto|eauto].
Qed.
Lemma wind_lip : forall r a b, 0 < r -> Rabs (r * sin (a / r) - r * sin (b / r)) <= Rabs (a - b) /\ Rabs (r * cos (a / r) - r * cos (b / r)) <= Rabs (a - b).
Proof.
  intros r a b r0. destruct (sin_lip (a / r) (b / r)) as (S & C). assert (E : r * Rabs (a / r - b / r) = Rabs (a - b)). { rewrite <- (Rabs_pos_eq r) at 1 by lra. rewrite <- Rabs_mult. f_equal. field. lra. }
  rewrite <- !Rmult_minus_distr_l, !Rabs_mult, (Rabs_pos_eq r), <- E by lra. split; apply Rmult_le_compat_l; lra.
Qed.

Lemma Rabs_triang_gen : forall a m b, Rabs (a - b) <= Rabs (a - m) + Rabs (m - b).
Proof. intros a m b. replace (a - b) with ((a - m) + (m - b)) by ring. apply Rabs_triang. Qed.
Lemma face_wound : forall sn cs r xs ys X Y E B, accurate sn sin -> accurate cs cos -> moderate_radius r -> Forall is_number xs -> Forall is_number ys -> length X = length Y ->
  Forall2 (fun g z => Rabs (g - z) <= E /\ Rabs z <= B) (map real xs) X -> Forall2 (fun g z => Rabs (g - z) <= E /\ Rabs z <= B) (map real ys) Y -> E + B <= bpow radix2 300 ->
  exists pts, wrap64 sn cs r xs ys = Ok pts /\ wound (real r) (E + eps * (4 * real r + (E + B))) X Y pts.
Proof.
  intros sn cs r xs ys X Y E B Sn Cs Mr Nx Ny L FX FY EB. destruct (Forall2_at _ _ _ FX) as (LX & AX). destruct (Forall2_at _ _ _ FY) as (LY & AY). assert (LL : length xs = length ys) by congruence. destruct (wrap_total sn cs r xs ys LL) as (pts & W). exists pts. split; [exact W|]. destruct (wrap_points _ _ _ _ _ _ W) as (_ & LP & P). split; [exact L|]. split; [congruence|].
  intros j x y Hx Hy. destruct (AX j x Hx) as (u & Hu & (Eu & Bu)). destruct (AY j y Hy) as (v & Hv & (Ev & Bv)). rewrite Forall_forall in Nx, Ny. pose proof (Nx u (nth_error_In _ _ Hu)) as Fu. pose proof (Ny v (nth_error_In _ _ Hv)) as Fv.
  assert (V : Rabs (real v) <= E + B). { replace (real v) with ((real v - y) + y) by ring. eapply Rle_trans; [apply Rabs_triang|]. lra. }
  destruct (laid sn cs r u v Sn Cs Mr (conj Fv (Rle_trans _ _ _ V EB))) as (_ & FY' & FZ' & _ & EY & EZ). do 3 eexists. split; [exact (P j u v Hu Hv)|]. split; [exact Fu|]. split; [exact FY'|]. split; [exact FZ'|].
  assert (r0 : 0 < real r) by (destruct Mr as (_ & Q); pose proof (bpow_gt_0 radix2 (-300)); lra). destruct (wind_lip (real r) (real v) y r0) as (S & C). pose proof eps_bounds as [E1 _].
  assert (G : eps * (4 * real r + Rabs (real v)) <= eps * (4 * real r + (E + B))) by (apply Rmult_le_compat_l; lra). assert (G0 : 0 <= eps * (4 * real r + Rabs (real v))) by (apply Rmult_le_pos; [lra|pose proof (Rabs_pos (real v)); lra]).
  split; [lra|]. split.
  - eapply Rle_trans; [apply (Rabs_triang_gen _ (real r * sin (real v / real r)))|]. lra.
  - eapply Rle_trans; [apply (Rabs_triang_gen _ (real r * cos (real v / real r)))|]. lra.
Qed.

Lemma laid_section : forall how at64 tn64 sn cs refl p r s k q M, accurate at64 atan -> accurate_tangent tn64 -> accurate sn sin -> accurate cs cos -> at_most_one sn -> at_most_one cs ->
  moderate_ordinate p -> moderate_radius r -> moderate_ordinate s -> is_number k -> numbers q -> let v := real p / (2 * PI * real r) in let S := real s * PI / 180 in Rabs v <= 4 ->
  every (fun z => Rabs z <= M) (meaning q) -> real r * Rabs S <= M -> Rabs (real k) <= M -> Rabs (real p * real s / 360) <= M -> M <= bpow radix2 290 ->
  match lay64 how at64 tn64 sn cs refl p r s k q,
        (let* t := rotate (Some (PI / 2 - atan v)) None (if refl then reflect (meaning q) else meaning q) in
         Ok (translate (- (real k + real p * real s / 360), 0) (translate (0, - (real r * S)) t))) with
  | Ok (up, down), Ok exact => let e := (45 + 10 * (1 + v * v)) * eps * M + 4 * eps * real r + 15 * (1 + real r) * eta in
      wound (real r) e (xup exact) (yup exact) up /\ wound (real r) e (xdown exact) (ydown exact) down
  | Err e, Err e' => e = e'
  | _, _ => False
  end.
Proof.
  intros how at64 tn64 sn cs refl p r s k q M At Tn Sn Cs S1 C1 Mp Mr Ms Fk Nq v S V4 BQ BA BK BI BM. assert (P29 : bpow radix2 290 <= bpow radix2 600) by (apply bpow_le; lia).
  pose proof (placed_bounded how at64 tn64 sn cs refl p r s k q M At Tn Sn Cs S1 C1 Mp Mr Ms Fk Nq V4 BQ BA BK BI (Rle_trans _ _ _ BM P29)) as H. cbv zeta in H. fold v S in H. unfold lay64.
  destruct (place64 _ _ _ _ _ _ _ _ _ _ _) as [got|e]; [|destruct (rotate _ _ _); cbn [bind] in *; exact H]. destruct (rotate _ _ _) as [t|] eqn:RR; cbn [bind] in *; [|contradiction].
  destruct (rotated_lengths _ _ _ RR) as (L1 & L2). set (exact := translate _ _) in *. destruct H as ((N1 & N2 & N3 & N4) & (P1 & P2 & P3 & P4)).
  assert (X1 : length (xup exact) = length (yup exact)) by (unfold exact, translate, vshift; cbn [xup yup]; rewrite !map_length; exact L1). assert (X2 : length (xdown exact) = length (ydown exact)) by (unfold exact, translate, vshift; cbn [xdown ydown]; rewrite !map_length; exact L2).
  set (w := 1 + v * v) in *. set (E := (39 + 10 * w) * eps * M + 14 * (1 + real r) * eta) in *.
  pose proof eps_bounds as [E1 _]. assert (E2 : eps <= / 1000000) by (unfold eps; change (bpow radix2 (-53)) with (/ 9007199254740992); lra). pose proof eta_bounds as [H1 H2]. assert (M0 : 0 <= M) by (pose proof (Rabs_pos (real k)); lra).
  assert (r0 : 0 < real r <= bpow radix2 300) by (destruct Mr as (_ & Q); pose proof (bpow_gt_0 radix2 (-300)); lra).
  assert (W : 1 <= w <= 17). { unfold w. pose proof (Rle_0_sqr v) as Q. unfold Rsqr in Q. assert (Rabs v * Rabs v <= 4 * 4) by (apply Rmult_le_compat; try apply Rabs_pos; lra). rewrite <- Rabs_mult, Rabs_pos_eq in H by lra. lra. }
  assert (EM : 0 <= eps * M <= / 1000000 * M) by (split; [apply Rmult_le_pos; lra|apply Rmult_le_compat_r; lra]). assert (MW : 0 <= eps * M * w <= eps * M * 17) by (split; [apply Rmult_le_pos; lra|apply Rmult_le_compat_l; lra]).
  assert (re : 0 <= real r * eta <= 1). { split; [apply Rmult_le_pos; lra|]. apply Rle_trans with (bpow radix2 300 * eta); [apply Rmult_le_compat_r; lra|]. unfold eta. rewrite <- bpow_plus. change 1 with (bpow radix2 0). apply bpow_le. lia. }
  assert (EQ : E = 39 * (eps * M) + 10 * (eps * M * w) + 14 * eta + 14 * (real r * eta)) by (unfold E; ring).
  assert (Q : 64 <= bpow radix2 290) by (change 64 with (bpow radix2 6); apply bpow_le; lia). assert (QQ : 16 * bpow radix2 290 <= bpow radix2 300). { change 16 with (bpow radix2 4). rewrite <- bpow_plus. apply bpow_le. lia. }
  assert (EB : E + 5 * M <= bpow radix2 300) by (rewrite EQ; lra).
  destruct (face_wound sn cs r _ _ _ _ E (5 * M) Sn Cs Mr N1 N3 X1 P1 P3 EB) as (up & WU & U). destruct (face_wound sn cs r _ _ _ _ E (5 * M) Sn Cs Mr N2 N4 X2 P2 P4 EB) as (down & WD & D). rewrite WU. cbn [bind]. rewrite WD. cbn [bind].
  assert (EE : eps * E <= / 1000000 * E) by (apply Rmult_le_compat_r; lra). assert (LE : E + eps * (4 * real r + (E + 5 * M)) <= (45 + 10 * w) * eps * M + 4 * eps * real r + 15 * (1 + real r) * eta).
  { replace ((45 + 10 * w) * eps * M) with (45 * (eps * M) + 10 * (eps * M * w)) by ring. replace (15 * (1 + real r) * eta) with (15 * eta + 15 * (real r * eta)) by ring. rewrite EQ in EE |- *. lra. }
  assert (WK : forall X Y pts e e', e <= e' -> wound (real r) e X Y pts -> wound (real r) e' X Y pts). { intros X Y pts e e' le (A & B & C). split; [exact A|]. split; [exact B|]. intros j x y Hx Hy. destruct (C j x y Hx Hy) as (a & b & c & ? & ? & ? & ? & ? & ? & ?). exists a, b, c. repeat (split; [solve [assumption|lra]|]). lra. }
  split; eapply WK; eauto.
Qed.
