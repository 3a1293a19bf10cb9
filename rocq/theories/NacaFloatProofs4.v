(** NACA foils in binary64. *)
From Coq Require Import Reals ZArith List Lra Lia Bool Sorted.
From Flocq Require Import Core BinarySingleNaN.
From Verif Require Import Base PpgFloatModel PpgFloatProofs FloatModel FloatSpec FloatProofs ShapeFloatModel ShapeFloatProofs SectionFloatModel SectionFloatProofs SectionFloatProofs4 NacaModel NacaBounds NacaProofs NacaFloatModel NacaFloatSpec NacaFloatProofs NacaFloatProofs2 NacaFloatProofs3.
Import ListNotations.
Open Scope R_scope.

Lemma vzip_maps : forall (f : b64 -> b64 -> b64) (g h : b64 -> b64) l, vzip f (map g l) (map h l) = Ok (map (fun a => f (g a) (h a)) l).
Proof. intros f g h l. unfold vzip. rewrite !map_length, Nat.eqb_refl. f_equal. induction l; cbn; f_equal; auto. Qed.
Lemma vzip_left : forall (f : b64 -> b64 -> b64) (h : b64 -> b64) l, vzip f l (map h l) = Ok (map (fun a => f a (h a)) l).
Proof. intros f h l. rewrite <- (map_id l) at 1. apply vzip_maps. Qed.

Section Foil.
Variables (L : mathlib) (t : b64).
Hypothesis G : good_library L.
Hypothesis Ft : finite t = true. Hypothesis Bt : 0 <= val t <= 1.
Let ht := half_thickness64 L t.

Definition point_facts (flat : Prop) (XU XD YU YD : b64 -> b64) : Prop :=
  (flat -> forall x, XU x = x /\ XD x = x) /\
  (forall x, finite x = true -> 0 <= val x <= 1 -> finite (XU x) = true /\ finite (XD x) = true /\ finite (YU x) = true /\ finite (YD x) = true) /\
  (forall x, finite x = true -> val x = 0 -> val (XU x) = 0 /\ val (XD x) = 0 /\ val (YU x) = 0 /\ val (YD x) = 0) /\
  (flat -> forall x, finite x = true -> 0 <= val x <= 1 -> Rabs ((val (YU x) - val (YD x)) / 2 - half_thickness (val t) (val x)) <= 90 * eps) /\
  (/ 200 <= val t ->
    (forall x, finite x = true -> / 2 ^ 31 <= val x <= 1 - / 2 ^ 31 -> val (YD x) < val (YU x)) /\
    - (2 * eps) <= val (YU one64) < 0 /\ val (YD one64) = - val (YU one64) /\ Rabs (val (XU one64) - 1) <= 4 * eps /\ Rabs (val (XD one64) - 1) <= 4 * eps /\
    (flat -> val (YU one64) = - rnd (5 * val t) * bpow radix2 (-55))).

Lemma ht_one : / 200 <= val t -> finite (ht one64) = true /\ val (ht one64) = - rnd (5 * val t) * bpow radix2 (-55) /\ - (6 * bpow radix2 (-55)) <= val (ht one64) <= - bpow radix2 (-61).
Proof.
  intros T. destruct (half_one L t G Ft ltac:(lra)) as (F & V & E). fold ht in F, V. split; auto. split; auto. rewrite V. apply Rabs_le_inv in E. pose proof eps_bounds. rewrite eps_val in E.
  assert (B : / 64 <= rnd (5 * val t) <= 6) by lra. change (-61)%Z with (-6 + -55)%Z. rewrite bpow_plus. change (bpow radix2 (-6)) with (/ 64). pose proof (bpow_gt_0 radix2 (-55)). split; nra.
Qed.
Lemma ht_low : / 200 <= val t -> - (2 * eps) <= val (ht one64).
Proof.
  intros T. destruct (ht_one T) as (_ & _ & Q). assert (B55 : bpow radix2 (-55) = eps / 4). { unfold eps. change (-55)%Z with (-53 + -2)%Z. rewrite bpow_plus. change (bpow radix2 (-2)) with (/ 4). field. }
  pose proof eps_bounds. lra.
Qed.
Lemma ht_near : forall x, finite x = true -> 0 <= val x <= 1 -> near (half_thickness (val t) (val x)) 64 (ht x) /\ small 1 (ht x).
Proof. intros x F B. split. apply half_near; auto. apply G. apply half_small; auto. Qed.
Lemma zero_range : forall x, val x = 0 -> 0 <= val x <= 1. Proof. intros. lra. Qed.
Lemma one_range : 0 <= val one64 <= 1. Proof. destruct one_val as (-> & _). lra. Qed.

Lemma symmetric_points : forall flat, point_facts flat (fun x => x) (fun x => x) ht (fun x => fneg (ht x)).
Proof.
  intros flat. repeat split; auto.
  - apply ht_near; auto.
  - rewrite fneg_finite. apply ht_near; auto.
  - apply half_zero; auto.
  - rewrite fneg_val. destruct (half_zero L t x) as (_ & E); auto. fold ht in E. lra.
  - intros _ x F B. destruct (ht_near x F B) as ((_ & E) & _). rewrite fneg_val. replace ((val (ht x) - - val (ht x)) / 2) with (val (ht x)) by field. pose proof eps_bounds. lra.
  - intros x F I. rewrite fneg_val. assert (0 < / 2 ^ 31) by lra. pose proof (half_large L t G Ft Bt x F ltac:(lra) ltac:(lra) ltac:(lra)) as Q. fold ht in Q. lra.
  - apply ht_low; auto.
  - destruct (ht_one H) as (_ & _ & Q). pose proof (bpow_gt_0 radix2 (-61)). lra.
  - rewrite fneg_val. reflexivity.
  - destruct one_val as (-> & _). replace (1 - 1) with 0 by ring. rewrite Rabs_R0. pose proof eps_bounds. lra.
  - destruct one_val as (-> & _). replace (1 - 1) with 0 by ring. rewrite Rabs_R0. pose proof eps_bounds. lra.
  - intros _. apply ht_one; auto.
Qed.

Variable cm : b64 -> b64.
Hypothesis cm_small : forall x, finite x = true -> 0 <= val x <= 1 -> small 20 (cm x).
Hypothesis cm_zero : forall x, finite x = true -> val x = 0 -> val (cm x) = 0.
Hypothesis cm_one : val (cm one64) = 0.
Lemma linear_points : forall flat, point_facts flat (fun x => x) (fun x => x) (fun x => fadd (cm x) (ht x)) (fun x => fsub (cm x) (ht x)).
Proof.
  intros flat. assert (SU : forall x, finite x = true -> 0 <= val x <= 1 -> small 22 (fadd (cm x) (ht x))) by (intros x F B; apply small_add with 20 1; try lra; [apply cm_small; auto|apply ht_near; auto]).
  assert (SD : forall x, finite x = true -> 0 <= val x <= 1 -> small 22 (fsub (cm x) (ht x))) by (intros x F B; apply small_sub with 20 1; try lra; [apply cm_small; auto|apply ht_near; auto]).
  destruct one_val as (V1 & F1). pose proof one_range as R1.
  assert (Z : forall x, finite x = true -> 0 <= val x <= 1 -> val (cm x) = 0 -> val (fadd (cm x) (ht x)) = val (ht x) /\ val (fsub (cm x) (ht x)) = - val (ht x)).
  { intros x F B E. apply from_zero with 1; auto; try lra. apply cm_small; auto. apply ht_near; auto. }
  repeat split; auto.
  - apply SU; auto.
  - apply SD; auto.
  - destruct (half_zero L t x) as (_ & E); auto. destruct (Z x) as (-> & _); auto; try lra. try solve [apply cm_zero; auto].
  - destruct (half_zero L t x) as (_ & E); auto. destruct (Z x) as (_ & ->); auto; try lra. try solve [apply cm_zero; auto]. fold ht in E. lra.
  - intros _ x F B. destruct (ht_near x F B) as ((FH & E) & (_ & SH)). destruct (cm_small x F B) as (FC & SC). pose proof huge_big.
    assert (B1 : Rabs (val (cm x) + val (ht x)) <= 21) by (eapply Rle_trans; [apply Rabs_triang|]; lra).
    assert (B2 : Rabs (val (cm x) - val (ht x)) <= 21) by (unfold Rminus; eapply Rle_trans; [apply Rabs_triang|]; rewrite Rabs_Ropp; lra).
    destruct (fadd_ok _ _ FC FH ltac:(lra)) as (-> & _). destruct (fsub_ok _ _ FC FH ltac:(lra)) as (-> & _).
    pose proof (rnd_error_any (val (cm x) + val (ht x))) as E1. pose proof (rnd_error_any (val (cm x) - val (ht x))) as E2. pose proof eps_bounds as (e0 & _). pose proof eta_tiny.
    assert (eps * Rabs (val (cm x) + val (ht x)) <= eps * 21) by (apply Rmult_le_compat_l; lra). assert (eps * Rabs (val (cm x) - val (ht x)) <= eps * 21) by (apply Rmult_le_compat_l; lra).
    apply Rabs_le_inv in E. apply Rabs_le_inv in E1. apply Rabs_le_inv in E2. apply Rabs_le. lra.
  - intros x F I. assert (0 < / 2 ^ 31) by lra. assert (B : 0 <= val x <= 1) by lra. apply in_order; [apply cm_small; auto|apply ht_near; auto|].
    pose proof (half_large L t G Ft Bt x F ltac:(lra) ltac:(lra) ltac:(lra)) as Q. fold ht in Q. lra.
  - destruct (Z one64) as (-> & _); auto. try solve [apply cm_one; auto]. apply ht_low; auto.
  - destruct (ht_one H) as (_ & _ & Q). pose proof (bpow_gt_0 radix2 (-61)). destruct (Z one64) as (-> & _); auto. try solve [apply cm_one; auto]. lra.
  - destruct (Z one64) as (-> & ->); auto. try solve [apply cm_one; auto].
  - rewrite V1. replace (1 - 1) with 0 by ring. rewrite Rabs_R0. pose proof eps_bounds. lra.
  - rewrite V1. replace (1 - 1) with 0 by ring. rewrite Rabs_R0. pose proof eps_bounds. lra.
  - intros _. destruct (Z one64) as (-> & _); auto. try solve [apply cm_one; auto]. apply ht_one; auto.
Qed.

Variables sn cs : b64 -> b64.
Hypothesis angle_facts : forall x, finite x = true -> 0 <= val x <= 1 -> small 1 (sn x) /\ small 1 (cs x) /\ 1 / 32 <= val (cs x) <= 1.
Lemma cosine_points : point_facts False (fun x => fsub x (fmul (ht x) (sn x))) (fun x => fadd x (fmul (ht x) (sn x)))
  (fun x => fadd (cm x) (fmul (ht x) (cs x))) (fun x => fsub (cm x) (fmul (ht x) (cs x))).
Proof.
  destruct one_val as (V1 & F1). pose proof one_range as R1.
  assert (S1 : forall x, finite x = true -> 0 <= val x <= 1 -> small 1 x) by (intros x F B; split; auto; apply Rabs_le; lra).
  assert (SS : forall x, finite x = true -> 0 <= val x <= 1 -> small 2 (fmul (ht x) (sn x))) by (intros x F B; apply small_mul with 1 1; try lra; [apply ht_near; auto|apply angle_facts; auto]).
  assert (SC : forall x, finite x = true -> 0 <= val x <= 1 -> small 2 (fmul (ht x) (cs x))) by (intros x F B; apply small_mul with 1 1; try lra; [apply ht_near; auto|apply angle_facts; auto]).
  assert (Z : forall x, finite x = true -> 0 <= val x <= 1 -> val (cm x) = 0 -> val (fadd (cm x) (fmul (ht x) (cs x))) = val (fmul (ht x) (cs x)) /\ val (fsub (cm x) (fmul (ht x) (cs x))) = - val (fmul (ht x) (cs x))).
  { intros x F B E. apply from_zero with 2; auto; try lra. apply cm_small; auto. }
  assert (Z0 : forall x, finite x = true -> val x = 0 -> val (fmul (ht x) (sn x)) = 0 /\ val (fmul (ht x) (cs x)) = 0).
  { intros x F V. destruct (half_zero L t x) as (FH & E); auto. fold ht in FH, E. pose proof (angle_facts x F (zero_range x V)) as (A1 & A2 & _).
    split; [exact (proj2 (zero_mul 1 _ _ A1 FH E))|exact (proj2 (zero_mul 1 _ _ A2 FH E))]. }
  assert (ZX : forall x, finite x = true -> val x = 0 -> val (fsub x (fmul (ht x) (sn x))) = 0 /\ val (fadd x (fmul (ht x) (sn x))) = 0).
  { intros x F V. destruct (Z0 x F V) as (E & _). destruct (from_zero x (fmul (ht x) (sn x)) 2 F V) as (-> & ->); auto; try lra. apply SS; auto. lra. }
  assert (ZY : forall x, finite x = true -> val x = 0 -> val (fadd (cm x) (fmul (ht x) (cs x))) = 0 /\ val (fsub (cm x) (fmul (ht x) (cs x))) = 0).
  { intros x F V. destruct (Z0 x F V) as (_ & E). destruct (Z x F (zero_range x V)) as (-> & ->). try solve [apply cm_zero; auto]. lra. }
  assert (O : / 200 <= val t -> - (2 * eps) <= val (fmul (ht one64) (cs one64)) < 0 /\ Rabs (val (fmul (ht one64) (sn one64))) <= 2 * eps).
  { intros T. destruct (ht_one T) as (FH & _ & Q). destruct (angle_facts one64 F1 R1) as ((FS & BS) & (FC & _) & BC). pose proof huge_big as HB.
    assert (B55 : bpow radix2 (-55) = eps / 4). { unfold eps. change (-55)%Z with (-53 + -2)%Z. rewrite bpow_plus. change (bpow radix2 (-2)) with (/ 4). field. }
    pose proof eps_bounds as (e0 & _). pose proof (bpow_gt_0 radix2 (-61)) as P61. assert (AH : Rabs (val (ht one64)) <= 6 / 4 * eps) by (apply Rabs_le; lra).
    split.
    - destruct (fmul_fine _ _ FH FC) as (-> & _). rewrite Rabs_mult. pose proof (Rabs_pos (val (ht one64))). rewrite (Rabs_pos_eq (val (cs one64))) by lra. rewrite eps_val in AH. nra.
      split.
      { replace (2 * eps) with (bpow radix2 (-52)) by (unfold eps; change (-52)%Z with (1 + -53)%Z; rewrite bpow_plus; reflexivity).
        rewrite <- (rnd_exact (bpow radix2 (-52))) by (apply generic_format_bpow; cbn; lia). rewrite <- rnd_opp. apply rnd_le.
        replace (bpow radix2 (-52)) with (2 * eps) by (unfold eps; change (-52)%Z with (1 + -53)%Z; rewrite bpow_plus; reflexivity).
        assert (- val (ht one64) * val (cs one64) <= (6 / 4 * eps) * 1) by (apply Rmult_le_compat; lra). lra. }
      apply Rle_lt_trans with (- bpow radix2 (-66)); [|pose proof (bpow_gt_0 radix2 (-66)); lra].
      rewrite <- (rnd_exact (bpow radix2 (-66))) by (apply generic_format_bpow; cbn; lia). rewrite <- rnd_opp. apply rnd_le.
      change (-66)%Z with (-61 + -5)%Z. rewrite bpow_plus. change (bpow radix2 (-5)) with (/ 32).
      assert (bpow radix2 (-61) * (/ 32) <= (- val (ht one64)) * val (cs one64)) by (apply Rmult_le_compat; lra). lra.
    - assert (P : Rabs (val (ht one64) * val (sn one64)) <= 6 / 4 * eps) by (rewrite Rabs_mult, <- (Rmult_1_r (6 / 4 * eps)); apply Rmult_le_compat; auto using Rabs_pos).
      destruct (fmul_fine _ _ FH FS) as (-> & _). { rewrite eps_val in P. lra. }
      pose proof (rnd_error_any (val (ht one64) * val (sn one64))) as E. pose proof eta_tiny. 
      assert (E4 : eps * Rabs (val (ht one64) * val (sn one64)) <= eps * (1 / 4)) by (apply Rmult_le_compat_l; [lra|]; rewrite eps_val in P; lra).
      replace (rnd (val (ht one64) * val (sn one64))) with ((rnd (val (ht one64) * val (sn one64)) - val (ht one64) * val (sn one64)) + val (ht one64) * val (sn one64)) by ring.
      eapply Rle_trans; [apply Rabs_triang|]. lra. }
  repeat split; try tauto.
  - refine (proj1 (small_sub 1 2 4 _ _ _ _ _ _)); auto; lra.
  - refine (proj1 (small_add 1 2 4 _ _ _ _ _ _)); auto; lra.
  - refine (proj1 (small_add 20 2 23 _ _ _ _ _ _)); auto using cm_small; lra.
  - refine (proj1 (small_sub 20 2 23 _ _ _ _ _ _)); auto using cm_small; lra.
  - apply ZX; auto.
  - apply ZX; auto.
  - apply ZY; auto.
  - apply ZY; auto.
  - intros x F I. assert (0 < / 2 ^ 31) by lra. assert (B : 0 <= val x <= 1) by lra.
    pose proof (half_large L t G Ft Bt x F ltac:(lra) ltac:(lra) ltac:(lra)) as Q. fold ht in Q. destruct (angle_facts x F B) as (_ & (FC & _) & BC). destruct (ht_near x F B) as (_ & (FH & SH)).
    assert (P : / 2 ^ 40 * / 32 <= val (ht x) * val (cs x) <= 1). { split; [apply Rmult_le_compat; lra|]. rewrite <- (Rmult_1_r 1). apply Rmult_le_compat; lra. }
    pose proof huge_big. pose proof eps_val as ev. destruct (fmul_fine _ _ FH FC) as (E & FF). rewrite Rabs_pos_eq; lra.
    pose proof (rnd_error_any (val (ht x) * val (cs x))) as ER. pose proof eta_tiny. rewrite (Rabs_pos_eq (val (ht x) * val (cs x))) in ER by lra. pose proof eps_bounds as (e0 & _).
    assert (E3 : eps * (val (ht x) * val (cs x)) <= eps * 1) by (apply Rmult_le_compat_l; lra).
    assert (E2 : 0 < val (fmul (ht x) (cs x)) - / 2 ^ 46). { rewrite E. apply Rabs_le_inv in ER. rewrite ev in *. lra. }
    assert (SM : small 1 (fmul (ht x) (cs x))).
    { split; auto. rewrite E. rewrite Rabs_pos_eq by (apply rnd_nonneg; lra). replace 1 with (rnd 1). apply rnd_le; lra. apply rnd_exact. change 1 with (bpow radix2 0). apply generic_format_bpow. cbn. lia. }
    apply in_order; auto; try lra.
  - destruct (O H) as (O1 & _). destruct (Z one64) as (-> & _); auto. try solve [apply cm_one; auto]. apply O1.
  - destruct (O H) as (O1 & _). destruct (Z one64) as (-> & _); auto. try solve [apply cm_one; auto]. apply O1.
  - destruct (Z one64) as (-> & ->); auto. try solve [apply cm_one; auto].
  - destruct (O H) as (_ & O2). destruct (SS one64 F1 R1) as (FS & BS). pose proof huge_big. apply Rabs_le_inv in O2.
    assert (near 1 4 (fsub one64 (fmul (ht one64) (sn one64)))) as (_ & N); [|exact N].
    replace 1 with (val one64 - 0) by lra. apply near_sub with (k1 := 0) (k2 := 2) (W := 1); try (rewrite ?V1; apply Rabs_le; lra); try lra; [apply near_exact; auto|]. split; auto. apply Rabs_le; lra.
  - destruct (O H) as (_ & O2). destruct (SS one64 F1 R1) as (FS & BS). pose proof huge_big. apply Rabs_le_inv in O2.
    assert (near 1 4 (fadd one64 (fmul (ht one64) (sn one64)))) as (_ & N); [|exact N].
    replace 1 with (val one64 + 0) by lra. apply near_add with (k1 := 0) (k2 := 2) (W := 1); try (rewrite ?V1; apply Rabs_le; lra); try lra; [apply near_exact; auto|]. split; auto. apply Rabs_le; lra.
Qed.
End Foil.

Definition thickness_of (c d : nat) : b64 := fdiv64 (of_int (Z.of_nat (10 * c + d))) hundred64.
Lemma foil_points : forall L a b c d cosine n, good_library L -> digit a -> digit b -> digit c -> digit d -> (2 <= n)%nat -> (Z.of_nat n <= 2 ^ 30)%Z ->
  exists XU XD YU YD, naca_foil64 L a b c d cosine n = Ok (mkF (map XU (linspace64 n)) (map XD (linspace64 n)) (map YU (linspace64 n)) (map YD (linspace64 n))) /\
    point_facts (thickness_of c d) (cosine = false \/ b = 0%nat) XU XD YU YD.
Proof.
  intros L a b c d cosine n G A B C D N M. unfold digit in *. destruct ten_val as (V10 & F10). destruct hundred_val as (V100 & F100).
  destruct (quotient_val a hundred64 100 F100 V100 ltac:(lra) ltac:(lia)) as (Fm & Em & _). destruct (quotient_val b ten64 10 F10 V10 ltac:(lra) ltac:(lia)) as (Fp & Ep & Zp).
  destruct (quotient_val (10 * c + d) hundred64 100 F100 V100 ltac:(lra) ltac:(lia)) as (Ft & Et & _). fold (thickness_of c d) in *. unfold naca_foil64. fold (thickness_of c d).
  set (m := fdiv64 (of_int (Z.of_nat a)) hundred64) in *. set (p := fdiv64 (of_int (Z.of_nat b)) ten64) in *. set (t := thickness_of c d) in *.
  assert (A9 : INR a <= 9) by (replace 9 with (INR 9) by (cbn; lra); apply le_INR; auto). assert (T9 : INR (10 * c + d) <= 99) by (replace 99 with (INR 99) by (cbn; lra); apply le_INR; lia).
  pose proof (pos_INR a). pose proof (pos_INR (10 * c + d)). pose proof eps_bounds as (e0 & e1).
  assert (Bm : 0 <= val m <= 901 / 10000). { apply Rabs_le_inv in Em. assert (eps * (INR a / 100) <= / 1024 * (INR a / 100)) by (apply Rmult_le_compat_r; lra). rewrite eps_val in Em. lra. }
  assert (Bt : 0 <= val t <= 1). { apply Rabs_le_inv in Et. rewrite eps_val in Et. lra. }
  unfold naca4_64. assert (EB : Beqb p zero64 = Req_bool (val p) 0) by (apply (@Beqb_correct 53 1024); auto). rewrite EB. destruct b as [|b].
  - rewrite Req_bool_true by (apply Zp; auto). exists (fun x => x), (fun x => x), (half_thickness64 L t), (fun x => fneg (half_thickness64 L t x)). rewrite map_id, map_map. split; auto. apply symmetric_points; auto.
  - assert (B9 : INR (S b) <= 9) by (replace 9 with (INR 9) by (cbn; lra); apply le_INR; auto). assert (B1 : 1 <= INR (S b)) by (apply (le_INR 1); lia).
    assert (Bp : 999 / 10000 <= val p <= 9001 / 10000). { apply Rabs_le_inv in Ep. rewrite eps_val in Ep. lra. }
    rewrite Req_bool_false by lra. destruct (stations_sorted n N M) as (SS & FS). rewrite !(split_map _ _ p) by auto.
    assert (CS : forall x, finite x = true -> 0 <= val x <= 1 -> small 20 (cam L m p x)) by (intros; apply (cam_small L m p); auto).
    assert (CZ : forall x, finite x = true -> val x = 0 -> val (cam L m p x) = 0) by (intros; apply (cam_zero L m p); auto).
    assert (CO : val (cam L m p one64) = 0) by (apply (cam_one L m p); auto).
    assert (CA : forall x, finite x = true -> 0 <= val x <= 1 -> small 1 (sine L m p x) /\ small 1 (cosi L m p x) /\ 1 / 32 <= val (cosi L m p x) <= 1) by (intros; apply (angles L m p t); auto).
    fold (cam L m p). destruct cosine.
    + rewrite map_map. repeat (rewrite ?vzip_maps, ?vzip_left; cbn [bind]).
      do 4 eexists. split; [reflexivity|]. pose proof (cosine_points L t G Ft Bt (cam L m p) CS CZ CO (sine L m p) (cosi L m p) CA) as (_ & K2 & K3 & _ & K5).
      split; [intros [?|?]; discriminate|]. split; [exact K2|]. split; [exact K3|]. split; [intros [?|?]; discriminate|]. intros T. destruct (K5 T) as (Q1 & Q2 & Q3 & Q4 & Q5 & _). do 5 (split; [assumption|]). intros [?|?]; discriminate.
    + rewrite !vzip_maps. cbn [bind]. exists (fun x => x), (fun x => x), (fun x => fadd (cam L m p x) (half_thickness64 L t x)), (fun x => fsub (cam L m p x) (half_thickness64 L t x)). rewrite map_id. split; auto.
      apply linear_points; auto.
Qed.
