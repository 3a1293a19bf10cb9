(** The sampled chord line in binary64. *)
From Coq Require Import Reals ZArith List Lra Lia Bool.
From Flocq Require Import Core BinarySingleNaN.
From Verif Require Import Base PpgFloatModel PpgFloatProofs FloatModel FloatSpec FloatProofs FloatProofs2 ShapeFloatModel ShapeFloatSpec ShapeFloatProofs ShapeFloatProofs2 SectionFloatModel SectionFloatSpec SectionFloatProofs NacaFloatModel NacaFloatProofs2 ChordFloatModel ChordFloatProofs ChordFloatProofs2 ChordSampleModel.
Import ListNotations.
Open Scope R_scope.

Lemma rnd_of : forall x : b64, rnd (val x) = val x.
Proof. intros x. apply round_generic; [apply valid_rnd_N|]. apply generic_format_B2R. Qed.

Section Samples.
Variables (a b : b64) (n : nat).
Hypotheses (Fa : finite a = true) (Fb : finite b = true) (N : (2 <= n)%nat) (M : (Z.of_nat n <= 2 ^ 30)%Z).
Let D := val b - val a.
Hypotheses (BD : bpow radix2 (-300) <= D <= bpow radix2 300) (Ba : Rabs (val a) <= huge) (Bb : Rabs (val b) <= huge).
Let g := D / INR (n - 1).
Definition step_of : b64 := fdiv64 (fsub b a) (of_int (Z.of_nat (n - 1))).
Definition sample (i : nat) : b64 := if Nat.eqb i (n - 1) then b else fadd (fmul (of_int (Z.of_nat i)) step_of) a.

Lemma basics : 1 <= INR (n - 1) <= 1073741824 /\ 0 < g /\ INR (n - 1) * g = D /\ eta <= eps * (eps * g) /\ 2 * D <= huge.
Proof.
  assert (N1 : 1 <= INR (n - 1)) by (change 1 with (INR 1); apply le_INR; lia). assert (N2 : INR (n - 1) <= 1073741824). { rewrite INR_IZR_INZ. apply IZR_le. lia. }
  pose proof (bpow_gt_0 radix2 (-300)) as P. assert (G : 0 < g) by (apply Rdiv_lt_0_compat; lra). assert (E : INR (n - 1) * g = D) by (unfold g; field; lra).
  split; [lra|]. split; [exact G|]. split; [exact E|]. split.
  - assert (Q : bpow radix2 (-330) <= g). { unfold g. apply Rmult_le_reg_r with (INR (n - 1)); [lra|]. unfold Rdiv. rewrite Rmult_assoc, Rinv_l, Rmult_1_r by lra. apply Rle_trans with (bpow radix2 (-330) * bpow radix2 30).
      - apply Rmult_le_compat_l; [apply bpow_ge_0|]. change (bpow radix2 30) with 1073741824. lra.
      - rewrite <- bpow_plus. apply BD. }
    apply Rle_trans with (bpow radix2 (-53) * (bpow radix2 (-53) * bpow radix2 (-330))). { rewrite <- !bpow_plus. unfold eta. apply bpow_le. lia. }
    unfold eps. apply Rmult_le_compat_l; [apply bpow_ge_0|]. apply Rmult_le_compat_l; [apply bpow_ge_0|exact Q].
  - apply Rle_trans with (bpow radix2 1 * bpow radix2 300); [change (bpow radix2 1) with 2; lra|]. rewrite <- bpow_plus. unfold huge. apply bpow_le. lia.
Qed.

Lemma step_val : finite step_of = true /\ Rabs (val step_of - g) <= 2.01 * (eps * g).
Proof.
  destruct basics as (Bn & G & E & H & HD). pose proof eps_bounds as [E1 E2]. pose proof (bpow_gt_0 radix2 (-300)) as P.
  destruct (fsub_ok b a Fb Fa) as (V1 & F1); [fold D; rewrite Rabs_pos_eq; lra|]. pose proof (diff_error b a) as D1. rewrite <- V1 in D1. fold D in D1. rewrite (Rabs_pos_eq D) in D1 by lra. apply Rabs_le_inv in D1.
  assert (ED : 0 <= eps * D <= / 1024 * D) by (split; [apply Rmult_le_pos; lra|apply Rmult_le_compat_r; lra]).
  destruct (of_int_val (Z.of_nat (n - 1))) as (V2 & F2); [lia|]. rewrite <- INR_IZR_INZ in V2. unfold step_of. set (d := val (fsub b a)) in *.
  assert (Q : Rabs (d / INR (n - 1) - g) <= eps * g). { unfold g. replace (d / INR (n - 1) - D / INR (n - 1)) with ((d - D) / INR (n - 1)) by (field; lra). unfold Rdiv. rewrite Rabs_mult, (Rabs_pos_eq (/ INR (n - 1))) by (apply Rlt_le, Rinv_0_lt_compat; lra). rewrite <- Rmult_assoc. apply Rmult_le_compat_r; [apply Rlt_le, Rinv_0_lt_compat; lra|]. apply Rabs_le. lra. }
  assert (Eg : 0 <= eps * g <= / 1024 * g) by (split; [apply Rmult_le_pos; lra|apply Rmult_le_compat_r; lra]). assert (EEg : 0 <= eps * (eps * g) <= / 1024 * (eps * g)) by (split; [apply Rmult_le_pos; lra|apply Rmult_le_compat_r; lra]).
  assert (GD : g <= D) by (rewrite <- E; rewrite <- (Rmult_1_l g) at 1; apply Rmult_le_compat_r; lra). apply Rabs_le_inv in Q.
  destruct (fdiv_fine (fsub b a) (of_int (Z.of_nat (n - 1))) F1) as (V3 & F3). { rewrite V2. lra. } { fold d. rewrite V2. apply Rabs_le. lra. }
  split; [exact F3|]. fold d in V3. rewrite V2 in V3. rewrite V3. pose proof (rnd_error_any (d / INR (n - 1))) as R. rewrite (Rabs_pos_eq (d / INR (n - 1))) in R by lra. apply Rabs_le_inv in R.
  assert (eps * (d / INR (n - 1)) <= eps * (g + eps * g)) by (apply Rmult_le_compat_l; lra). apply Rabs_le. lra.
Qed.

Lemma samples : linspace_between64 a b n = map sample (seq 0 n).
Proof.
  destruct basics as (Bn & G & _). destruct step_val as (Fs & Es). apply Rabs_le_inv in Es. pose proof eps_bounds as [E1 E2]. assert (Eg : 0 <= eps * g <= / 1024 * g) by (split; [apply Rmult_le_pos; lra|apply Rmult_le_compat_r; lra]).
  unfold linspace_between64. destruct (Nat.leb_spec n 1); [lia|]. fold step_of. assert (Z : Beqb step_of zero64 = false).
  { rewrite Beqb_correct by auto. apply Req_bool_false. change (B2R zero64) with 0. fold (val step_of). lra. }
  rewrite Z, map_map, removelast_map. assert (E : seq 0 n = seq 0 (n - 1) ++ [(n - 1)%nat]) by (replace n with (S (n - 1)) at 1 by lia; rewrite seq_S; reflexivity).
  rewrite E, removelast_last, map_app. cbn [map]. f_equal; [|unfold sample; rewrite Nat.eqb_refl; reflexivity].
  apply map_ext_in. intros i I. apply in_seq in I. unfold sample. destruct (Nat.eqb_spec i (n - 1)); [lia|reflexivity].
Qed.

Lemma inner : forall i, (i < n - 1)%nat -> finite (sample i) = true /\ val (sample i) = rnd (rnd (INR i * val step_of) + val a) /\ 0 <= rnd (INR i * val step_of) <= D /\
  Rabs (rnd (INR i * val step_of) - INR i * g) <= 4 * (eps * D) /\ (i = 0%nat -> val (sample i) = val a).
Proof.
  intros i Hi. destruct basics as (Bn & G & E & H & HD). pose proof eps_bounds as [E1 E2]. destruct step_val as (Fs & Es). apply Rabs_le_inv in Es. pose proof (bpow_gt_0 radix2 (-300)) as P.
  assert (Eg : 0 <= eps * g <= / 1024 * g) by (split; [apply Rmult_le_pos; lra|apply Rmult_le_compat_r; lra]). pose proof (pos_INR i) as I0. assert (I1 : INR i <= INR (n - 1) - 1). { replace (INR (n - 1) - 1) with (INR (n - 1 - 1)) by (rewrite minus_INR by lia; reflexivity). apply le_INR. lia. }
  set (s := val step_of) in *. assert (IG : 0 <= INR i * g <= D - g). { split; [apply Rmult_le_pos; lra|]. rewrite <- E. replace (INR (n - 1) * g - g) with ((INR (n - 1) - 1) * g) by ring. apply Rmult_le_compat_r; lra. }
  assert (S1 : INR i * s <= INR i * g + 2.01 * (eps * (INR i * g))). { replace (INR i * g + 2.01 * (eps * (INR i * g))) with (INR i * (g + 2.01 * (eps * g))) by ring. apply Rmult_le_compat_l; lra. }
  assert (S2 : INR i * g - 2.01 * (eps * (INR i * g)) <= INR i * s). { replace (INR i * g - 2.01 * (eps * (INR i * g))) with (INR i * (g - 2.01 * (eps * g))) by ring. apply Rmult_le_compat_l; lra. }
  assert (EI : 0 <= eps * (INR i * g) <= eps * (D - g)) by (split; [apply Rmult_le_pos; lra|apply Rmult_le_compat_l; lra]). assert (EI2 : eps * (INR i * g) <= / 1024 * (INR i * g)) by (apply Rmult_le_compat_r; lra).
  assert (EEg : 0 <= eps * (eps * g) <= / 1024 * (eps * g)) by (split; [apply Rmult_le_pos; lra|apply Rmult_le_compat_r; lra]).
  assert (ED : 0 <= eps * D <= / 1024 * D) by (split; [apply Rmult_le_pos; lra|apply Rmult_le_compat_r; lra]). assert (EED : 0 <= eps * (eps * (INR i * g)) <= / 1024 * (eps * (INR i * g))) by (split; [apply Rmult_le_pos; lra|apply Rmult_le_compat_r; lra]).
  assert (S0 : 0 <= INR i * s) by lra. pose proof (rnd_error_any (INR i * s)) as R. rewrite (Rabs_pos_eq (INR i * s)) in R by lra. apply Rabs_le_inv in R.
  assert (RS : eps * (INR i * s) <= eps * (INR i * g + 2.01 * (eps * (INR i * g)))) by (apply Rmult_le_compat_l; lra).
  assert (EG : 4 * (eps * D) <= g). { rewrite <- E. replace (4 * (eps * (INR (n - 1) * g))) with (4 * eps * INR (n - 1) * g) by ring. rewrite <- (Rmult_1_l g) at 2. apply Rmult_le_compat_r; [lra|]. apply Rle_trans with (4 * eps * 1073741824); [apply Rmult_le_compat_l; lra|]. unfold eps. change (bpow radix2 (-53)) with (/ 9007199254740992). lra. }
  assert (EgD : eps * g <= eps * D) by (apply Rmult_le_compat_l; lra).
  assert (R0 : 0 <= rnd (INR i * s)) by (apply rnd_nonneg; lra). assert (R1 : Rabs (rnd (INR i * s) - INR i * g) <= 4 * (eps * D)) by (apply Rabs_le; lra). pose proof (Rabs_le_inv _ _ R1) as R2.
  assert (RD : rnd (INR i * s) <= D) by lra.
  destruct (of_int_val (Z.of_nat i)) as (V1 & F1); [lia|]. rewrite <- INR_IZR_INZ in V1.
  destruct (fmul_fine (of_int (Z.of_nat i)) step_of F1 Fs) as (V2 & F2). { rewrite V1. fold s. apply Rabs_le. lra. } rewrite V1 in V2. fold s in V2.
  assert (SB : Rabs (rnd (INR i * s) + val a) <= huge). { apply Rabs_le_inv in Ba. apply Rabs_le_inv in Bb. unfold D in RD. apply Rabs_le. lra. }
  destruct (fadd_ok (fmul (of_int (Z.of_nat i)) step_of) a F2 Fa) as (V3 & F3). { rewrite V2. exact SB. } rewrite V2 in V3.
  unfold sample. destruct (Nat.eqb_spec i (n - 1)); [lia|]. split; [exact F3|]. split; [exact V3|]. split; [lra|]. split; [exact R1|].
  intros ->. rewrite V3. cbn [INR]. rewrite Rmult_0_l, rnd_0, Rplus_0_l. apply rnd_of.
Qed.

Lemma sample_bounds : forall i, (i < n)%nat -> finite (sample i) = true /\ val a <= val (sample i) <= val b /\
  Rabs (val (sample i) - (val a + INR i / INR (n - 1) * D)) <= 4 * eps * D + eps * Rmax (Rabs (val a)) (Rabs (val b)) + eta.
Proof.
  intros i Hi. destruct basics as (Bn & G & E & H & HD). pose proof eps_bounds as [E1 E2]. pose proof eta_bounds as [H1 H2]. pose proof (bpow_gt_0 radix2 (-300)) as P. set (W := Rmax (Rabs (val a)) (Rabs (val b))).
  assert (Wa : Rabs (val a) <= W) by apply Rmax_l. assert (Wb : Rabs (val b) <= W) by apply Rmax_r. pose proof (Rabs_pos (val a)). assert (0 <= eps * W) by (apply Rmult_le_pos; lra). assert (0 <= eps * D) by (apply Rmult_le_pos; lra).
  destruct (Nat.eq_dec i (n - 1)) as [->|Ni].
  - unfold sample. rewrite Nat.eqb_refl. split; [exact Fb|]. split; [unfold D in BD; lra|]. replace (INR (n - 1) / INR (n - 1) * D) with D by (field; lra). replace (val b - (val a + D)) with 0 by (unfold D; ring). rewrite Rabs_R0. lra.
  - destruct (inner i ltac:(lia)) as (F & V & B & R & _). split; [exact F|]. set (v := rnd (INR i * val step_of)) in *. rewrite V. split.
    + rewrite <- (rnd_of a) at 1. rewrite <- (rnd_of b). split; apply rnd_le; unfold D in B; lra.
    + pose proof (rnd_error_any (v + val a)) as Q. assert (VW : Rabs (v + val a) <= W). { apply Rabs_le_inv in Wa. apply Rabs_le_inv in Wb. unfold D in B. apply Rabs_le. lra. }
      assert (eps * Rabs (v + val a) <= eps * W) by (apply Rmult_le_compat_l; lra). replace (INR i / INR (n - 1) * D) with (INR i * g) by (unfold g; field; lra). apply Rabs_le_inv in Q. apply Rabs_le_inv in R. apply Rabs_le. lra.
Qed.

Lemma sample_order : forall i j, (i <= j < n)%nat -> val (sample i) <= val (sample j).
Proof.
  intros i j Hij. destruct (Nat.eq_dec j (n - 1)) as [->|Nj].
  - destruct (sample_bounds i ltac:(lia)) as (_ & B & _). unfold sample at 2. rewrite Nat.eqb_refl. lra.
  - destruct (inner i ltac:(lia)) as (_ & V & _). destruct (inner j ltac:(lia)) as (_ & V' & _). rewrite V, V'. apply rnd_le. apply Rplus_le_compat_r. apply rnd_le. apply Rmult_le_compat_r; [|apply le_INR; lia].
    destruct basics as (Bn & G & _). destruct step_val as (_ & Es). apply Rabs_le_inv in Es. pose proof eps_bounds as [E1 E2]. assert (Eg : 0 <= eps * g <= / 1024 * g) by (split; [apply Rmult_le_pos; lra|apply Rmult_le_compat_r; lra]). lra.
Qed.
End Samples.

Lemma sampled_line : forall p n xa ya xb yb, update_edges64 p = Ok ((xa, ya), (xb, yb)) -> is_number xa -> is_number ya -> is_number xb -> is_number yb -> length (fxdown p) = length (fxup p) ->
  (2 <= n)%nat -> (Z.of_nat n <= 2 ^ 30)%Z -> bpow radix2 (-300) <= real xb - real xa <= bpow radix2 300 -> Rabs (real xa) <= huge -> Rabs (real xb) <= huge ->
  let D := real xb - real xa in let Y := real yb - real ya in let W := Rmax (Rabs (real ya)) (Rabs (real yb)) in W <= bpow radix2 300 ->
  exists xs hs, chord_line64 (Some n) p = Ok (xs, hs) /\ length xs = n /\ length hs = n /\ Forall is_number xs /\ Forall is_number hs /\
  real (nth 0 xs zero64) = real xa /\ real (nth 0 hs zero64) = real ya /\ real (nth (n - 1) xs zero64) = real xb /\
  (forall i j, (i <= j < n)%nat -> real (nth i xs zero64) <= real (nth j xs zero64)) /\
  forall i, (i < n)%nat -> let x := real (nth i xs zero64) in
    Rabs (x - (real xa + INR i / INR (n - 1) * D)) <= 4 * eps * D + eps * Rmax (Rabs (real xa)) (Rabs (real xb)) + eta /\
    Rabs (real (nth i hs zero64) - (real ya + Y / D * (x - real xa))) <= 6 * eps * Rabs Y + 2 * eps * W + 2 * (1 + D) * eta.
Proof.
  intros p n xa ya xb yb E Fxa Fya Fxb Fyb L N M BD Ba Bb D Y W BW. unfold is_number in *. unfold real in *.
  pose proof (samples xa xb n Fxa Fxb N M BD) as Sm. pose proof (sample_bounds xa xb n Fxa Fxb N M BD Ba Bb) as SB. pose proof (sample_order xa xb n Fxa Fxb N M BD Ba Bb) as SO. pose proof (inner xa xb n Fxa Fxb N M BD Ba Bb 0 ltac:(lia)) as (_ & _ & _ & _ & S0).
  set (h := fun x => fadd (fmul (fdiv64 (fsub yb ya) (fsub xb xa)) (fsub x xa)) ya).
  exists (map (sample xa xb n) (seq 0 n)), (map h (map (sample xa xb n) (seq 0 n))).
  split. { unfold chord_line64. rewrite E. cbn [bind fst snd]. unfold vzip. unfold b64 in *. rewrite L, Nat.eqb_refl. cbn [bind]. destruct n as [|k]; [lia|]. rewrite Sm. reflexivity. }
  assert (Nx : forall i, (i < n)%nat -> nth i (map (sample xa xb n) (seq 0 n)) zero64 = sample xa xb n i). { intros i Hi. rewrite (nth_indep _ _ (sample xa xb n 0)) by (rewrite map_length, seq_length; exact Hi). rewrite map_nth, seq_nth by exact Hi. reflexivity. }
  assert (Nh : forall i, (i < n)%nat -> nth i (map h (map (sample xa xb n) (seq 0 n))) zero64 = h (sample xa xb n i)). { intros i Hi. rewrite (nth_indep _ _ (h zero64)) by (rewrite !map_length, seq_length; exact Hi). rewrite map_nth, Nx by exact Hi. reflexivity. }
  assert (CP : forall i, (i < n)%nat -> finite (h (sample xa xb n i)) = true /\ Rabs (val (h (sample xa xb n i)) - (val ya + Y / D * (val (sample xa xb n i) - val xa))) <= 6 * eps * Rabs Y + 2 * eps * W + 2 * (1 + D) * eta /\ (val (sample xa xb n i) = val xa -> val (h (sample xa xb n i)) = val ya)).
  { intros i Hi. destruct (SB i Hi) as (F & B & _). apply (chord_point xa xb ya yb (sample xa xb n i) Fxa Fxb Fya Fyb F BD BW B). }
  split; [rewrite map_length, seq_length; reflexivity|]. split; [rewrite !map_length, seq_length; reflexivity|].
  split. { apply Forall_forall. intros x I. apply in_map_iff in I as (i & <- & I). apply in_seq in I. apply SB. lia. }
  split. { apply Forall_forall. intros x I. rewrite map_map in I. apply in_map_iff in I as (i & <- & I). apply in_seq in I. apply CP. lia. }
  rewrite !Nx, Nh by lia. split; [apply S0; reflexivity|]. split; [apply CP; [lia|apply S0; reflexivity]|]. split; [unfold sample; rewrite Nat.eqb_refl; reflexivity|]. split.
  - intros i j Hij. rewrite !Nx by lia. apply SO, Hij.
  - intros i Hi. cbv zeta. rewrite Nx, Nh by exact Hi. split; [apply SB, Hi|apply CP, Hi].
Qed.

(** Without a number of points: the profile's own abscissae, or 500 points when these differ. *)
Lemma default_line : forall p, common_abscissae p -> same_sizes p -> chord_line64 None p = compute_chord_line64 p /\ chord_line64 (Some 0%nat) p = compute_chord_line64 p.
Proof.
  intros p C S. assert (Q : same_abscissae64 p = Ok tt) by (apply same_ok; auto). unfold chord_line64, compute_chord_line64. destruct (update_edges64 p) as [e|x]; [|split; reflexivity]. cbn [bind].
  rewrite Q. unfold same_abscissae64 in Q. destruct (vzip _ (fxup p) (fxdown p)) as [eq|x]; [|discriminate]. cbn [bind] in *. destruct (forallb (fun b => b) eq); [|discriminate]. split; reflexivity.
Qed.
Lemma differing_line : forall p i x y, numbers p -> same_sizes p -> nth_error (fxup p) i = Some x -> nth_error (fxdown p) i = Some y -> real x <> real y -> chord_line64 None p = chord_line64 (Some 500%nat) p.
Proof.
  intros p i x y (N1 & N2 & _) (S1 & S2 & S3) Hx Hy NE. unfold chord_line64. destruct (update_edges64 p) as [e|]; [|reflexivity]. cbn [bind]. unfold vzip. destruct (Nat.eqb (length (fxup p)) (length (fxdown p))); [|reflexivity]. cbn [bind].
  assert (Q : forallb (fun b => b) (map2 (fun a b : b64 => Beqb a b) (fxup p) (fxdown p)) = false).
  { clear - N1 N2 Hx Hy NE. revert i Hx Hy. generalize dependent (fxdown p). induction (fxup p) as [|a l IH]; intros [|b l'] N2 [|i] Hx Hy; cbn in *; try discriminate.
    - injection Hx as ->. injection Hy as ->. inversion N1; inversion N2; subst. rewrite Beqb_correct by auto. rewrite Req_bool_false by exact NE. reflexivity.
    - inversion N1; inversion N2; subst. rewrite (IH H2 l' H6 i Hx Hy). apply andb_false_r. }
  rewrite Q. reflexivity.
Qed.

(** One point: the leading edge. *)
Lemma single_point : forall p xa ya xb yb, update_edges64 p = Ok ((xa, ya), (xb, yb)) -> is_number xa -> is_number ya -> is_number xb -> is_number yb -> length (fxdown p) = length (fxup p) ->
  bpow radix2 (-300) <= real xb - real xa <= bpow radix2 300 -> Rabs (real xa) <= huge -> Rmax (Rabs (real ya)) (Rabs (real yb)) <= bpow radix2 300 ->
  exists x h, chord_line64 (Some 1%nat) p = Ok ([x], [h]) /\ is_number x /\ is_number h /\ real x = real xa /\ real h = real ya.
Proof.
  intros p xa ya xb yb E Fxa Fya Fxb Fyb L BD Ba BW. unfold is_number, real in *. pose proof (bpow_gt_0 radix2 (-300)) as P.
  set (x := fadd (fmul (of_int (Z.of_nat 0)) (fsub xb xa)) xa). set (h := fadd (fmul (fdiv64 (fsub yb ya) (fsub xb xa)) (fsub x xa)) ya). exists x, h.
  split. { unfold chord_line64. rewrite E. cbn [bind fst snd]. unfold vzip. unfold b64 in *. rewrite L, Nat.eqb_refl. reflexivity. }
  destruct (of_int_val (Z.of_nat 0)) as (V0 & F0); [lia|]. assert (HD : bpow radix2 300 <= huge) by (unfold huge; apply bpow_le; lia).
  destruct (fsub_ok xb xa Fxb Fxa) as (V1 & F1); [rewrite Rabs_pos_eq; lra|]. cbn in V0. pose proof huge_big.
  destruct (fmul_fine (of_int (Z.of_nat 0)) (fsub xb xa) F0 F1) as (V2 & F2). { replace (val (of_int (Z.of_nat 0))) with 0 by (symmetry; exact V0). rewrite Rmult_0_l, Rabs_R0. lra. }
  replace (val (of_int (Z.of_nat 0))) with 0 in V2 by (symmetry; exact V0). rewrite Rmult_0_l, rnd_0 in V2.
  destruct (fadd_ok (fmul (of_int (Z.of_nat 0)) (fsub xb xa)) xa F2 Fxa) as (V3 & F3). { rewrite V2, Rplus_0_l. exact Ba. } rewrite V2, Rplus_0_l, rnd_of in V3. fold x in V3, F3.
  destruct (chord_point xa xb ya yb x Fxa Fxb Fya Fyb F3 BD BW) as (Fh & _ & Hh). { rewrite V3. lra. }
  split; [exact F3|]. split; [exact Fh|]. split; [exact V3|]. apply Hh. exact V3.
Qed.
