(** Stations and digits of NACA foils in binary64. *)
From Coq Require Import Reals ZArith List Lra Lia Bool Sorted.
From Flocq Require Import Core BinarySingleNaN.
From Verif Require Import Base PpgFloatModel PpgFloatProofs FloatModel FloatSpec FloatProofs ShapeFloatModel ShapeFloatProofs SectionFloatModel SectionFloatProofs SectionFloatProofs4 NacaModel NacaBounds NacaProofs NacaFloatModel NacaFloatSpec NacaFloatProofs.
Import ListNotations.
Open Scope R_scope.

Lemma rnd_0 : rnd 0 = 0.
Proof. unfold rnd. apply round_0. apply valid_rnd_N. Qed.
Lemma of_int_val : forall z, (Z.abs z <= 2 ^ 53)%Z -> val (of_int z) = IZR z /\ finite (of_int z) = true.
Proof.
  intros z B. pose proof (@binary_normalize_correct 53 1024 prec64 emax64 mode_NE z 0 false) as H.
  assert (G : generic_format radix2 fexp64 (IZR z)). { replace (IZR z) with (IZR z * bpow radix2 0) by (cbn; ring). apply grid_format; lia. }
  assert (E : @F2R radix2 {| Fnum := z; Fexp := 0 |} = IZR z) by (unfold F2R; cbn; ring). cbv zeta in H. rewrite E in H.
  change (round radix2 (SpecFloat.fexp 53 1024) (round_mode mode_NE) (IZR z)) with (rnd (IZR z)) in H. rewrite rnd_exact in H by exact G.
  assert (S : Rabs (IZR z) < bpow radix2 1024). { apply Rle_lt_trans with huge; [|unfold huge; apply bpow_lt; lia]. replace (IZR z) with (IZR z * bpow radix2 0) by (cbn; ring). apply grid_small; lia. }
  rewrite Rlt_bool_true in H by exact S. destruct H as (H1 & H2 & _). auto.
Qed.

(** ** Stations *)
Definition bound : nat := Z.to_nat (2 ^ 30).
Definition step64 (n : nat) : b64 := fdiv64 one64 (of_int (Z.of_nat (n - 1))).
Definition station (n i : nat) : b64 := if Nat.eqb i (n - 1) then one64 else fadd (fmul (of_int (Z.of_nat i)) (step64 n)) zero64.
Lemma removelast_map : forall A B (f : A -> B) l, removelast (map f l) = map f (removelast l).
Proof. induction l as [|a [|b l] IH]; auto. cbn [map removelast] in *. f_equal. exact IH. Qed.
Lemma linspace_stations : forall n, (2 <= n)%nat -> linspace64 n = map (station n) (seq 0 n).
Proof.
  intros n N. unfold linspace64. destruct (Nat.leb_spec n 1); [lia|]. fold (step64 n). rewrite removelast_map.
  assert (E : seq 0 n = seq 0 (n - 1) ++ [(n - 1)%nat]) by (replace n with (S (n - 1)) at 1 by lia; rewrite seq_S; reflexivity).
  rewrite E, removelast_last, map_app. cbn [map].
  f_equal; [|unfold station; rewrite Nat.eqb_refl; reflexivity].
  apply map_ext_in. intros i I. apply in_seq in I. unfold station. destruct (Nat.eqb_spec i (n - 1)); [lia|reflexivity].
Qed.
Lemma linspace_length : forall n, length (linspace64 n) = n.
Proof.
  intros n. destruct (Nat.leb_spec 2 n). rewrite linspace_stations, map_length, seq_length; auto.
  unfold linspace64. destruct n as [|[|]]; auto; lia.
Qed.
Lemma linspace_one : linspace64 1 = [fadd (fmul (of_int 0) one64) zero64].
Proof. reflexivity. Qed.

Lemma station_facts : forall n i, (2 <= n)%nat -> (Z.of_nat n <= 2 ^ 30)%Z -> (i < n)%nat ->
  finite (station n i) = true /\ Rabs (val (station n i) - INR i / INR (n - 1)) <= 3 * eps /\
  (i = 0%nat -> val (station n i) = 0) /\ (i = (n - 1)%nat -> station n i = one64) /\
  ((0 < i < n - 1)%nat -> / 2 ^ 31 <= val (station n i) <= 1 - / 2 ^ 31).
Proof.
  intros n i N M I. set (K := (n - 1)%nat). assert (HK : (1 <= K)%nat) by (unfold K; lia).
  assert (K1 : 1 <= INR K) by (apply (le_INR 1); exact HK).
  assert (K2 : INR K <= 2 ^ 30). { rewrite INR_IZR_INZ. replace (2 ^ 30) with (IZR (2 ^ 30)) by (cbn; lra). apply IZR_le. unfold K. lia. }
  pose proof eps_bounds as (e0 & _). pose proof eps_val as ev.
  assert (IK : / 2 ^ 30 <= / INR K <= 1). { split; [apply Rinv_le_contravar; lra|]. rewrite <- Rinv_1. apply Rinv_le_contravar; lra. }
  unfold station. fold K. destruct (Nat.eqb_spec i K) as [->|NE].
  - destruct one_val as (V & F). split; [exact F|]. split; [|split; [lia|split; [auto|lia]]]. rewrite V. replace (1 - INR K / INR K) with 0 by (field; lra). rewrite Rabs_R0. lra.
  - destruct (of_int_val (Z.of_nat K)) as (VK & FK); [unfold K; lia|]. rewrite <- INR_IZR_INZ in VK.
    destruct (of_int_val (Z.of_nat i)) as (VI & FI); [lia|]. rewrite <- INR_IZR_INZ in VI.
    destruct one_val as (V1 & F1). pose proof huge_big as HB.
    destruct (fdiv_fine one64 (of_int (Z.of_nat K)) F1) as (VS & FS); [rewrite VK; lra| |].
    { rewrite V1, VK. unfold Rdiv. rewrite Rmult_1_l, Rabs_pos_eq; lra. }
    change (fdiv64 one64 (of_int (Z.of_nat K))) with (step64 n) in *. rewrite V1, VK in VS. replace (1 / INR K) with (/ INR K) in VS by (field; lra).
    assert (ES : Rabs (val (step64 n) - / INR K) <= eps * / INR K).
    { rewrite VS. pose proof (rnd_error (/ INR K)) as Q. rewrite (Rabs_pos_eq (/ INR K)) in Q by lra. apply Q.
      apply Rle_trans with (bpow radix2 (-30)); [apply bpow_le; lia|]. cbn. lra. }
    assert (II : INR i <= INR K - 1). { assert (J : INR (S i) <= INR K) by (apply le_INR; unfold K in *; lia). rewrite S_INR in J. lra. } pose proof (pos_INR i) as I0.
    assert (Q0 : 0 <= INR i * / INR K <= 1 - / INR K). { split; [apply Rmult_le_pos; lra|]. replace (1 - / INR K) with ((INR K - 1) * / INR K) by (field; lra). apply Rmult_le_compat_r; lra. }
    assert (EM : Rabs (INR i * val (step64 n) - INR i * / INR K) <= 1 * eps).
    { rewrite <- Rmult_minus_distr_l, Rabs_mult, (Rabs_pos_eq (INR i)) by lra. apply Rle_trans with (INR i * (eps * / INR K)); [apply Rmult_le_compat_l; lra|].
      replace (INR i * (eps * / INR K)) with (INR i * / INR K * eps) by ring. apply Rmult_le_compat_r; lra. }
    destruct (fmul_fine (of_int (Z.of_nat i)) (step64 n) FI FS) as (VM & FM).
    { rewrite VI. apply Rabs_le_inv in EM. apply Rabs_le. lra. } rewrite VI in VM.
    destruct (fadd_ok (fmul (of_int (Z.of_nat i)) (step64 n)) zero64 FM eq_refl) as (VA & FA).
    { change (val zero64) with 0. rewrite Rplus_0_r, VM. pose proof (rnd_near _ _ _ 1 3 EM ltac:(lra) ltac:(apply Rabs_le; lra) ltac:(lra)) as Z. apply Rabs_le_inv in Z. apply Rabs_le. lra. }
    change (val zero64) with 0 in VA. rewrite Rplus_0_r, rnd_exact, VM in VA by apply format_val.
    pose proof (rnd_near _ _ _ 1 3 EM ltac:(lra) ltac:(apply Rabs_le; lra) ltac:(lra)) as Z. rewrite <- VA in Z. split; [exact FA|].
    split; [exact Z|]. split; [|split; [lia|]].
    + intros ->. rewrite VA. cbn [INR]. rewrite Rmult_0_l. apply rnd_0.
    + intros (J & _). assert (J1 : 1 <= INR i) by (apply (le_INR 1); lia). apply Rabs_le_inv in Z.
      assert (/ INR K <= INR i * / INR K). { rewrite <- (Rmult_1_l (/ INR K)) at 1. apply Rmult_le_compat_r; lra. }
      rewrite ev in Z. lra.
Qed.
Lemma station_range : forall n i, (2 <= n)%nat -> (Z.of_nat n <= 2 ^ 30)%Z -> (i < n)%nat -> finite (station n i) = true /\ 0 <= val (station n i) <= 1.
Proof.
  intros n i N M I. destruct (station_facts n i N M I) as (F & _ & A & B & C). split; auto.
  destruct (Nat.eq_dec i 0); [rewrite A; auto; lra|]. destruct (Nat.eq_dec i (n - 1)). rewrite B by auto. destruct one_val as (-> & _). lra.
  specialize (C ltac:(lia)). assert (0 < / 2 ^ 31) by lra. lra.
Qed.
Lemma station_increases : forall n i j, (2 <= n)%nat -> (Z.of_nat n <= 2 ^ 30)%Z -> (i < j < n)%nat -> val (station n i) < val (station n j).
Proof.
  intros n i j N M I. destruct (station_facts n i N M ltac:(lia)) as (_ & A & _). destruct (station_facts n j N M ltac:(lia)) as (_ & B & _).
  set (K := (n - 1)%nat) in *. assert (K1 : 1 <= INR K) by (apply (le_INR 1); unfold K; lia).
  assert (K2 : INR K <= 2 ^ 30). { rewrite INR_IZR_INZ. replace (2 ^ 30) with (IZR (2 ^ 30)) by (cbn; lra). apply IZR_le. unfold K. lia. }
  assert (IK : / 2 ^ 30 <= / INR K) by (apply Rinv_le_contravar; lra). assert (J : INR i + 1 <= INR j) by (rewrite <- S_INR; apply le_INR; lia).
  assert (INR i / INR K + / INR K <= INR j / INR K). { unfold Rdiv. replace (INR i * / INR K + / INR K) with ((INR i + 1) * / INR K) by ring. apply Rmult_le_compat_r; lra. }
  apply Rabs_le_inv in A. apply Rabs_le_inv in B. rewrite eps_val in A, B. lra.
Qed.

(** ** Camber split at the junction *)
Lemma leb_val : forall a b, finite a = true -> finite b = true -> Bleb a b = Rle_bool (val a) (val b).
Proof. intros. apply (@Bleb_correct 53 1024); auto. Qed.
Lemma ltb_val : forall a b, finite a = true -> finite b = true -> Bltb a b = Rlt_bool (val a) (val b).
Proof. intros. apply (@Bltb_correct 53 1024); auto. Qed.
Lemma split_map : forall (f g : b64 -> b64) p l, finite p = true -> Forall (fun a => finite a = true) l -> StronglySorted (fun a b => val a < val b) l ->
  map f (filter (fun a => Bleb a p) l) ++ map g (filter (fun a => Bltb p a) l) = map (fun a => if Bleb a p then f a else g a) l.
Proof.
  intros f g p l P. induction l as [|a l IH]; intros F S; auto. inversion F as [|? ? Fa Fl]; subst. inversion S as [|? ? Sl Ha]; subst.
  cbn [filter map]. rewrite (leb_val a p), (ltb_val p a) by auto. destruct (Rle_bool_spec (val a) (val p)) as [H|H].
  - rewrite Rlt_bool_false by exact H. cbn [map app]. f_equal. apply IH; auto.
  - rewrite Rlt_bool_true by exact H. cbn [map].
    assert (E1 : filter (fun a => Bleb a p) l = []).
    { clear - P Fl Ha H. induction l as [|b l IH]; auto. inversion Fl; subst. inversion Ha; subst. cbn. rewrite leb_val by auto. rewrite Rle_bool_false by lra. auto. }
    assert (E2 : filter (fun a => Bltb p a) l = l).
    { clear - P Fl Ha H. induction l as [|b l IH]; auto. inversion Fl; subst. inversion Ha; subst. cbn. rewrite ltb_val by auto. rewrite Rlt_bool_true by lra. f_equal. auto. }
    rewrite E1, E2. cbn [map app]. f_equal. apply map_ext_in. intros b I. rewrite Forall_forall in Fl, Ha. rewrite leb_val by auto. rewrite Rle_bool_false; auto. specialize (Ha b I). lra.
Qed.
Lemma stations_sorted : forall n, (2 <= n)%nat -> (Z.of_nat n <= 2 ^ 30)%Z -> StronglySorted (fun a b => val a < val b) (linspace64 n) /\ Forall (fun a => finite a = true) (linspace64 n).
Proof.
  intros n N M. rewrite linspace_stations by auto. split.
  - assert (G : forall k i, (i + k <= n)%nat -> StronglySorted (fun a b => val a < val b) (map (station n) (seq i k))).
    { induction k as [|k IH]; intros i H; cbn; constructor. apply IH; lia. apply Forall_forall. intros b I. apply in_map_iff in I as (j & <- & J). apply in_seq in J. apply station_increases; auto. lia. }
    apply G. lia.
  - apply Forall_forall. intros b I. apply in_map_iff in I as (j & <- & J). apply in_seq in J. apply station_range; auto. lia.
Qed.

(** ** Digits *)
Lemma quotient_val : forall k (D : b64) d, finite D = true -> val D = d -> 1 <= d <= 100 -> (k <= 99)%nat ->
  let q := fdiv64 (of_int (Z.of_nat k)) D in finite q = true /\ Rabs (val q - INR k / d) <= eps * (INR k / d) /\ (k = 0%nat -> val q = 0).
Proof.
  intros k D d FD VD B K q. destruct (of_int_val (Z.of_nat k)) as (VK & FK); [lia|]. rewrite <- INR_IZR_INZ in VK. pose proof (pos_INR k) as P.
  assert (K9 : INR k <= 99) by (replace 99 with (INR 99) by (cbn; lra); apply le_INR; auto).
  assert (ID : / 100 <= / d <= 1). { split; [apply Rinv_le_contravar; lra|]. rewrite <- Rinv_1. apply Rinv_le_contravar; lra. }
  assert (Q0 : 0 <= INR k / d). { apply Rmult_le_pos; lra. } assert (Q1 : INR k / d <= 99). { unfold Rdiv. replace 99 with (99 * 1) by ring. apply Rmult_le_compat; lra. }
  pose proof huge_big. destruct (fdiv_fine (of_int (Z.of_nat k)) D FK) as (V & F); [lra|rewrite VK, VD, Rabs_pos_eq; lra|]. fold q in V, F. rewrite VK, VD in V.
  split; auto. destruct k as [|k].
  - assert (Z : val q = 0) by (rewrite V; cbn [INR]; unfold Rdiv; rewrite Rmult_0_l; apply rnd_0). split; auto. rewrite Z. cbn [INR]. unfold Rdiv. rewrite !Rmult_0_l, Rminus_0_r, Rabs_R0. lra.
  - split; [|discriminate]. rewrite V. pose proof (rnd_error (INR (S k) / d)) as Q. rewrite (Rabs_pos_eq (INR (S k) / d)) in Q by lra. apply Q.
    apply Rle_trans with (bpow radix2 (-7)); [apply bpow_le; lia|]. assert (1 <= INR (S k)) by (apply (le_INR 1); lia). apply Rle_trans with (1 * / 100); [cbn; lra|]. apply Rmult_le_compat; lra.
Qed.
