(** Coordinates from parameters in binary64: one point. *)
From Coq Require Import Reals ZArith List Lra Lia Bool.
From Flocq Require Import Core BinarySingleNaN.
From Verif Require Import Base PpgFloatModel PpgFloatProofs ProfileModel FloatModel FloatSpec FloatProofs FloatProofs2 ShapeFloatModel ShapeFloatSpec ShapeFloatProofs ShapeFloatProofs2 SectionFloatModel.
Import ListNotations.
Open Scope R_scope.

Lemma fdiv_fine : forall x y, finite x = true -> val y <> 0 -> Rabs (val x / val y) <= huge ->
  val (fdiv64 x y) = rnd (val x / val y) /\ finite (fdiv64 x y) = true.
Proof. intros x y Fx Fy B. apply fdiv_ok; auto. apply rnd_small; auto. Qed.

Lemma rnd_nonneg : forall x, 0 <= x -> 0 <= rnd x.
Proof. intros x H. rewrite <- (round_0 radix2 fexp64 ZnearestE). apply rnd_le, H. Qed.
Lemma rnd_nonpos : forall x, x <= 0 -> rnd x <= 0.
Proof. intros x H. rewrite <- (round_0 radix2 fexp64 ZnearestE). apply rnd_le, H. Qed.

(** Half of a number. *)
Lemma halved : forall T, finite T = true -> let h := fdiv64 T two64 in
  finite h = true /\ val h = rnd (val T / 2) /\ Rabs (val h - val T / 2) <= eps * Rabs (val T / 2) + eta /\ (0 <= val T -> 0 <= val h) /\ Rabs (val h) <= huge.
Proof.
  intros T F h. destruct two64_val as (V & _). pose proof (val_bound T) as B.
  assert (A : Rabs (val T / 2) = Rabs (val T) / 2) by (unfold Rdiv; rewrite Rabs_mult, (Rabs_pos_eq (/ 2)); lra).
  destruct (fdiv_fine T two64 F) as (E & Fh); [rewrite V; lra|rewrite V, A; lra|]. fold h in E, Fh. rewrite V in E.
  split; auto. split; auto. rewrite E. split; [apply rnd_error_any|]. split; [intros P; apply rnd_nonneg; lra|].
  apply abs_round_le_generic; [apply valid64|apply valid_rnd_N|apply huge_format|lra].
Qed.
Lemma halved_exact : forall T, finite T = true -> val T = 0 \/ bpow radix2 (-1021) <= Rabs (val T) -> val (fdiv64 T two64) = val T / 2.
Proof.
  intros T F H. destruct (halved T F) as (_ & E & _). rewrite E. apply rnd_exact. change (val T / 2) with (val T * bpow radix2 (-1)).
  apply format_shift; [apply format_val|]. destruct H as [H|H]; [right; exact H|left].
  rewrite Rabs_mult, (Rabs_pos_eq (bpow radix2 (-1))) by apply bpow_ge_0. change (-1022)%Z with (-1021 + -1)%Z. rewrite bpow_plus. apply Rmult_le_compat_r; auto. apply bpow_ge_0.
Qed.

Definition mid64 (C c : b64) : b64 := fmul c C.
Definition off64 (T t : b64) : b64 := fmul (fdiv64 T two64) t.
Definition point_up (C T c t : b64) : b64 := fadd (mid64 C c) (off64 T t).
Definition point_down (C T c t : b64) : b64 := fsub (mid64 C c) (off64 T t).

Lemma off_error : forall T t, finite T = true -> finite t = true -> let h := val t * (val T / 2) in Rabs h <= huge / 4 ->
  finite (off64 T t) = true /\ Rabs (val (off64 T t) - h) <= 3 * eps * Rabs h + 2 * (1 + Rabs (val t)) * eta /\
  (0 <= val T -> 0 <= val t -> 0 <= val (off64 T t)) /\ (val t = 0 -> val (off64 T t) = 0).
Proof.
  intros T t FT Ft h B. destruct (halved T FT) as (Fh & E & D & P & _). pose proof (val_bound t) as Bt. pose proof huge_big as HB.
  pose proof eps_bounds as [E1 E2]. pose proof eta_tiny as ET. pose proof eta_bounds as [H1 _].
  set (H := fdiv64 T two64) in *. set (a := Rabs (val t)) in *. assert (A0 : 0 <= a) by apply Rabs_pos.
  assert (Eh : a * Rabs (val T / 2) = Rabs h) by (unfold a, h; rewrite Rabs_mult; reflexivity).
  assert (D1 : Rabs (val H * val t - h) <= eps * Rabs h + a * eta).
  { replace (val H * val t - h) with (val t * (val H - val T / 2)) by (unfold h; ring). rewrite Rabs_mult. fold a. rewrite <- Eh.
    apply Rle_trans with (a * (eps * Rabs (val T / 2) + eta)); [apply Rmult_le_compat_l; auto|]. lra. }
  set (g := Rabs h) in *. assert (G0 : 0 <= g) by apply Rabs_pos.
  assert (Up : Rabs (val H * val t) <= g + (eps * g + a * eta)).
  { replace (val H * val t) with ((val H * val t - h) + h) by ring. eapply Rle_trans; [apply Rabs_triang|]. fold g. lra. }
  assert (EG : eps * g <= / 1024 * g) by (apply Rmult_le_compat_r; lra).
  assert (AE : a * eta <= / 1000 * huge). { apply Rle_trans with (2 * huge * eta); [apply Rmult_le_compat_r; lra|]. replace (2 * huge * eta) with (2 * eta * huge) by ring. apply Rmult_le_compat_r; lra. }
  destruct (fmul_fine H t Fh Ft) as (Vm & Fm); [lra|]. unfold off64. fold H. split; auto. split; [|split].
  - rewrite Vm. pose proof (rnd_error_any (val H * val t)) as Er.
    assert (AE0 : 0 <= a * eta) by (apply Rmult_le_pos; lra).
    assert (eps * Rabs (val H * val t) <= eps * (g + (eps * g + a * eta))) by (apply Rmult_le_compat_l; lra).
    assert (eps * (eps * g) <= / 1024 * (eps * g)) by (apply Rmult_le_compat_r; [apply Rmult_le_pos; lra|lra]).
    assert (eps * (a * eta) <= / 1024 * (a * eta)) by (apply Rmult_le_compat_r; lra). assert (0 <= eps * g) by (apply Rmult_le_pos; lra).
    apply Rabs_le_inv in Er. apply Rabs_le_inv in D1. apply Rabs_le. lra.
  - intros PT Pt. rewrite Vm. apply rnd_nonneg. apply Rmult_le_pos; auto.
  - intros Z. rewrite Vm, Z, Rmult_0_r. apply round_0. apply valid_rnd_N.
Qed.

Lemma point_error : forall C T c t, finite C = true -> finite T = true -> finite c = true -> finite t = true ->
  let m := val c * val C in let h := val t * (val T / 2) in Rabs m <= huge / 4 -> Rabs h <= huge / 4 ->
  finite (point_up C T c t) = true /\ finite (point_down C T c t) = true /\
  (let bound := 5 * eps * (Rabs m + Rabs h) + 3 * (2 + Rabs (val t)) * eta in
   Rabs (val (point_up C T c t) - (m + h)) <= bound /\ Rabs (val (point_down C T c t) - (m - h)) <= bound) /\
  (0 <= val T -> 0 <= val t -> val (point_down C T c t) <= val (point_up C T c t)) /\
  (val t = 0 -> val (point_down C T c t) = val (point_up C T c t)).
Proof.
  intros C T c t FC FT Fc Ft m h Bm Bh. destruct (off_error T t FT Ft Bh) as (Fo & Eo & Po & Zo). fold h in Eo.
  assert (Bm' : Rabs m <= huge) by (pose proof huge_big; lra). destruct (times_error c C Fc FC Bm') as (Fm & Em). fold (mid64 C c) in Fm, Em. fold m in Em.
  unfold point_up, point_down. set (M := mid64 C c) in *. set (O := off64 T t) in *.
  pose proof eps_bounds as [E1 E2]. pose proof eta_tiny as ET. pose proof eta_bounds as [H1 _]. pose proof huge_big as HB. pose proof (val_bound t) as Bt.
  set (a := Rabs (val t)) in *. assert (A0 : 0 <= a) by apply Rabs_pos.
  set (g := Rabs h) in *. assert (G0 : 0 <= g) by apply Rabs_pos. set (k := Rabs m) in *. assert (K0 : 0 <= k) by apply Rabs_pos.
  assert (EG : eps * g <= / 1024 * g) by (apply Rmult_le_compat_r; lra). assert (EK : eps * k <= / 1024 * k) by (apply Rmult_le_compat_r; lra).
  assert (AE0 : 0 <= a * eta) by (apply Rmult_le_pos; lra).
  assert (AE : a * eta <= / 1000 * huge). { apply Rle_trans with (2 * huge * eta); [apply Rmult_le_compat_r; lra|]. replace (2 * huge * eta) with (2 * eta * huge) by ring. apply Rmult_le_compat_r; lra. }
  assert (UM : Rabs (val M) <= k + (eps * k + eta)). { replace (val M) with ((val M - m) + m) by ring. eapply Rle_trans; [apply Rabs_triang|]. fold k. lra. }
  assert (UO : Rabs (val O) <= g + (3 * eps * g + 2 * (1 + a) * eta)). { replace (val O) with ((val O - h) + h) by ring. eapply Rle_trans; [apply Rabs_triang|]. fold g. lra. }
  assert (S1 : Rabs (val M + val O) <= Rabs (val M) + Rabs (val O)) by apply Rabs_triang.
  assert (S2 : Rabs (val M - val O) <= Rabs (val M) + Rabs (val O)). { unfold Rminus. eapply Rle_trans; [apply Rabs_triang|]. rewrite Rabs_Ropp. lra. }
  destruct (fadd_ok M O Fm Fo) as (Vu & Fu); [lra|]. destruct (fsub_ok M O Fm Fo) as (Vd & Fd); [lra|].
  split; auto. split; auto.
  assert (T1 : eps * (Rabs (val M) + Rabs (val O)) <= eps * (k + (eps * k + eta) + (g + (3 * eps * g + 2 * (1 + a) * eta)))) by (apply Rmult_le_compat_l; lra).
  assert (T2 : eps * (eps * g) <= / 1024 * (eps * g)) by (apply Rmult_le_compat_r; [apply Rmult_le_pos; lra|lra]).
  assert (T3 : eps * (eps * k) <= / 1024 * (eps * k)) by (apply Rmult_le_compat_r; [apply Rmult_le_pos; lra|lra]).
  assert (T4 : eps * (a * eta) <= / 1024 * (a * eta)) by (apply Rmult_le_compat_r; lra).
  assert (T5 : eps * eta <= / 1024 * eta) by (apply Rmult_le_compat_r; lra).
  assert (T6 : 0 <= eps * g) by (apply Rmult_le_pos; lra). assert (T7 : 0 <= eps * k) by (apply Rmult_le_pos; lra).
  apply Rabs_le_inv in Em. apply Rabs_le_inv in Eo. split; [split|split].
  - rewrite Vu. pose proof (rnd_add_error M O) as Er. assert (eps * Rabs (val M + val O) <= eps * (Rabs (val M) + Rabs (val O))) by (apply Rmult_le_compat_l; lra).
    apply Rabs_le_inv in Er. apply Rabs_le. lra.
  - rewrite Vd. pose proof (diff_error M O) as Er. assert (eps * Rabs (val M - val O) <= eps * (Rabs (val M) + Rabs (val O))) by (apply Rmult_le_compat_l; lra).
    apply Rabs_le_inv in Er. apply Rabs_le. lra.
  - intros PT Pt. rewrite Vu, Vd. apply rnd_le. specialize (Po PT Pt). lra.
  - intros Z. rewrite Vu, Vd, Zo by exact Z. f_equal. lra.
Qed.

(** Without camber. *)
Lemma point_symmetric : forall C T c t, finite C = true -> finite T = true -> finite c = true -> finite t = true ->
  val c * val C = 0 -> Rabs (val t * (val T / 2)) <= huge / 4 ->
  val (point_up C T c t) = val (off64 T t) /\ val (point_down C T c t) = - val (off64 T t).
Proof.
  intros C T c t FC FT Fc Ft Z Bh. destruct (off_error T t FT Ft Bh) as (Fo & Eo & _). pose proof huge_big as HB.
  destruct (fmul_fine c C Fc FC) as (Vm & Fm); [rewrite Z, Rabs_R0; lra|]. fold (mid64 C c) in Vm, Fm. rewrite Z, round_0 in Vm by apply valid_rnd_N.
  assert (B : Rabs (val (off64 T t)) <= huge).
  { pose proof eps_bounds as [E1 E2]. pose proof eta_tiny as ET. pose proof eta_bounds as [H1 _]. pose proof (val_bound t) as Bt.
    set (a := Rabs (val t)) in *. set (h := val t * (val T / 2)) in *. assert (0 <= a) by apply Rabs_pos. assert (0 <= Rabs h) by apply Rabs_pos.
    assert (AE : a * eta <= / 1000 * huge). { apply Rle_trans with (2 * huge * eta); [apply Rmult_le_compat_r; lra|]. replace (2 * huge * eta) with (2 * eta * huge) by ring. apply Rmult_le_compat_r; lra. }
    assert (eps * Rabs h <= / 1024 * Rabs h) by (apply Rmult_le_compat_r; lra).
    replace (val (off64 T t)) with ((val (off64 T t) - h) + h) by ring. eapply Rle_trans; [apply Rabs_triang|]. lra. }
  unfold point_up, point_down. destruct (fadd_ok (mid64 C c) (off64 T t) Fm Fo) as (Vu & _); [rewrite Vm, Rplus_0_l; exact B|].
  destruct (fsub_ok (mid64 C c) (off64 T t) Fm Fo) as (Vd & _); [rewrite Vm; unfold Rminus; rewrite Rplus_0_l, Rabs_Ropp; exact B|].
  rewrite Vu, Vd, Vm, Rplus_0_l. unfold Rminus. rewrite Rplus_0_l, rnd_opp, rnd_exact by apply format_val. auto.
Qed.
