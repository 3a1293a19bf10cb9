(** Whole profiles: camber line and its deformation in binary64. *)
From Coq Require Import Reals ZArith List Lra Lia Bool.
From Flocq Require Import Core BinarySingleNaN.
From Verif Require Import Base PpgFloatModel PpgFloatProofs ProfileModel ProfileSpec FloatModel FloatSpec FloatProofs FloatProofs2 ShapeFloatModel ShapeFloatSpec ShapeFloatProofs ShapeFloatProofs2 ShapeFloatProofs5.
Import ListNotations.
Open Scope R_scope.

Lemma map2_nth : forall A B C (f : A -> B -> C) a b i x y, nth_error a i = Some x -> nth_error b i = Some y -> nth_error (map2 f a b) i = Some (f x y).
Proof.
  intros A B C f. induction a as [|x a IH]; intros [|y b] [|i] u v H1 H2; try discriminate; cbn in *.
  - congruence.
  - apply IH; auto.
Qed.
Lemma map2_size : forall A B C (f : A -> B -> C) a b, length a = length b -> length (map2 f a b) = length a.
Proof. intros A B C f. induction a as [|x a IH]; intros [|y b] L; try discriminate L; cbn in *; auto. Qed.
Lemma map_map2 : forall A B C D (g : C -> D) (f : A -> B -> C) a b, map g (map2 f a b) = map2 (fun x y => g (f x y)) a b.
Proof. intros A B C D g f. induction a as [|x a IH]; intros [|y b]; cbn; f_equal; auto. Qed.
Lemma map2_map2 : forall A B C D E (g : C -> D -> E) (f1 : A -> B -> C) (f2 : A -> B -> D) a b,
  map2 g (map2 f1 a b) (map2 f2 a b) = map2 (fun x y => g (f1 x y) (f2 x y)) a b.
Proof. intros A B C D E g f1 f2. induction a as [|x a IH]; intros [|y b]; cbn; f_equal; auto. Qed.
Lemma map2_flip : forall A B C (f : A -> B -> C) a b, map2 f a b = map2 (fun y x => f x y) b a.
Proof. intros A B C f. induction a as [|x a IH]; intros [|y b]; cbn; f_equal; auto. Qed.

Lemma camber_list : forall p, common_abscissae p -> same_sizes p -> compute_camber_line64 p = Ok (fxup p, map2 mean64 (fyup p) (fydown p)).
Proof.
  intros p C (S1 & S2 & S3). unfold compute_camber_line64. rewrite same_ok by auto. cbn [bind]. unfold vzip. unfold b64 in *. rewrite S2, S3, Nat.eqb_refl. cbn [bind].
  rewrite map2_size by congruence. rewrite S3, Nat.eqb_refl. rewrite map2_flip. reflexivity.
Qed.
Lemma deform_list : forall pc p, common_abscissae p -> same_sizes p ->
  deform_camber_line64 pc p = Ok (mkF (fxup p) (fxdown p) (map2 (new_up64 pc) (fyup p) (fydown p)) (map2 (new_down64 pc) (fyup p) (fydown p))).
Proof.
  intros pc p C S. unfold deform_camber_line64. rewrite camber_list by auto. cbn [bind snd]. destruct S as (S1 & S2 & S3).
  assert (L : length (fyup p) = length (fydown p)) by congruence. unfold vzip at 1. unfold b64 in *. rewrite S2, S3, Nat.eqb_refl. cbn [bind].
  rewrite map_map2. unfold vzip. rewrite !map2_size, Nat.eqb_refl by exact L. cbn [bind]. rewrite !map2_map2. reflexivity.
Qed.

Lemma nth_both : forall (P : b64 -> Prop) (f : b64 -> b64 -> b64) a b,
  (forall i u d, nth_error a i = Some u -> nth_error b i = Some d -> P (f u d)) -> Forall P (map2 f a b).
Proof.
  intros P f. induction a as [|x a IH]; intros [|y b] H; cbn; constructor.
  - apply (H 0%nat); reflexivity.
  - apply IH. intros i u d. apply (H (S i)).
Qed.
Lemma nth_real : forall (P : R -> Prop) l i x, Forall P (map real l) -> nth_error l i = Some x -> P (real x).
Proof. intros P l i x F E. apply nth_error_In in E. rewrite Forall_forall in F. apply F, in_map, E. Qed.

Lemma camber_accuracy : forall p, numbers p -> common_abscissae p -> same_sizes p ->
  Forall (fun y => Rabs y <= huge / 2) (yup (meaning p)) -> Forall (fun y => Rabs y <= huge / 2) (ydown (meaning p)) ->
  exists cs, compute_camber_line64 p = Ok (fxup p, cs) /\ length cs = length (fxup p) /\ Forall is_number cs /\
  forall i u d, nth_error (fyup p) i = Some u -> nth_error (fydown p) i = Some d -> exists c, nth_error cs i = Some c /\
    Rmin (real u) (real d) <= real c <= Rmax (real u) (real d) /\
    (let m := (real u + real d) / 2 in Rabs (real c - m) <= 3 * eps * Rabs m + eta).
Proof.
  intros p (N1 & N2 & N3 & N4) C S BU BD. rewrite camber_list by auto. eexists. split; [reflexivity|]. destruct S as (S1 & S2 & S3).
  assert (K : forall i u d, nth_error (fyup p) i = Some u -> nth_error (fydown p) i = Some d ->
    finite (mean64 u d) = true /\ Rmin (real u) (real d) <= real (mean64 u d) <= Rmax (real u) (real d) /\
    Rabs (real (mean64 u d) - (real u + real d) / 2) <= 3 * eps * Rabs ((real u + real d) / 2) + eta).
  { intros i u d U D. pose proof (nth_number _ _ _ N3 U) as Fu. pose proof (nth_number _ _ _ N4 D) as Fd.
    pose proof (nth_real _ _ _ _ BU U) as Bu. pose proof (nth_real _ _ _ _ BD D) as Bd. cbn beta in Bu, Bd. unfold real in *.
    pose proof (Rabs_triang (val u) (val d)) as T. assert (B : Rabs (val u + val d) <= huge) by lra.
    destruct (mean_error u d Fu Fd B) as (F & E). split; [exact F|]. split; [|exact E].
    destruct (Rle_lt_dec (val d) (val u)) as [L|L].
    - rewrite Rmin_right, Rmax_left by lra. apply average_between; auto. rewrite Rplus_comm. exact B.
    - rewrite Rmin_left, Rmax_right by lra. unfold mean64. replace (fadd d u) with (fadd u d).
      + apply average_between; auto. lra.
      + unfold fadd. destruct u as [s|s| |s m e Hm], d as [s'|s'| |s' m' e' Hm']; try discriminate; unfold Bplus.
        * destruct s, s'; reflexivity.
        * reflexivity.
        * reflexivity.
        * rewrite (Z.min_comm e e'). unfold Fplus_naive. rewrite Z.add_comm. reflexivity. }
  split; [rewrite map2_size; congruence|]. split.
  - apply nth_both. intros i u d U D. apply (K i u d U D).
  - intros i u d U D. exists (mean64 u d). split; [apply map2_nth; auto|]. apply (K i u d U D).
Qed.

Lemma deform_accuracy : forall pc p, let K := real pc / 100 + 1 in let W := 1 + Rabs (real pc) / 100 in
  numbers p -> is_number pc -> common_abscissae p -> same_sizes p ->
  Forall (fun y => Rabs y <= huge / 8) (yup (meaning p)) -> Forall (fun y => Rabs y <= huge / 8) (ydown (meaning p)) ->
  Forall (fun m => W * Rabs m <= huge / 8) (mean (yup (meaning p)) (ydown (meaning p))) ->
  exists q, deform_camber_line64 pc p = Ok q /\ numbers q /\ fxup q = fxup p /\ fxdown q = fxdown p /\ same_sizes q /\
  forall i u d, nth_error (fyup p) i = Some u -> nth_error (fydown p) i = Some d ->
    exists u' d', nth_error (fyup q) i = Some u' /\ nth_error (fydown q) i = Some d' /\ real d' <= real u' /\
    let m := (real u + real d) / 2 in let h := Rabs (real u - real d) / 2 in let bound := 10 * eps * (W * Rabs m + h) + 5 * W * eta in
    Rabs (real u' - (m * K + h)) <= bound /\ Rabs (real d' - (m * K - h)) <= bound.
Proof.
  intros pc p K W (N1 & N2 & N3 & N4) Fp C S BU BD BW. rewrite deform_list by auto. eexists. split; [reflexivity|]. destruct S as (S1 & S2 & S3).
  assert (WH : W <= huge). { unfold W. pose proof (val_bound pc) as B. pose proof huge_big as HB. unfold real. lra. }
  assert (Q : forall i u d, nth_error (fyup p) i = Some u -> nth_error (fydown p) i = Some d ->
    finite (new_up64 pc u d) = true /\ finite (new_down64 pc u d) = true /\ real (new_down64 pc u d) <= real (new_up64 pc u d) /\
    let m := (real u + real d) / 2 in let h := Rabs (real u - real d) / 2 in let bound := 10 * eps * (W * Rabs m + h) + 5 * W * eta in
    Rabs (real (new_up64 pc u d) - (m * K + h)) <= bound /\ Rabs (real (new_down64 pc u d) - (m * K - h)) <= bound).
  { intros i u d U D. pose proof (nth_number _ _ _ N3 U) as Fu. pose proof (nth_number _ _ _ N4 D) as Fd.
    pose proof (nth_real _ _ _ _ BU U) as Bu. pose proof (nth_real _ _ _ _ BD D) as Bd. cbn beta in Bu, Bd.
    assert (Bm : W * Rabs ((real u + real d) / 2) <= huge / 8).
    { rewrite Forall_forall in BW. apply BW. unfold mean, meaning. cbn [yup ydown].
      apply (nth_error_In _ i). apply map2_nth with (f := fun x y => (x + y) / 2); rewrite nth_error_map, ?U, ?D; reflexivity. }
    apply deform_pair; auto. }
  split. { unfold numbers. cbn [fxup fxdown fyup fydown]. split; auto. split; auto. split; apply nth_both; intros i u d U D; apply (Q i u d U D). }
  cbn [fxup fxdown fyup fydown]. split; auto. split; auto.
  split. { unfold same_sizes. cbn [fxup fxdown fyup fydown]. rewrite !map2_size by congruence. auto. }
  intros i u d U D. exists (new_up64 pc u d), (new_down64 pc u d). split; [apply map2_nth; auto|]. split; [apply map2_nth; auto|]. apply (Q i u d U D).
Qed.

(** ** No change *)
Lemma factor_zero : forall pc, finite pc = true -> val pc = 0 -> finite (factor64 pc) = true /\ val (factor64 pc) = 1.
Proof.
  intros pc F Z. destruct hundred64_val as (V & Fh). destruct one64_val as (V1 & F1). pose proof huge_big as HB. unfold factor64.
  destruct (fdiv_ok pc hundred64 F) as (Vq & Fq); [rewrite V; lra| |].
  { rewrite V, Z. unfold Rdiv. rewrite Rmult_0_l. apply rnd_small. rewrite Rabs_R0. lra. }
  rewrite V, Z in Vq. unfold Rdiv in Vq. rewrite Rmult_0_l, round_0 in Vq by apply valid_rnd_N.
  destruct (fadd_ok _ _ Fq F1) as (Vk & Fk). { rewrite Vq, V1, Rplus_0_l, Rabs_R1. lra. }
  split; [exact Fk|]. rewrite Vk, Vq, V1, Rplus_0_l, <- V1. apply rnd_exact, format_val.
Qed.
Lemma camber_zero : forall pc u d, finite pc = true -> val pc = 0 -> finite (mean64 u d) = true -> Rabs (val (mean64 u d)) <= huge ->
  finite (new_camber64 pc u d) = true /\ val (new_camber64 pc u d) = val (mean64 u d).
Proof.
  intros pc u d F Z Fm B. destruct (factor_zero pc F Z) as (Fk & Vk). unfold new_camber64.
  destruct (fmul_fine _ _ Fm Fk) as (V & Fr). { rewrite Vk, Rmult_1_r. exact B. }
  split; [exact Fr|]. rewrite V, Vk, Rmult_1_r. apply rnd_exact, format_val.
Qed.

Lemma zero_pair : forall pc u d, finite pc = true -> val pc = 0 -> finite u = true -> finite d = true -> val d <= val u ->
  Rabs (val u) <= huge / 8 -> Rabs (val d) <= huge / 8 ->
  finite (new_up64 pc u d) = true /\ finite (new_down64 pc u d) = true /\
  (let bound := 5 * eps * Rmax (Rabs (val u)) (Rabs (val d)) + 3 * eta in
   Rabs (val (new_up64 pc u d) - val u) <= bound /\ Rabs (val (new_down64 pc u d) - val d) <= bound).
Proof.
  intros pc u d Fp Z Fu Fd L Bu Bd. assert (HP : 0 < huge) by apply bpow_gt_0. pose proof huge_big as HB. pose proof eps_bounds as [E1 E2]. pose proof eta_bounds as [H1 H2].
  pose proof (Rabs_triang (val u) (val d)) as T1. pose proof (Rabs_triang (val u) (- val d)) as T2. rewrite Rabs_Ropp in T2. fold (val u - val d) in T2.
  destruct (mean_error u d Fu Fd) as (Fm & Em); [lra|]. destruct (half_gap_error u d Fu Fd) as (Fg & _ & Eg); [lra|].
  set (Y := Rmax (Rabs (val u)) (Rabs (val d))). rewrite (Rabs_pos_eq (val u - val d)) in Eg by lra.
  set (m := (val u + val d) / 2) in *. set (h := (val u - val d) / 2) in *.
  assert (MY : Rabs m + h <= Y).
  { unfold Y, m, h, Rmax, Rabs. destruct (Rcase_abs (val u)), (Rcase_abs (val d)), (Rcase_abs ((val u + val d) / 2)); destruct (Rle_dec _ _); lra. }
  assert (YH : Y <= huge / 8) by (unfold Y; apply Rmax_lub; auto). assert (M0 : 0 <= Rabs m) by apply Rabs_pos. assert (Hh : 0 <= h) by (unfold h; lra).
  assert (U1 : - Y <= val u <= Y). { unfold Y. pose proof (Rmax_l (Rabs (val u)) (Rabs (val d))). pose proof (Rle_abs (val u)). pose proof (Rle_abs (- val u)). rewrite Rabs_Ropp in *. lra. }
  assert (D1 : - Y <= val d <= Y). { unfold Y. pose proof (Rmax_r (Rabs (val u)) (Rabs (val d))). pose proof (Rle_abs (val d)). pose proof (Rle_abs (- val d)). rewrite Rabs_Ropp in *. lra. }
  assert (EY : eps * Y <= / 1024 * Y) by (apply Rmult_le_compat_r; lra). assert (EY0 : 0 <= eps * Y) by (apply Rmult_le_pos; lra).
  assert (EMY : eps * (Rabs m + h) <= eps * Y) by (apply Rmult_le_compat_l; lra).
  assert (EM0 : 0 <= eps * Rabs m) by (apply Rmult_le_pos; lra). assert (EH0 : 0 <= eps * h) by (apply Rmult_le_pos; lra).
  assert (EEY : eps * (eps * Y) <= / 1024 * (eps * Y)) by (apply Rmult_le_compat_r; lra).
  assert (EE : eps * eta <= / 1024 * eta) by (apply Rmult_le_compat_r; lra).
  assert (MB : Rabs (val (mean64 u d)) <= huge).
  { replace (val (mean64 u d)) with ((val (mean64 u d) - m) + m) by ring. eapply Rle_trans; [apply Rabs_triang|]. lra. }
  destruct (camber_zero pc u d Fp Z Fm MB) as (Fc & Vc).
  unfold new_up64, new_down64. set (c := new_camber64 pc u d) in *. set (g := half_gap64 u d) in *. rewrite <- Vc in Em.
  apply Rabs_le_inv in Em. apply Rabs_le_inv in Eg.
  assert (Su : Rabs (val c + val g - val u) <= 3 * (eps * Y) + 2 * eta) by (apply Rabs_le; unfold m, h in *; lra).
  assert (Sd : Rabs (val c - val g - val d) <= 3 * (eps * Y) + 2 * eta) by (apply Rabs_le; unfold m, h in *; lra).
  apply Rabs_le_inv in Su. apply Rabs_le_inv in Sd.
  assert (Bu' : Rabs (val c + val g) <= Y + 3 * (eps * Y) + 2 * eta) by (apply Rabs_le; lra).
  assert (Bd' : Rabs (val c - val g) <= Y + 3 * (eps * Y) + 2 * eta) by (apply Rabs_le; lra).
  destruct (fadd_ok c g Fc Fg) as (Vu & Fu'); [lra|]. destruct (fsub_ok c g Fc Fg) as (Vd & Fd'); [lra|].
  split; auto. split; auto.
  pose proof (rnd_add_error c g) as R1. rewrite <- Vu in R1. pose proof (diff_error c g) as R2. rewrite <- Vd in R2.
  assert (eps * Rabs (val c + val g) <= eps * (Y + 3 * (eps * Y) + 2 * eta)) by (apply Rmult_le_compat_l; lra).
  assert (eps * Rabs (val c - val g) <= eps * (Y + 3 * (eps * Y) + 2 * eta)) by (apply Rmult_le_compat_l; lra).
  apply Rabs_le_inv in R1. apply Rabs_le_inv in R2. split; apply Rabs_le; lra.
Qed.

Lemma half_grid : forall e n (s : b64), (-1073 <= e <= 970)%Z -> finite s = true -> val s = IZR n * bpow radix2 e -> (Z.abs n <= 2 ^ 53)%Z ->
  finite (fmul half64 s) = true /\ val (fmul half64 s) = IZR n * bpow radix2 (e - 1).
Proof.
  intros e n s He F V B. destruct half64_val as (Vh & Fh).
  assert (E : / 2 * (IZR n * bpow radix2 e) = IZR n * bpow radix2 (e - 1)).
  { replace (e - 1)%Z with (e + -1)%Z by lia. rewrite bpow_plus. change (bpow radix2 (-1)) with (/ 2). ring. }
  destruct (fmul_fine half64 s Fh F) as (Vm & Fm). { rewrite Vh, V, E. apply grid_small; [lia|auto]. }
  split; auto. rewrite Vm, Vh, V, E. apply rnd_exact, grid_format; [lia|auto].
Qed.
Lemma zero_grid : forall e pc u d, (-1073 <= e <= 970)%Z -> finite pc = true -> val pc = 0 -> finite u = true -> finite d = true -> val d <= val u ->
  on_grid e (val u) -> on_grid e (val d) -> val (new_up64 pc u d) = val u /\ val (new_down64 pc u d) = val d.
Proof.
  intros e pc u d He Fp Z Fu Fd L (n & En & Bn) (k & Ek & Bk).
  assert (Ge : (-1074 <= e <= 970)%Z) by lia.
  assert (Gu : on_grid e (val u)) by (exists n; auto). assert (Gd : on_grid e (val d)) by (exists k; auto).
  destruct (shift_grid e d u Ge Fd Fu Gd Gu) as (Vs & Fs).
  assert (Ga : Rabs (val u - val d) <= huge).
  { replace (val u - val d) with (IZR (n - k) * bpow radix2 e) by (rewrite En, Ek, minus_IZR; ring). apply grid_small; [lia|]. lia. }
  destruct (fsub_ok u d Fu Fd Ga) as (Vd & Fsub).
  assert (Vd' : val (fsub u d) = IZR (n - k) * bpow radix2 e).
  { rewrite Vd. replace (val u - val d) with (IZR (n - k) * bpow radix2 e) by (rewrite En, Ek, minus_IZR; ring). apply rnd_exact, grid_format; lia. }
  assert (NK : 0 <= IZR (n - k)).
  { pose proof (bpow_gt_0 radix2 e) as P. apply Rmult_le_reg_r with (bpow radix2 e); auto. rewrite Rmult_0_l, <- Vd', Vd.
    rewrite <- (round_0 radix2 fexp64 ZnearestE). apply rnd_le. lra. }
  destruct (half_grid e (k + n) (fadd d u) He Fs) as (Fm & Vm). { rewrite Vs, En, Ek, plus_IZR. ring. } { lia. }
  fold (mean64 u d) in Fm, Vm.
  destruct (half_grid e (n - k) (fabs64 (fsub u d)) He) as (Fg & Vg). { rewrite fabs_finite. auto. }
  { rewrite fabs_val, Vd'. apply Rabs_pos_eq. apply Rmult_le_pos; [auto|apply bpow_ge_0]. } { lia. }
  fold (half_gap64 u d) in Fg, Vg.
  destruct (camber_zero pc u d Fp Z Fm) as (Fc & Vc). { rewrite Vm. apply grid_small; lia. }
  assert (H2 : bpow radix2 e = 2 * bpow radix2 (e - 1)). { replace (e - 1)%Z with (e + -1)%Z by lia. rewrite bpow_plus. change (bpow radix2 (-1)) with (/ 2). field. }
  assert (Xu : val (new_camber64 pc u d) + val (half_gap64 u d) = val u). { rewrite Vc, Vm, Vg, En, H2, plus_IZR, minus_IZR. ring. }
  assert (Xd : val (new_camber64 pc u d) - val (half_gap64 u d) = val d). { rewrite Vc, Vm, Vg, Ek, H2, plus_IZR, minus_IZR. ring. }
  unfold new_up64, new_down64.
  destruct (fadd_ok _ _ Fc Fg) as (V1 & _). { rewrite Xu, En. apply grid_small; lia. }
  destruct (fsub_ok _ _ Fc Fg) as (V2 & _). { rewrite Xd, Ek. apply grid_small; lia. }
  rewrite V1, V2, Xu, Xd. split; apply rnd_exact, format_val.
Qed.

Lemma no_change : forall pc p, numbers p -> is_number pc -> real pc = 0 -> common_abscissae p -> same_sizes p ->
  above (yup (meaning p)) (ydown (meaning p)) ->
  Forall (fun y => Rabs y <= huge / 8) (yup (meaning p)) -> Forall (fun y => Rabs y <= huge / 8) (ydown (meaning p)) ->
  exists q, deform_camber_line64 pc p = Ok q /\ numbers q /\ fxup q = fxup p /\ fxdown q = fxdown p /\ same_sizes q /\
  forall i u d, nth_error (fyup p) i = Some u -> nth_error (fydown p) i = Some d ->
    exists u' d', nth_error (fyup q) i = Some u' /\ nth_error (fydown q) i = Some d' /\
    let bound := 5 * eps * Rmax (Rabs (real u)) (Rabs (real d)) + 3 * eta in
    Rabs (real u' - real u) <= bound /\ Rabs (real d' - real d) <= bound.
Proof.
  intros pc p (N1 & N2 & N3 & N4) Fp Z C S A BU BD. rewrite deform_list by auto. eexists. split; [reflexivity|]. destruct S as (S1 & S2 & S3).
  assert (Q : forall i u d, nth_error (fyup p) i = Some u -> nth_error (fydown p) i = Some d ->
    finite (new_up64 pc u d) = true /\ finite (new_down64 pc u d) = true /\
    let bound := 5 * eps * Rmax (Rabs (real u)) (Rabs (real d)) + 3 * eta in
    Rabs (real (new_up64 pc u d) - real u) <= bound /\ Rabs (real (new_down64 pc u d) - real d) <= bound).
  { intros i u d U D. pose proof (nth_real _ _ _ _ BU U) as Bu. pose proof (nth_real _ _ _ _ BD D) as Bd. cbn beta in Bu, Bd.
    apply zero_pair; auto; [apply (nth_number _ _ _ N3 U)|apply (nth_number _ _ _ N4 D)|].
    apply (A i (real u) (real d)); unfold meaning; cbn [yup ydown]; rewrite nth_error_map, ?U, ?D; reflexivity. }
  split. { unfold numbers. cbn [fxup fxdown fyup fydown]. split; auto. split; auto. split; apply nth_both; intros i u d U D; apply (Q i u d U D). }
  cbn [fxup fxdown fyup fydown]. split; auto. split; auto.
  split. { unfold same_sizes. cbn [fxup fxdown fyup fydown]. rewrite !map2_size by congruence. auto. }
  intros i u d U D. exists (new_up64 pc u d), (new_down64 pc u d). split; [apply map2_nth; auto|]. split; [apply map2_nth; auto|]. apply (Q i u d U D).
Qed.

Lemma no_change_grid : forall e pc p, (-1073 <= e <= 970)%Z -> numbers p -> is_number pc -> real pc = 0 -> common_abscissae p -> same_sizes p ->
  above (yup (meaning p)) (ydown (meaning p)) -> Forall (on_grid e) (yup (meaning p)) -> Forall (on_grid e) (ydown (meaning p)) ->
  exists q, deform_camber_line64 pc p = Ok q /\ meaning q = meaning p.
Proof.
  intros e pc p He (N1 & N2 & N3 & N4) Fp Z C S A GU GD. rewrite deform_list by auto. eexists. split; [reflexivity|].
  assert (L : length (fyup p) = length (fydown p)) by (destruct S as (_ & -> & ->); reflexivity).
  unfold meaning in *. cbn [fxup fxdown fyup fydown yup ydown] in *. clear C S N1 N2.
  assert (K : map real (map2 (new_up64 pc) (fyup p) (fydown p)) = map real (fyup p) /\ map real (map2 (new_down64 pc) (fyup p) (fydown p)) = map real (fydown p)).
  { revert N3 N4 A GU GD L. generalize (fyup p) (fydown p). induction l as [|u l IH]; intros [|d l'] N3 N4 A GU GD L; try discriminate L; [split; reflexivity|].
    inversion N3; inversion N4; inversion GU; inversion GD; subst. cbn [map map2].
    destruct (zero_grid e pc u d He Fp Z) as (X1 & X2); auto. { apply (A 0%nat); reflexivity. }
    destruct (IH l') as (I1 & I2); auto. { intros i. apply (A (Datatypes.S i)). }
    rewrite I1, I2. split; f_equal; assumption. }
  destruct K as (-> & ->). reflexivity.
Qed.

(** 0.2 and 0.1 *)
Definition f02 : b64 := @B754_finite 53 1024 false 7205759403792794 (-55) eq_refl.
Definition changed : option SpecFloat.spec_float :=
  match deform_camber_line64 zero64 (mkF [f1] [f1] [f02] [f01]) with
  | Ok q => match fydown q with [y] => Some (B2SF y) | _ => None end
  | Err _ => None
  end.
Lemma changed_result : changed = Some (SpecFloat.S754_finite false 7205759403792795 (-56)).
Proof. vm_compute. reflexivity. Qed.
Lemma no_change_refuted : exists p q, numbers p /\ common_abscissae p /\ same_sizes p /\ above (yup (meaning p)) (ydown (meaning p)) /\
  deform_camber_line64 zero64 p = Ok q /\ meaning q <> meaning p.
Proof.
  pose proof changed_result as H. unfold changed in H. destruct (deform_camber_line64 _ _) as [q|] eqn:E; [|discriminate].
  exists (mkF [f1] [f1] [f02] [f01]), q. split; [repeat split; repeat constructor|]. split; [repeat split; repeat constructor|]. split; [repeat split|].
  split.
  { intros i x y A B. unfold meaning in *. cbn in A, B. destruct i as [|i]; [|destruct i; discriminate]. injection A as <-. injection B as <-.
    unfold real, f02, f01, B2R, F2R. cbn. lra. }
  split; [exact E|]. intros M. apply (f_equal ydown) in M. unfold meaning in M. cbn [ydown fydown map] in M.
  destruct (fydown q) as [|y [|y' l]]; try discriminate. cbn [map] in M. injection M as M.
  assert (V : B2SF y = SpecFloat.S754_finite false 7205759403792795 (-56)) by congruence. apply sf_val in V. unfold real in M. rewrite V in M.
  unfold f01 in M. cbn [B2R SpecFloat.cond_Zopp] in M. unfold F2R in M. cbn [Fnum Fexp] in M. pose proof (bpow_gt_0 radix2 (-56)).
  apply Rmult_eq_reg_r in M; [|lra]. apply eq_IZR in M. discriminate.
Qed.
