(** Largest camber in binary64: norms along the ordinate, positions of maxima. *)
From Coq Require Import Reals ZArith List Lra Lia Bool.
From Flocq Require Import Core BinarySingleNaN.
From Verif Require Import Base PpgFloatModel PpgFloatProofs ProfileModel ProfileSpec FloatModel FloatSpec FloatProofs FloatProofs2 ShapeFloatModel ShapeFloatSpec ShapeFloatProofs ShapeFloatProofs2 ShapeFloatProofs5 ShapeFloatProofs6 SectionFloatModel SectionFloatSpec SectionFloatProofs SectionFloatProofs4 SectionFloatProofs5 SectionFloatProofs6 ChordFloatModel.
Import ListNotations.
Open Scope R_scope.

Lemma rnd_0 : rnd 0 = 0.
Proof. apply round_0. apply valid_rnd_N. Qed.
Lemma power_format : forall k, (-1074 <= k)%Z -> generic_format radix2 fexp64 (bpow radix2 k).
Proof. intros k H. apply generic_format_bpow. unfold FLT_exp. lia. Qed.

(** The norm of (0, y): exactly |y| unless the square underflows. *)
Lemma norm_upright : forall o x y, finite x = true -> finite y = true -> val x = 0 -> Rabs (val y) <= bpow radix2 511 ->
  finite (norm2_64 o x y) = true /\ 0 <= val (norm2_64 o x y) /\ Rabs (val (norm2_64 o x y) - Rabs (val y)) <= bpow radix2 (-511) /\
  (val y = 0 \/ bpow radix2 (-511) <= Rabs (val y) -> val (norm2_64 o x y) = Rabs (val y)).
Proof.
  intros o x y Fx Fy Z B. set (a := Rabs (val y)) in *. assert (A2 : val y * val y = a * a) by (unfold a; rewrite <- Rabs_mult, Rabs_pos_eq; nra).
  assert (A0 : 0 <= a) by apply Rabs_pos. assert (AH : a * a <= huge). { apply Rle_trans with (bpow radix2 511 * bpow radix2 511); [apply Rmult_le_compat; lra|]. rewrite <- bpow_plus. unfold huge. apply bpow_le. lia. }
  pose proof huge_big as HB. pose proof rnd_0 as R0. assert (P0 : 0 < bpow radix2 (-511)) by apply bpow_gt_0.
  destruct (fmul_fine y y Fy Fy) as (Vy & Fyy); [rewrite A2, Rabs_pos_eq; nra|]. destruct (fmul_fine x x Fx Fx) as (Vx & Fxx); [rewrite Z, Rmult_0_l, Rabs_R0; lra|].
  rewrite A2 in Vy. rewrite Z, Rmult_0_l, R0 in Vx.
  assert (RA : 0 <= rnd (a * a) <= huge). { split; [apply rnd_nonneg; nra|]. rewrite <- (rnd_exact huge huge_format). apply rnd_le. exact AH. }
  assert (RR : rnd (rnd (a * a)) = rnd (a * a)) by (rewrite <- Vy; apply rnd_exact, format_val).
  assert (D : finite (dot2 o x y x y) = true /\ val (dot2 o x y x y) = rnd (a * a)).
  { destruct o; cbn [dot2].
    - destruct (fadd_ok _ _ Fxx Fyy) as (V & F); [rewrite Vx, Vy, Rplus_0_l, Rabs_pos_eq; lra|]. split; auto. rewrite V, Vx, Vy, Rplus_0_l. exact RR.
    - destruct (ffma_ok x x _ Fx Fx Fyy) as (V & F); [rewrite Z, Rmult_0_l, Rplus_0_l, Vy, Rabs_pos_eq; lra|]. split; auto. rewrite V, Z, Rmult_0_l, Rplus_0_l, Vy. exact RR.
    - destruct (ffma_ok y y _ Fy Fy Fxx) as (V & F); [rewrite A2, Vx, Rplus_0_r, Rabs_pos_eq; nra|]. split; auto. rewrite V, A2, Vx, Rplus_0_r. reflexivity. }
  destruct D as (F & V). destruct (fsqrt_val _ F) as (W & G); [rewrite V; lra|]. split; [exact G|]. unfold norm2_64. rewrite W, V.
  assert (S0 : 0 <= rnd (sqrt (rnd (a * a)))) by (apply rnd_nonneg, sqrt_pos). split; [exact S0|].
  assert (Ex : val y = 0 \/ bpow radix2 (-511) <= a -> rnd (sqrt (rnd (a * a))) = a).
  { intros [H|H].
    - assert (E : a = 0) by (unfold a; rewrite H; apply Rabs_R0). rewrite E, Rmult_0_l, R0, sqrt_0. exact R0.
    - apply sqrt_of_square; [|exact H]. unfold a. apply generic_format_abs, format_val. }
  split; [|exact Ex]. destruct (Rle_lt_dec (bpow radix2 (-511)) a) as [H|H].
  - rewrite Ex by auto. replace (a - a) with 0 by ring. rewrite Rabs_R0. lra.
  - assert (U : rnd (a * a) <= bpow radix2 (-511) * bpow radix2 (-511)).
    { rewrite <- bpow_plus. rewrite <- (rnd_exact _ (power_format (-511 + -511) ltac:(lia))). apply rnd_le. rewrite bpow_plus. apply Rmult_le_compat; lra. }
    assert (rnd (sqrt (rnd (a * a))) <= bpow radix2 (-511)).
    { rewrite <- (rnd_exact _ (power_format (-511) ltac:(lia))). apply rnd_le. rewrite <- (sqrt_square (bpow radix2 (-511))) by lra. apply sqrt_le_1_alt. exact U. }
    apply Rabs_le. lra.
Qed.

(** The first largest entry. *)
Lemma argmax_from_spec : forall l best at_ i, finite best = true -> Forall is_number l ->
  let r := argmax_from best at_ i l in let t := fold_left maximum64 l best in
  val best <= val t /\ (forall x, In x l -> val x <= val t) /\
  ((r = at_ /\ t = best) \/ exists k, (k < length l)%nat /\ r = (i + k)%nat /\ nth k l zero64 = t /\ val best < val t /\ forall j, (j < k)%nat -> val (nth j l zero64) < val t).
Proof.
  induction l as [|x l IH]; intros best at_ i Fb Fl; cbn [argmax_from fold_left].
  - split; [lra|]. split; [intros x []|]. left. auto.
  - inversion Fl as [|? ? Fx Fl']; subst. assert (NB : @is_nan 53 1024 best = false) by (destruct best; try discriminate Fb; reflexivity).
    assert (MX : maximum64 best x = if Rle_bool (val x) (val best) then best else x) by (unfold maximum64; rewrite NB, orb_false_r, Bleb_correct by auto; reflexivity).
    rewrite MX. rewrite NB, orb_false_r, Bleb_correct by auto. clear MX. destruct (Rle_bool_spec (val x) (val best)) as [H|H].
    + destruct (IH best at_ (S i) Fb Fl') as (I1 & I2 & I3). split; [exact I1|]. split; [intros z [<-|Hz]; [lra|auto]|].
      destruct I3 as [I3|(k & K1 & K2 & K3 & K4 & K5)]; [left; exact I3|]. right. exists (S k). cbn [length nth]. split; [lia|]. split; [lia|]. split; [exact K3|]. split; [exact K4|].
      intros [|j] Hj; [lra|]. apply K5. lia.
    + destruct (IH x i (S i) Fx Fl') as (I1 & I2 & I3). split; [lra|]. split; [intros z [<-|Hz]; [lra|auto]|]. right.
      destruct I3 as [(E1 & E2)|(k & K1 & K2 & K3 & K4 & K5)].
      * exists 0%nat. cbn [length nth]. split; [lia|]. split; [lia|]. split; [symmetry; exact E2|]. split; [lra|]. intros j Hj. lia.
      * exists (S k). cbn [length nth]. split; [lia|]. split; [lia|]. split; [exact K3|]. split; [lra|]. intros [|j] Hj; [lra|]. apply K5. lia.
Qed.
Lemma argmax_spec : forall l, l <> [] -> Forall is_number l -> let i := argmax64 l in
  exists t, vmax64 l = Ok t /\ is_number t /\ (i < length l)%nat /\ nth i l zero64 = t /\ (forall x, In x l -> val x <= val t) /\ forall j, (j < i)%nat -> val (nth j l zero64) < val t.
Proof.
  intros l NE F. destruct (vmax64_finite l NE F) as (t & E & Ft & _). destruct l as [|x l]; [congruence|]. inversion F as [|? ? Fx Fl]; subst. cbn [vmax64] in E. injection E as E.
  cbn [argmax64]. destruct (argmax_from_spec l x 0 1 Fx Fl) as (I1 & I2 & I3). exists t. split; [cbn [vmax64]; rewrite E; reflexivity|]. split; [exact Ft|]. rewrite E in I1, I2, I3.
  destruct I3 as [(E1 & E2)|(k & K1 & K2 & K3 & K4 & K5)].
  - rewrite E1. split; [cbn; lia|]. split; [symmetry; exact E2|]. split; [intros z [<-|Hz]; [lra|auto]|]. intros j Hj. lia.
  - rewrite K2. cbn [length nth Nat.add]. split; [lia|]. split; [exact K3|]. split; [intros z [<-|Hz]; [lra|auto]|]. intros [|j] Hj; [exact K4|]. apply K5. lia.
Qed.
Lemma nth_map2 : forall (f : b64 -> b64 -> b64) a b i, length a = length b -> (i < length a)%nat -> nth i (map2 f a b) zero64 = f (nth i a zero64) (nth i b zero64).
Proof. intros f. induction a as [|x a IH]; intros [|y b] [|i] L H; cbn in *; try lia; auto. apply IH; lia. Qed.
Lemma Forall_nth_b : forall (P : b64 -> Prop) l, (forall i, (i < length l)%nat -> P (nth i l zero64)) -> Forall P l.
Proof. intros P l H. apply Forall_forall. intros x I. destruct (In_nth l x zero64 I) as (i & Hi & <-). apply H, Hi. Qed.
Lemma nth_Forall_b : forall (P : b64 -> Prop) l i, Forall P l -> (i < length l)%nat -> P (nth i l zero64).
Proof. intros P l i F H. rewrite Forall_forall in F. apply F, nth_In, H. Qed.

(** The largest camber, given the two lines. *)
Definition camber_list64 (p : fprofile) : list b64 := map2 mean64 (fyup p) (fydown p).
Lemma max_camber_list : forall o p hs, common_abscissae p -> same_sizes p -> compute_chord_line64 p = Ok (fxup p, hs) -> length hs = length (fxup p) ->
  let cs := camber_list64 p in let d := map2 (norm2_64 o) (map2 fsub (fxup p) (fxup p)) (map2 fsub hs cs) in
  length cs = length (fxup p) /\ length d = length (fxup p) /\
  max_camber64 o p = (let* m := vmax64 d in if Bltb (nth (argmax64 d) cs zero64) (nth (argmax64 d) hs zero64) then Ok (fmul m minus_one) else Ok m).
Proof.
  intros o p hs C S E L cs d. assert (Lc : length cs = length (fxup p)). { unfold cs, camber_list64. destruct S as (S1 & S2 & S3). rewrite map2_size; congruence. }
  split; [exact Lc|]. assert (Ld : length d = length (fxup p)). { unfold d. rewrite map2_size; rewrite !map2_size; congruence. }
  split; [exact Ld|]. unfold max_camber64. rewrite E, camber_list by auto. cbn [bind fst snd]. fold (camber_list64 p). fold cs. unfold vzip. unfold b64 in *. rewrite Nat.eqb_refl. cbn [bind].
  rewrite L, Lc, Nat.eqb_refl. cbn [bind]. rewrite !map2_size by congruence. rewrite L, Nat.eqb_refl. reflexivity.
Qed.

Lemma found : forall o p hs, numbers p -> common_abscissae p -> same_sizes p -> fxup p <> [] -> compute_chord_line64 p = Ok (fxup p, hs) -> length hs = length (fxup p) ->
  let cs := camber_list64 p in let n := length (fxup p) in Forall is_number hs -> Forall is_number cs ->
  (forall i, (i < n)%nat -> Rabs (val (nth i hs zero64) - val (nth i cs zero64)) <= bpow radix2 511) ->
  let gap i := rnd (val (nth i cs zero64) - val (nth i hs zero64)) in
  exists m, max_camber64 o p = Ok m /\ is_number m /\ exists i, (i < n)%nat /\ Rabs (val m - gap i) <= bpow radix2 (-511) /\
    (forall j, (j < n)%nat -> Rabs (gap j) <= Rabs (val m) + bpow radix2 (-511)) /\
    ((forall j, (j < n)%nat -> gap j = 0 \/ bpow radix2 (-511) <= Rabs (gap j)) ->
      val m = gap i /\ (forall j, (j < n)%nat -> Rabs (gap j) <= Rabs (val m)) /\ forall j, (j < i)%nat -> Rabs (gap j) < Rabs (val m)).
Proof.
  intros o p hs N C S NE E L cs n Fh Fc B gap. destruct (max_camber_list o p hs C S E L) as (Lc & Ld & EM). fold cs in Lc, Ld, EM. set (d := map2 (norm2_64 o) (map2 fsub (fxup p) (fxup p)) (map2 fsub hs cs)) in *.
  pose proof huge_big as HB. assert (BH : bpow radix2 511 <= huge) by (unfold huge; apply bpow_le; lia).
  assert (K : forall i, (i < n)%nat -> finite (nth i d zero64) = true /\ 0 <= val (nth i d zero64) /\ Rabs (val (nth i d zero64) - Rabs (gap i)) <= bpow radix2 (-511) /\
    (gap i = 0 \/ bpow radix2 (-511) <= Rabs (gap i) -> val (nth i d zero64) = Rabs (gap i))).
  { intros i Hi. unfold d. fold n in Lc, L. assert (Lx : length (map2 fsub (fxup p) (fxup p)) = n) by (rewrite map2_size; reflexivity).
    assert (Ly : length (map2 fsub hs cs) = n) by (rewrite map2_size; congruence). rewrite nth_map2 by (unfold b64 in *; lia). rewrite !nth_map2 by (unfold b64 in *; lia).
    assert (Fx : finite (nth i (fxup p) zero64) = true) by (apply (nth_Forall_b is_number); [apply N|exact Hi]).
    assert (Fhi : finite (nth i hs zero64) = true) by (apply (nth_Forall_b is_number); auto; unfold b64 in *; lia). assert (Fci : finite (nth i cs zero64) = true) by (apply (nth_Forall_b is_number); auto; unfold b64 in *; lia).
    destruct (fsub_ok _ _ Fx Fx) as (Vx & Fxx). { replace (val (nth i (fxup p) zero64) - val (nth i (fxup p) zero64)) with 0 by ring. rewrite Rabs_R0. lra. }
    replace (val (nth i (fxup p) zero64) - val (nth i (fxup p) zero64)) with 0 in Vx by ring. rewrite rnd_0 in Vx.
    pose proof (B i Hi) as Bi. destruct (fsub_ok _ _ Fhi Fci) as (Vy & Fy); [lra|].
    assert (G : val (fsub (nth i hs zero64) (nth i cs zero64)) = - gap i). { rewrite Vy. unfold gap. rewrite <- rnd_opp. f_equal. ring. }
    assert (BG : Rabs (val (fsub (nth i hs zero64) (nth i cs zero64))) <= bpow radix2 511). { rewrite Vy. apply abs_round_le_generic; auto. apply valid64. apply valid_rnd_N. apply power_format. lia. }
    destruct (norm_upright o _ _ Fxx Fy Vx BG) as (F & P & Er & Ex). rewrite G, Rabs_Ropp in Er, Ex. split; [exact F|]. split; [exact P|]. split; [exact Er|].
    intros [H|H]; apply Ex; [left; lra|right; exact H]. }
  assert (Fd : Forall is_number d) by (apply Forall_nth_b; intros i Hi; apply K; unfold b64 in *; lia).
  assert (NEd : d <> []) by (apply (not_nil _ _ (fxup p)); auto). destruct (argmax_spec d NEd Fd) as (t & Et & Ft & Hi & En & Mx & Fst). set (i := argmax64 d) in *.
  assert (Hn : (i < n)%nat) by (unfold b64 in *; lia). rewrite Et in EM. cbn [bind] in EM.
  assert (Fhi : finite (nth i hs zero64) = true) by (apply (nth_Forall_b is_number); auto; unfold b64 in *; lia). assert (Fci : finite (nth i cs zero64) = true) by (apply (nth_Forall_b is_number); auto; unfold b64 in *; lia).
  destruct (K i Hn) as (_ & P & Er & Ex). rewrite En in P, Er, Ex.
  assert (Mn : exists m, max_camber64 o p = Ok m /\ is_number m /\ Rabs (val m) = val t /\ (forall r, val t = Rabs (gap i) + r -> val m = gap i + r \/ val m = gap i - r)).
  { rewrite EM. rewrite Bltb_correct by auto. destruct minus_one_val as (V1 & F1). destruct (Rlt_bool_spec (val (nth i cs zero64)) (val (nth i hs zero64))) as [H|H].
    - assert (TF : rnd (val t * val minus_one) = - val t). { rewrite V1. replace (val t * -1) with (- val t) by ring. rewrite <- fneg_val. apply rnd_exact, format_val. }
      destruct (fmul_ok t minus_one Ft F1) as (V & F). { rewrite TF, Rabs_Ropp. apply abs_B2R_lt_emax. }
      exists (fmul t minus_one). split; [reflexivity|]. split; [exact F|]. rewrite V, TF, Rabs_Ropp, Rabs_pos_eq by exact P. split; [reflexivity|]. intros r Hr. right.
      assert (gap i <= 0) by (apply rnd_nonpos; lra). rewrite Rabs_left1 in Hr by auto. lra.
    - exists t. split; [reflexivity|]. split; [exact Ft|]. rewrite Rabs_pos_eq by exact P. split; [reflexivity|]. intros r Hr. left.
      assert (0 <= gap i) by (apply rnd_nonneg; lra). rewrite Rabs_pos_eq in Hr by auto. lra. }
  destruct Mn as (m & Em & Fm & Am & Sm). exists m. split; [exact Em|]. split; [exact Fm|]. exists i. split; [exact Hn|]. split.
  { set (r := val t - Rabs (gap i)) in *. assert (Hr : val t = Rabs (gap i) + r) by (unfold r; ring). destruct (Sm r Hr) as [H|H]; rewrite H; [replace (gap i + r - gap i) with r by ring; exact Er|].
    replace (gap i - r - gap i) with (- r) by ring. rewrite Rabs_Ropp. exact Er. }
  split.
  { intros j Hj. destruct (K j Hj) as (_ & Pj & Ej & _). rewrite Am. pose proof (Mx (nth j d zero64) ltac:(apply nth_In; unfold b64 in *; lia)) as M. apply Rabs_le_inv in Ej. lra. }
  intros R. pose proof (Ex (R i Hn)) as X. split; [destruct (Sm 0) as [H|H]; lra|]. split.
  { intros j Hj. destruct (K j Hj) as (_ & _ & _ & Xj). rewrite Am, <- Xj by auto. apply Mx, nth_In. unfold b64 in *. lia. }
  intros j Hj. destruct (K j ltac:(lia)) as (_ & _ & _ & Xj). rewrite Am, <- Xj by (apply R; lia). apply Fst, Hj.
Qed.
