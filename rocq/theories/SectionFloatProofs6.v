(** Section parameters computed in binary64: the chord, and back to coordinates. *)
From Coq Require Import Reals ZArith List Lra Lia Bool.
From Flocq Require Import Core BinarySingleNaN.
From Verif Require Import Base PpgFloatModel PpgFloatProofs ProfileModel ProfileSpec ProfileProofs2 FloatModel FloatSpec FloatProofs FloatProofs2 ShapeFloatModel ShapeFloatSpec ShapeFloatProofs ShapeFloatProofs2 ShapeFloatProofs6 SectionFloatModel SectionFloatSpec SectionFloatProofs SectionFloatProofs2 SectionFloatProofs3 SectionFloatProofs4 SectionFloatProofs5.
Import ListNotations.
Open Scope R_scope.

Lemma minimum_finite : forall a b, finite a = true -> finite b = true ->
  finite (minimum64 a b) = true /\ val (minimum64 a b) <= val a /\ val (minimum64 a b) <= val b /\ (minimum64 a b = a \/ minimum64 a b = b).
Proof.
  intros a b Fa Fb. unfold minimum64. rewrite Bleb_correct by auto. replace (@is_nan 53 1024 a) with false by (destruct a; try discriminate; reflexivity).
  rewrite orb_false_r. case Rle_bool_spec; intros H; repeat split; auto; lra.
Qed.
Lemma vmin64_finite : forall l, l <> [] -> Forall is_number l ->
  exists t, vmin64 l = Ok t /\ is_number t /\ In t l /\ forall x, In x l -> real t <= real x.
Proof.
  intros [|x l] N F; [congruence|]. cbn [vmin64]. inversion F as [|? ? Fx Fl]; subst. clear N F.
  revert x Fx. induction Fl as [|y l Fy Fl IH]; intros x Fx; cbn [fold_left].
  - exists x. split; [reflexivity|]. split; [exact Fx|]. split; [left; reflexivity|]. intros z [<-|[]]. lra.
  - destruct (minimum_finite x y Fx Fy) as (F & V1 & V2 & D). destruct (IH (minimum64 x y) F) as (t & E & Ft & I & M).
    exists t. split; [exact E|]. split; [exact Ft|]. split.
    + destruct I as [I|I]; [|right; right; exact I]. destruct D as [D|D]; rewrite D in I; [left|right; left]; exact I.
    + pose proof (M _ (or_introl eq_refl)) as M0. unfold real in *. intros z [<-|[<-|Hz]]; [lra|lra|]. apply M. right. exact Hz.
Qed.

Lemma first_hd : forall (l : list b64), l <> [] -> first l = Ok (hd zero64 l).
Proof. intros [|x l] H; [congruence|reflexivity]. Qed.
Lemma final_last : forall (l : list b64), l <> [] -> final l = Ok (last l zero64).
Proof. induction l as [|x [|y l] IH]; intros H; [congruence|reflexivity|]. change (final (x :: y :: l)) with (final (y :: l)). rewrite IH by discriminate. reflexivity. Qed.
Lemma not_nil : forall A B (l : list A) (l' : list B), length l = length l' -> l <> [] -> l' <> [].
Proof. intros A B [|x l] [|y l'] H N; cbn in *; congruence. Qed.
Lemma last_in : forall A (l : list A) d, l <> [] -> In (last l d) l.
Proof. induction l as [|x [|y l] IH]; intros d H; [congruence|left; reflexivity|]. right. change (last (x :: y :: l) d) with (last (y :: l) d). apply IH. discriminate. Qed.
Lemma last_map : forall A B (f : A -> B) l d d', l <> [] -> last (map f l) d' = f (last l d).
Proof. induction l as [|x [|y l] IH]; intros d d' H; [congruence|reflexivity|]. change (last (map f (x :: y :: l)) d') with (last (map f (y :: l)) d'). rewrite (IH d) by discriminate. reflexivity. Qed.

(** Edges of a profile whose trailing edge is closed. *)
Lemma closed_edges : forall p, numbers p -> common_abscissae p -> same_sizes p -> fxup p <> [] -> real (last (fyup p) zero64) = real (last (fydown p) zero64) ->
  update_edges64 p = Ok ((hd zero64 (fxup p), hd zero64 (fyup p)), (last (fxup p) zero64, last (fyup p) zero64)).
Proof.
  intros p (N1 & N2 & N3 & N4) C (S1 & S2 & S3) NE Cl. destruct C as (_ & _ & C).
  assert (X : fxdown p <> []) by (apply (not_nil _ _ (fxup p)); auto; congruence). assert (Y : fyup p <> []) by (apply (not_nil _ _ (fxup p)); auto; congruence). assert (Z : fydown p <> []) by (apply (not_nil _ _ (fxup p)); auto; congruence).
  assert (Tol : forall a b, finite a = true -> finite b = true -> val a = val b -> Bltb tol64 (fabs64 (fsub a b)) = false).
  { intros a b Fa Fb E. pose proof huge_big. apply close_enough; auto; replace (val a - val b) with 0 by lra; rewrite Rabs_R0; lra. }
  unfold update_edges64. rewrite !first_hd, !final_last by auto. cbn [bind].
  rewrite (Tol (hd zero64 (fxup p)) (hd zero64 (fxdown p))); [|apply hd_number; auto|apply hd_number; auto|rewrite <- (hd_real (fxup p)) at 1; rewrite C; apply hd_real].
  cbn [bind]. rewrite (Tol (last (fxup p) zero64) (last (fxdown p) zero64)); [|apply last_number; auto|apply last_number; auto|rewrite <- (last_real (fxup p)) at 1; rewrite C; apply last_real].
  cbn [bind]. rewrite Beqb_correct by (apply last_number; auto). rewrite Req_bool_true by exact Cl. reflexivity.
Qed.

Lemma parameters_exist : forall o p e, numbers p -> same_sizes p -> fxup p <> [] -> update_edges64 p = Ok e -> 
  Forall (fun y => Rabs y <= huge / 4) (yup (meaning p)) -> Forall (fun y => Rabs y <= huge / 4) (ydown (meaning p)) ->
  exists s, parameters_british64 o p = Ok s.
Proof.
  intros o p e (N1 & N2 & N3 & N4) S NE E BU BD. pose proof S as (S1 & S2 & S3). unfold parameters_british64. rewrite E. cbn [bind].
  destruct (vmin64_finite _ NE N1) as (x0 & -> & _). cbn [bind]. unfold vzip. rewrite (proj2 (Nat.eqb_eq _ _) (eq_trans S2 (eq_sym S3))). cbn [bind].
  change (map2 (fun u d => fdiv64 (fadd u d) two64) (fyup p) (fydown p)) with (map2 avg64 (fyup p) (fydown p)). change (map2 (fun u d => fabs64 (fsub u d)) (fyup p) (fydown p)) with (map2 gap64 (fyup p) (fydown p)).
  assert (L : forall f : b64 -> b64 -> b64, map2 f (fyup p) (fydown p) <> []). { intros f. apply (not_nil _ _ (fxup p)); auto. rewrite map2_size; congruence. }
  destruct (vmax64_finite (map2 avg64 (fyup p) (fydown p)) (L _)) as (c & -> & _). { apply each_of; auto. intros u d Fu Fd Bu Bd. apply (avg_ok u d Fu Fd Bu Bd). }
  cbn [bind]. destruct (vmax64_finite (map2 gap64 (fyup p) (fydown p)) (L _)) as (t & -> & _). { apply each_of; auto. intros u d Fu Fd Bu Bd. apply (gap_ok u d Fu Fd Bu Bd). }
  cbn [bind]. eexists. reflexivity.
Qed.

Lemma flat_chord : forall o p, let a := real (hd zero64 (fxup p)) in let b := real (last (fxup p) zero64) in
  numbers p -> common_abscissae p -> same_sizes p -> fxup p <> [] -> Forall (fun x => a <= x <= b) (xup (meaning p)) -> bpow radix2 (-511) <= b - a <= bpow radix2 511 ->
  real (hd zero64 (fyup p)) = real (last (fyup p) zero64) -> real (last (fyup p) zero64) = real (last (fydown p) zero64) ->
  Forall (fun y => Rabs y <= huge / 4) (yup (meaning p)) -> Forall (fun y => Rabs y <= huge / 4) (ydown (meaning p)) ->
  exists s, parameters_british64 o p = Ok s /\ is_number (plen s) /\ Rabs (real (plen s) - (b - a)) <= eps * (b - a) /\
    length (pchord s) = length (fxup p) /\ Forall (fun f => is_number f /\ 0 <= real f <= 1) (pchord s) /\
    real (hd zero64 (pchord s)) = 0 /\ real (last (pchord s) zero64) = 1 /\
    (forall i j x y f g, nth_error (fxup p) i = Some x -> nth_error (fxup p) j = Some y -> nth_error (pchord s) i = Some f -> nth_error (pchord s) j = Some g ->
       real x <= real y -> real f <= real g).
Proof.
  intros o p a b N C S NE Mono AB Fl Cl BU BD. pose proof (closed_edges p N C S NE Cl) as E. destruct (parameters_exist o p _ N S NE E BU BD) as (s & Hs). exists s. split; auto.
  destruct (parameters_inv o p s S Hs) as (e & x0 & c & t & E' & X0 & _ & _ & ->). cbn [pchord plen]. assert (e = ((hd zero64 (fxup p), hd zero64 (fyup p)), (last (fxup p) zero64, last (fyup p) zero64))) by congruence. subst e. cbn [fst snd].
  pose proof N as (N1 & N2 & N3 & N4). pose proof S as (S1 & S2 & S3). pose proof huge_big as HB. pose proof (bpow_gt_0 radix2 (-511)) as B0.
  assert (BH : b - a <= huge). { apply Rle_trans with (bpow radix2 511); [lra|]. unfold huge. apply bpow_le. lia. }
  set (xa := hd zero64 (fxup p)) in *. set (xb := last (fxup p) zero64) in *. set (ya := hd zero64 (fyup p)) in *. set (yb := last (fyup p) zero64) in *.
  assert (Fa : finite xa = true) by (apply hd_number; auto). assert (Fb : finite xb = true) by (apply last_number; auto).
  assert (Fya : finite ya = true) by (apply hd_number; auto). assert (Fyb : finite yb = true) by (apply last_number; auto).
  destruct (fsub_ok xa xb Fa Fb) as (Vx & Fx). { fold (real xa) (real xb). fold a b. rewrite Rabs_minus_sym, Rabs_pos_eq; lra. }
  destruct (fsub_ok ya yb Fya Fyb) as (Vy & Fy). { unfold real in Fl. replace (val ya - val yb) with 0 by lra. rewrite Rabs_R0. lra. }
  unfold real in Fl. replace (val ya - val yb) with 0 in Vy by lra. rewrite round_0 in Vy by apply valid_rnd_N.
  replace (val xa - val xb) with (- (b - a)) in Vx by (unfold a, b, real; ring). rewrite rnd_opp in Vx.
  set (D := rnd (b - a)) in *.
  assert (FB : forall k, (-1074 <= k)%Z -> generic_format radix2 fexp64 (bpow radix2 k)) by (intros k Hk; apply generic_format_bpow; unfold FLT_exp; lia).
  assert (DB : bpow radix2 (-511) <= D <= bpow radix2 511). { unfold D. split; [rewrite <- (rnd_exact _ (FB (-511)%Z ltac:(lia)))|rewrite <- (rnd_exact _ (FB 511%Z ltac:(lia)))]; apply rnd_le; lra. }
  destruct (norm_flat o (fsub xa xb) (fsub ya yb) Fx Fy Vy) as (FL & VL). { rewrite Vx, Rabs_Ropp, Rabs_pos_eq; lra. }
  rewrite Vx, Rabs_Ropp, Rabs_pos_eq in VL by lra. set (L := norm2_64 o (fsub xa xb) (fsub ya yb)) in *.
  assert (Va : real x0 = a).
  { destruct (vmin64_finite _ NE N1) as (m & Em & Fm & Im & Mm). assert (m = x0) by congruence. subst m. apply Rle_antisym.
    - apply Mm. unfold a, xa. destruct (fxup p); [congruence|left; reflexivity].
    - unfold meaning in Mono. cbn [xup] in Mono. rewrite Forall_forall in Mono. apply (Mono (real x0)). apply in_map, Im. }
  assert (F0 : finite x0 = true). { destruct (vmin64_finite _ NE N1) as (m & Em & Fm & _). assert (m = x0) by congruence. subst m. exact Fm. }
  assert (K : forall x, In x (fxup p) -> finite (fdiv64 (fsub x x0) L) = true /\ val (fdiv64 (fsub x x0) L) = rnd (rnd (real x - a) / D) /\ 0 <= rnd (real x - a) <= D).
  { intros x I. unfold meaning in Mono. cbn [xup] in Mono. rewrite Forall_forall in Mono, N1. destruct (Mono (real x) (in_map real _ _ I)) as (X1 & X2). pose proof (N1 x I) as Fxx.
    assert (R : 0 <= rnd (real x - a) <= D) by (split; [apply rnd_nonneg; lra|apply rnd_le; lra]).
    destruct (fsub_ok x x0 Fxx F0) as (V & F). { fold (real x) (real x0). rewrite Va, Rabs_pos_eq; lra. }
    fold (real x) (real x0) in V. rewrite Va in V.
    assert (Q : 0 <= rnd (real x - a) / D <= 1). { split; [apply Rmult_le_pos; [lra|]; apply Rlt_le, Rinv_0_lt_compat; lra|]. apply Rmult_le_reg_r with D; [lra|]. unfold Rdiv. rewrite Rmult_assoc, Rinv_l; lra. }
    destruct (fdiv_fine (fsub x x0) L F) as (W & G); [rewrite VL; lra|rewrite V, VL, Rabs_pos_eq; lra|]. split; auto. split; auto. rewrite W, V, VL. reflexivity. }
  split; [exact FL|]. split.
  { unfold real. rewrite VL. unfold D. rewrite <- (Rabs_pos_eq (b - a)) at 3 by lra. apply rnd_error. rewrite Rabs_pos_eq by lra. apply Rle_trans with (bpow radix2 (-511)); [apply bpow_le; lia|lra]. }
  split; [apply map_length|]. split.
  { apply Forall_forall. intros f I. apply in_map_iff in I as (x & <- & I). destruct (K x I) as (F & V & R). split; auto. unfold real. rewrite V.
    split; [apply rnd_nonneg, Rmult_le_pos; [lra|]; apply Rlt_le, Rinv_0_lt_compat; lra|]. rewrite <- rnd_1. apply rnd_le. apply Rmult_le_reg_r with D; [lra|]. unfold Rdiv. rewrite Rmult_assoc, Rinv_l; lra. }
  split.
  { replace (hd zero64 (map (fun x => fdiv64 (fsub x x0) L) (fxup p))) with (fdiv64 (fsub xa x0) L) by (unfold xa; destruct (fxup p); [congruence|reflexivity]).
    destruct (K xa) as (_ & V & _). { unfold xa. destruct (fxup p); [congruence|left; reflexivity]. } unfold real. rewrite V. fold a. replace (a - a) with 0 by ring. rewrite round_0 by apply valid_rnd_N. unfold Rdiv. rewrite Rmult_0_l. apply round_0. apply valid_rnd_N. }
  split.
  { rewrite (last_map _ _ _ _ zero64) by exact NE. fold xb. destruct (K xb) as (_ & V & _); [apply last_in; exact NE|]. unfold real at 1. rewrite V. fold b. fold D. rewrite Rdiv_diag by lra. apply rnd_1. }
  intros i j x y f g Hi Hj Hf Hg Le. rewrite nth_error_map, Hi in Hf. rewrite nth_error_map, Hj in Hg. injection Hf as <-. injection Hg as <-.
  destruct (K x (nth_error_In _ _ Hi)) as (_ & V & _). destruct (K y (nth_error_In _ _ Hj)) as (_ & W & _). unfold real in *. rewrite V, W. apply rnd_le.
  apply Rmult_le_compat_r; [apply Rlt_le, Rinv_0_lt_compat; lra|]. apply rnd_le. lra.
Qed.

Lemma any_chord : forall o p s, numbers p -> common_abscissae p -> same_sizes p -> fxup p <> [] -> real (last (fyup p) zero64) = real (last (fydown p) zero64) ->
  let dx := real (hd zero64 (fxup p)) - real (last (fxup p) zero64) in let dy := real (hd zero64 (fyup p)) - real (last (fyup p) zero64) in
  bpow radix2 (-300) <= sqrt (dx * dx + dy * dy) <= bpow radix2 300 -> parameters_british64 o p = Ok s ->
  is_number (plen s) /\ Rabs (real (plen s) - sqrt (dx * dx + dy * dy)) <= 7 * eps * sqrt (dx * dx + dy * dy).
Proof.
  intros o p s N C S NE Cl dx dy B H. pose proof (closed_edges p N C S NE Cl) as E. destruct (parameters_inv o p s S H) as (e & x0 & c & t & E' & _ & _ & _ & ->). cbn [plen].
  assert (e = ((hd zero64 (fxup p), hd zero64 (fyup p)), (last (fxup p) zero64, last (fyup p) zero64))) by congruence. subst e. cbn [fst snd].
  pose proof N as (N1 & N2 & N3 & N4). pose proof huge_big as HB. pose proof (bpow_gt_0 radix2 (-300)) as B0. pose proof eps_bounds as [E1 E2].
  set (xa := hd zero64 (fxup p)) in *. set (xb := last (fxup p) zero64) in *. set (ya := hd zero64 (fyup p)) in *. set (yb := last (fyup p) zero64) in *.
  assert (Fa : finite xa = true) by (apply hd_number; auto). assert (Fb : finite xb = true) by (apply last_number; auto).
  assert (Fya : finite ya = true) by (apply hd_number; auto). assert (Fyb : finite yb = true) by (apply last_number; auto).
  set (Q := sqrt (dx * dx + dy * dy)) in *. assert (QQ : Q * Q = dx * dx + dy * dy) by (apply sqrt_def; nra).
  assert (LX : Rabs dx <= Q). { rewrite <- (Rabs_pos_eq Q) by lra. apply Rsqr_le_abs_0. unfold Rsqr. nra. }
  assert (LY : Rabs dy <= Q). { rewrite <- (Rabs_pos_eq Q) by lra. apply Rsqr_le_abs_0. unfold Rsqr. nra. }
  assert (QH : Q <= huge / 2). { apply Rle_trans with (bpow radix2 300); [lra|]. unfold huge. replace (bpow radix2 1023 / 2) with (bpow radix2 1022) by (change 1023%Z with (1022 + 1)%Z; rewrite bpow_plus; change (bpow radix2 1) with 2; field). apply bpow_le. lia. }
  destruct (fsub_ok xa xb Fa Fb) as (Vx & Fx); [fold (real xa) (real xb); fold dx; lra|]. destruct (fsub_ok ya yb Fya Fyb) as (Vy & Fy); [fold (real ya) (real yb); fold dy; lra|].
  pose proof (diff_error xa xb) as Ex. rewrite <- Vx in Ex. fold (real xa) (real xb) in Ex. fold dx in Ex. pose proof (diff_error ya yb) as Ey. rewrite <- Vy in Ey. fold (real ya) (real yb) in Ey. fold dy in Ey.
  set (x := val (fsub xa xb)) in *. set (y := val (fsub ya yb)) in *.
  assert (Sq : forall z w, Rabs (z - w) <= eps * Rabs w -> (1 - eps) * (1 - eps) * (w * w) <= z * z <= (1 + eps) * (1 + eps) * (w * w)).
  { intros z w Hz. assert (A : (1 - eps) * Rabs w <= Rabs z <= (1 + eps) * Rabs w).
    { pose proof (Rabs_triang (z - w) w) as T1. replace (z - w + w) with z in T1 by ring. pose proof (Rabs_triang (w - z) z) as T2. replace (w - z + z) with w in T2 by ring. rewrite (Rabs_minus_sym w z) in T2. lra. }
    assert (Zz : z * z = Rabs z * Rabs z) by (rewrite <- Rabs_mult, Rabs_pos_eq; nra). assert (Ww : w * w = Rabs w * Rabs w) by (rewrite <- Rabs_mult, Rabs_pos_eq; nra). rewrite Zz, Ww.
    pose proof (Rabs_pos w) as Pw. pose proof (Rabs_pos z) as Pz. destruct A as (A1 & A2). split.
    - replace ((1 - eps) * (1 - eps) * (Rabs w * Rabs w)) with ((1 - eps) * Rabs w * ((1 - eps) * Rabs w)) by ring. apply Rmult_le_compat; try lra; apply Rmult_le_pos; lra.
    - replace ((1 + eps) * (1 + eps) * (Rabs w * Rabs w)) with ((1 + eps) * Rabs w * ((1 + eps) * Rabs w)) by ring. apply Rmult_le_compat; lra. }
  pose proof (Sq x dx Ex) as Sx. pose proof (Sq y dy Ey) as Sy. set (S' := sqrt (x * x + y * y)).
  assert (EQ : 0 <= eps * Q <= / 1024 * Q) by (split; [nra|apply Rmult_le_compat_r; lra]).
  assert (SS : (1 - eps) * Q <= S' <= (1 + eps) * Q).
  { assert (P : 0 <= (1 - eps) * Q) by (apply Rmult_le_pos; lra). assert (P2 : 0 <= (1 + eps) * Q) by (apply Rmult_le_pos; lra). unfold S'. rewrite <- (sqrt_square _ P), <- (sqrt_square _ P2).
    split; apply sqrt_le_1_alt; [replace ((1 - eps) * Q * ((1 - eps) * Q)) with ((1 - eps) * (1 - eps) * (Q * Q)) by ring|replace ((1 + eps) * Q * ((1 + eps) * Q)) with ((1 + eps) * (1 + eps) * (Q * Q)) by ring]; rewrite QQ; lra. }
  assert (BB : bpow radix2 (-400) <= S' <= bpow radix2 400).
  { split.
    - apply Rle_trans with (/ 2 * bpow radix2 (-300)); [|lra]. change (/ 2) with (bpow radix2 (-1)). rewrite <- bpow_plus. apply bpow_le. lia.
    - apply Rle_trans with (2 * bpow radix2 300); [lra|]. change 2 with (bpow radix2 1) at 1. rewrite <- bpow_plus. apply bpow_le. lia. }
  destruct (norm_error o (fsub xa xb) (fsub ya yb) Fx Fy BB) as (F & R). split; [exact F|]. fold x y in R. fold S' in R. unfold real.
  assert (eps * S' <= eps * ((1 + eps) * Q)) by (apply Rmult_le_compat_l; lra). assert (eps * (eps * Q) <= / 1024 * (eps * Q)) by (apply Rmult_le_compat_r; lra).
  apply Rabs_le_inv in R. apply Rabs_le. lra.
Qed.
