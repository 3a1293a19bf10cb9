(** The largest thickness of NACA foils in binary64. *)
From Coq Require Import Reals ZArith List Lra Lia Bool.
From Flocq Require Import Core BinarySingleNaN.
From Verif Require CustomProofs.
From Verif Require Import Base PpgFloatModel PpgFloatProofs ProfileModel ProfileSpec ProfileProofs2 FloatModel FloatSpec FloatProofs ShapeFloatModel ShapeFloatSpec ShapeFloatProofs ShapeFloatProofs2 ShapeFloatProofs6 SectionFloatModel NacaModel NacaSpec NacaProofs NacaFloatModel NacaFloatSpec NacaFloatProofs5 NacaFloatProofs7 NacaFiveModel NacaFiveSpec NacaFiveProofs NacaFiveProofs2 NacaFiveProofs3 ChordFloatProofs ChordFloatProofs3 ChordFloatProofs4 ChordFloatProofs5.
Import ListNotations.
Open Scope R_scope.

Lemma peak_near : forall t x, 0 <= t -> Rabs (x - 3 / 10) <= / 10 ^ 6 -> t <= 2 * half_thickness t x.
Proof.
  intros t x T X. apply Rabs_le_inv in X. assert (S : 5477 / 10000 <= sqrt x). { rewrite <- (sqrt_square (5477 / 10000)) by lra. apply sqrt_le_1; lra. }
  assert (A : x ^ 2 <= 900007 / 10 ^ 7). { apply Rle_trans with ((300001 / 10 ^ 6) ^ 2); [apply pow_incr; lra|lra]. } assert (B : 2699 / 10 ^ 5 <= x ^ 3). { apply Rle_trans with ((299999 / 10 ^ 6) ^ 3); [lra|apply pow_incr; lra]. }
  assert (C : x ^ 4 <= 8101 / 10 ^ 6). { apply Rle_trans with ((300001 / 10 ^ 6) ^ 4); [apply pow_incr; lra|lra]. }
  unfold half_thickness. assert (Q : 1 / 10 <= 0.2969 * sqrt x + -0.1260 * x + -0.3516 * x ^ 2 + 0.2843 * x ^ 3 + -0.1036 * x ^ 4) by lra.
  apply (Rmult_le_compat_l t) in Q; [|exact T]. lra.
Qed.

Lemma thickness_of_points : forall p n c d K, digit c -> digit d -> numbers p -> same_sizes p -> length (fxup p) = n -> (2 <= n)%nat -> fxdown p = fxup p -> 0 <= K <= 2000 ->
  (forall i, (i < n)%nat -> exists x C, Rabs (x - INR i / INR (n - 1)) <= 3 * eps /\ 0 <= x <= 1 /\ Rabs C <= 1 / 2 /\
    Rabs (real (nth i (fyup p) zero64) - (C + half4 c d x)) <= K * eps /\ Rabs (real (nth i (fydown p) zero64) - (C - half4 c d x)) <= K * eps) ->
  let T := INR (10 * c + d) / 100 in
  exists t, max_thickness64 p = Ok t /\ is_number t /\ 0 <= real t <= 1.0002 * T + (2 * K + 2) * eps /\
  (exists i x, (i < n)%nat /\ Rabs (x - INR i / INR (n - 1)) <= 3 * eps /\ 0 <= x <= 1 /\ Rabs (real t - 2 * half4 c d x) <= (2 * K + 2) * eps) /\
  (forall j, (j < n)%nat -> exists x, Rabs (x - INR j / INR (n - 1)) <= 3 * eps /\ 0 <= x <= 1 /\ 2 * half4 c d x <= real t + (2 * K + 2) * eps) /\
  (forall j, (j < n)%nat -> (10 * j = 3 * (n - 1))%nat -> T - (2 * K + 2) * eps <= real t).
Proof.
  intros p n c d K Dc Dd N S Ln Nn Ex HK Co T. pose proof eps_bounds as [E1 E2]. destruct (thickness_val c d Dc Dd) as (_ & Tb & _). cbv zeta in Tb. fold T in Tb.
  assert (E9 : 5000 * eps <= / 10 ^ 6). { unfold eps. change (bpow radix2 (-53)) with (/ 9007199254740992). lra. }
  assert (KE : 0 <= K * eps <= 2000 * eps) by (split; [apply Rmult_le_pos; lra|apply Rmult_le_compat_r; lra]).
  pose proof S as (S1 & S2 & S3). assert (NE : fxup p <> []). { intros Q. rewrite Q in Ln. cbn in Ln. lia. }
  assert (Cm : common_abscissae p). { destruct N as (N1 & N2 & _). split; [exact N1|]. split; [exact N2|]. rewrite Ex. reflexivity. }
  assert (HB := huge_big).
  assert (G : forall i, (i < n)%nat -> nth_error (gap (yup (meaning p)) (ydown (meaning p))) i = Some (Rabs (real (nth i (fyup p) zero64) - real (nth i (fydown p) zero64)))).
  { unfold gap, meaning. cbn [yup ydown]. assert (La : length (fyup p) = n) by congruence. assert (Lb : length (fydown p) = n) by congruence. revert La Lb. generalize (fyup p), (fydown p). clear. intros l. revert n. induction l as [|x l IH]; intros n [|y l'] A B i Hi; cbn in *; subst; try lia. destruct i; [reflexivity|]. cbn. apply IH with (length l); lia. }
  assert (GL : length (gap (yup (meaning p)) (ydown (meaning p))) = n).
  { unfold gap, meaning. cbn [yup ydown]. rewrite CustomProofs.map2_nil_iff; rewrite !map_length; unfold b64 in *; congruence. }
  assert (V : forall g, In g (gap (yup (meaning p)) (ydown (meaning p))) -> exists i, (i < n)%nat /\ g = Rabs (real (nth i (fyup p) zero64) - real (nth i (fydown p) zero64))).
  { intros g I. apply In_nth_error in I as (i & Hi). assert (i < n)%nat. { rewrite <- GL. apply nth_error_Some. congruence. } exists i. split; [auto|]. rewrite G in Hi by auto. congruence. }
  assert (B : forall i, (i < n)%nat -> exists x, Rabs (x - INR i / INR (n - 1)) <= 3 * eps /\ 0 <= x <= 1 /\ 0 <= 2 * half4 c d x <= 1.0002 * T /\ Rabs (Rabs (real (nth i (fyup p) zero64) - real (nth i (fydown p) zero64)) - 2 * half4 c d x) <= 2 * (K * eps)).
  { intros i Hi. destruct (Co i Hi) as (x & C & Bx & Rx & _ & Yu & Yd). exists x. split; [exact Bx|]. split; [exact Rx|]. destruct (half_bounds T x (proj1 Tb) Rx) as (G0 & G1). fold T. unfold half4 in *. fold T in Yu, Yd |- *. split; [lra|].
    replace (2 * half_thickness T x) with (Rabs (2 * half_thickness T x)) by (apply Rabs_pos_eq; lra). eapply Rle_trans; [apply Rabs_triang_inv2|]. apply Rabs_le_inv in Yu. apply Rabs_le_inv in Yd. apply Rabs_le. lra. }
  destruct (ShapeFloatProofs2.thickness_error p N Cm S NE) as (t & e & Et & Ee & Ft & Er).
  { apply Forall_forall. intros g I. destruct (V g I) as (i & Hi & ->). destruct (B i Hi) as (x & _ & _ & H & Q). apply Rabs_le_inv in Q. lra. }
  rewrite thickness_exact in Ee by auto. apply vmax_spec in Ee as (Ie & Me).
  destruct (V e Ie) as (i & Hi & Q). destruct (B i Hi) as (x & Bx & Rx & Hx & Dx). rewrite <- Q in Dx. apply Rabs_le_inv in Dx. assert (e0 : 0 <= e) by (rewrite Q; apply Rabs_pos).
  assert (e2 : eps * e <= eps * 2) by (apply Rmult_le_compat_l; lra). assert (e3 : eps * e <= e) by (apply Rle_trans with (1 * e); [apply Rmult_le_compat_r; lra|lra]). apply Rabs_le_inv in Er.
  assert (J : forall j, (j < n)%nat -> exists x, Rabs (x - INR j / INR (n - 1)) <= 3 * eps /\ 0 <= x <= 1 /\ 2 * half4 c d x <= real t + (2 * K + 2) * eps).
  { intros j Hj. destruct (B j Hj) as (y & By & Ry & Hy & Dy). exists y. split; [exact By|]. split; [exact Ry|]. apply Rabs_le_inv in Dy. pose proof (Me _ (nth_error_In _ _ (G j Hj))). lra. }
  exists t. split; [exact Et|]. split; [exact Ft|]. split; [lra|]. split; [exists i, x; split; [exact Hi|]; split; [exact Bx|]; split; [exact Rx|]; apply Rabs_le; lra|]. split; [exact J|].
  intros j Hj Hq. destruct (J j Hj) as (y & By & Ry & Hy). assert (P : INR j / INR (n - 1) = 3 / 10).
  { assert (0 < INR (n - 1)) by (apply lt_0_INR; lia). apply (f_equal INR) in Hq. rewrite !mult_INR in Hq. replace (INR 10) with 10 in Hq by (cbn; lra). replace (INR 3) with 3 in Hq by (cbn; lra). apply Rmult_eq_reg_r with (INR (n - 1)); [|lra]. unfold Rdiv at 1. rewrite Rmult_assoc, Rinv_l by lra. lra. }
  rewrite P in By. assert (PK : T <= 2 * half_thickness T y) by (apply peak_near; lra). unfold half4 in Hy. fold T in Hy. lra.
Qed.

Lemma foil_thickness : forall L a b c d n cosine p, naca_input L a b c d n -> naca_foil64 L a b c d cosine n = Ok p -> cosine = false \/ b = 0%nat ->
  let T := INR (10 * c + d) / 100 in
  exists t, max_thickness64 p = Ok t /\ is_number t /\ 0 <= real t <= 1.0002 * T + 2122 * eps /\
  (exists i x, (i < n)%nat /\ Rabs (x - INR i / INR (n - 1)) <= 3 * eps /\ 0 <= x <= 1 /\ Rabs (real t - 2 * half4 c d x) <= 2122 * eps) /\
  (forall j, (j < n)%nat -> exists x, Rabs (x - INR j / INR (n - 1)) <= 3 * eps /\ 0 <= x <= 1 /\ 2 * half4 c d x <= real t + 2122 * eps) /\
  (forall j, (j < n)%nat -> (10 * j = 3 * (n - 1))%nat -> T - 2122 * eps <= real t).
Proof.
  intros L a b c d n cosine p K E Fl T. destruct (sizes L a b c d n cosine p K E) as (Ln & S). pose proof (all_numbers L a b c d n cosine p K E) as N. destruct (stations L a b c d n cosine p K E Fl) as (Ex & _).
  pose proof K as (_ & Da & Db & Dc & Dd & Nn & Mn). replace 2122 with (2 * 1060 + 2) by lra. apply (thickness_of_points p n c d 1060); auto; [lra|].
  intros i Hi. destruct (coordinates L a b c d n cosine p K E i Hi) as (x & Bx & Rx & _ & _ & _ & _ & Yu & Yd). unfold up64, down64 in Yu, Yd. cbn [fst snd] in Yu, Yd. exists x, (camber4 a b x). split; [exact Bx|]. split; [exact Rx|].
  assert (An : angle4 a b cosine x = 0). { unfold angle4. destruct Fl as [->| ->]; [rewrite orb_true_r|]; reflexivity. } rewrite An, cos_0, Rmult_1_r in Yu, Yd.
  destruct (camber4_bounds a b x Da Db Rx) as (C0 & C1). assert (INR a <= 9). { replace 9 with (INR 9) by (cbn; lra). apply le_INR. exact Da. }
  split; [apply Rabs_le; lra|]. split; assumption.
Qed.

Lemma foil_thickness5 : forall L S a b reflex c d n cosine p, naca5_input L S a b reflex c d n -> naca_foil5_64 L S a b (third reflex) c d cosine n = Ok p -> cosine = false \/ b = 0%nat ->
  let T := INR (10 * c + d) / 100 in
  exists t, max_thickness64 p = Ok t /\ is_number t /\ 0 <= real t <= 1.0002 * T + 322 * eps /\
  (exists i x, (i < n)%nat /\ Rabs (x - INR i / INR (n - 1)) <= 3 * eps /\ 0 <= x <= 1 /\ Rabs (real t - 2 * half4 c d x) <= 322 * eps) /\
  (forall j, (j < n)%nat -> exists x, Rabs (x - INR j / INR (n - 1)) <= 3 * eps /\ 0 <= x <= 1 /\ 2 * half4 c d x <= real t + 322 * eps) /\
  (forall j, (j < n)%nat -> (10 * j = 3 * (n - 1))%nat -> T - 322 * eps <= real t).
Proof.
  intros L S a b reflex c d n cosine p K E Fl T. destruct (produced5 L S a b reflex c d n cosine K) as (p' & E' & Ln & Sz & N). assert (p' = p) by congruence. subst p'. clear E'.
  destruct (stations5 L S a b reflex c d n cosine K p E Fl) as (Ex & _). destruct (coordinates5 L S a b reflex c d n cosine K p E) as (m & k & Mk & Co). cbv zeta in Co.
  pose proof K as (_ & _ & Da & Db & Dc & Dd & Nn & Mn). replace 322 with (2 * 160 + 2) by lra. apply (thickness_of_points p n c d 160); auto; [lra|].
  intros i Hi. destruct (Co i Hi) as (x & Bx & Rx & _ & _ & _ & _ & Yu & Yd). unfold up64, down64 in Yu, Yd. cbn [fst snd] in Yu, Yd. exists x, (camber5 a b cosine k m x). split; [exact Bx|]. split; [exact Rx|].
  assert (An : angle5 b cosine k m x = 0). { unfold angle5. destruct Fl as [->| ->]; [rewrite orb_true_r|]; reflexivity. } rewrite An, cos_0, Rmult_1_r in Yu, Yd.
  split; [|split; assumption]. unfold camber5. destruct (Nat.eqb_spec b 0) as [Z|Z]; [rewrite Rabs_R0; lra|]. destruct Fl as [->|Z']; [|contradiction]. rewrite Rmult_1_l. destruct (Mk Z) as (M1 & M2). destruct Db as [Z'|Tb]; [contradiction|]. destruct (table_bounds reflex b m k Tb M1 M2) as (B1 & B2 & B3). apply line5_bound; auto; lra.
Qed.
