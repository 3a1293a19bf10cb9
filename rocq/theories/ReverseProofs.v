From Coq Require Import Reals List Bool Lia Lra Permutation.
From Verif Require Import Base ProfileModel ProfileSpec ProfileProofs PathModel ReverseModel ReverseSpec.
Import ListNotations.
Open Scope R_scope.

(** ** arctan2 *)
Lemma arctan2_polar : forall rho t, 0 < rho -> - PI < t <= PI -> arctan2 (rho * sin t) (rho * cos t) = t.
Proof.
  intros rho t Hr Ht. unfold arctan2. pose proof PI_RGT_0 as HP.
  assert (Q : cos t <> 0 -> rho * sin t / (rho * cos t) = tan t).
  { intros C. unfold tan. field. lra. }
  assert (A : forall x, - PI <= x <= - (PI / 2) -> cos x <= 0).
  { intros x Hx. rewrite <- cos_neg. apply cos_le_0; lra. }
  destruct (Rlt_dec 0 (rho * cos t)) as [H|H].
  - assert (C : 0 < cos t) by nra. rewrite Q by lra.
    assert (- PI / 2 < t < PI / 2).
    { split; apply Rnot_le_lt; intros D.
      - assert (cos t <= 0) by (apply A; lra). lra.
      - assert (cos t <= 0) by (apply cos_le_0; lra). lra. }
    apply atan_tan. lra.
  - destruct (Rlt_dec (rho * cos t) 0) as [H'|H'].
    + assert (C : cos t < 0) by nra. rewrite Q by lra.
      assert (D : t < - (PI / 2) \/ PI / 2 < t).
      { destruct (Rlt_le_dec t (- (PI / 2))); auto. right. apply Rnot_le_lt. intros E.
        assert (0 <= cos t) by (apply cos_ge_0; lra). lra. }
      destruct D as [D|D].
      * assert (sin t < 0). { rewrite <- (Ropp_involutive t), sin_neg. assert (0 < sin (- t)) by (apply sin_gt_0; lra). lra. }
        destruct (Rle_dec 0 (rho * sin t)) as [E|E]; [nra|].
        replace (tan t) with (tan (t + PI)).
        { rewrite atan_tan; lra. }
        unfold tan. rewrite neg_sin, neg_cos. field. lra.
      * assert (0 <= sin t) by (apply sin_ge_0; lra).
        destruct (Rle_dec 0 (rho * sin t)) as [E|E]; [|nra].
        replace (tan t) with (tan (t - PI)).
        { rewrite atan_tan; lra. }
        replace (t - PI) with (- (PI - t)) by ring. rewrite tan_neg. unfold tan. rewrite sin_PI_x, (Rtrigo_facts.cos_pi_minus t). field. lra.
    + assert (C : cos t = 0) by nra.
      assert (D : t = PI / 2 \/ t = - (PI / 2)).
      { destruct (Rlt_le_dec t (- (PI / 2))).
        - exfalso. assert (cos (- t) < 0) by (apply cos_lt_0; lra). rewrite cos_neg in *. lra.
        - destruct (Rlt_le_dec (PI / 2) t).
          + exfalso. assert (cos t < 0) by (apply cos_lt_0; lra). lra.
          + destruct (Req_EM_T t (PI / 2)); auto. destruct (Req_EM_T t (- (PI / 2))); auto.
            exfalso. assert (0 < cos t) by (apply cos_gt_0; lra). lra. }
      destruct D as [->| ->].
      * rewrite sin_PI2. destruct (Rlt_dec 0 (rho * 1)); [reflexivity|nra].
      * rewrite sin_neg, sin_PI2. destruct (Rlt_dec 0 (rho * - (1))); [nra|]. destruct (Rlt_dec (rho * - (1)) 0); [reflexivity|nra].
Qed.
Lemma arctan2_range : forall y x, - PI < arctan2 y x <= PI.
Proof.
  intros y x. unfold arctan2. pose proof PI_RGT_0. pose proof (atan_bound (y / x)).
  destruct (Rlt_dec 0 x); [lra|]. destruct (Rlt_dec x 0).
  - destruct (Rle_dec 0 y).
    + assert (atan (y / x) <= 0); [|lra]. destruct (Req_EM_T y 0) as [->|].
      * unfold Rdiv. rewrite Rmult_0_l, atan_0. lra.
      * left. rewrite <- atan_0. apply atan_increasing. apply Rmult_lt_reg_r with (- x); [lra|].
        replace (y / x * - x) with (- y) by (field; lra). lra.
    + assert (0 < atan (y / x)); [|lra]. rewrite <- atan_0. apply atan_increasing. apply Rmult_lt_reg_r with (- x); [lra|].
      replace (y / x * - x) with (- y) by (field; lra). lra.
  - destruct (Rlt_dec 0 y); [lra|]. destruct (Rlt_dec y 0); lra.
Qed.
Lemma norm_factor : forall x y, x <> 0 -> sqrt (x * x + y * y) = Rabs x * sqrt (1 + (y / x)²).
Proof.
  intros x y H. rewrite <- sqrt_Rsqr_abs, <- sqrt_mult.
  - f_equal. unfold Rsqr. field. exact H.
  - apply Rle_0_sqr.
  - pose proof (Rle_0_sqr (y / x)). lra.
Qed.
Lemma arctan2_trig : forall y x, (x <> 0 \/ y <> 0) ->
  cos (arctan2 y x) = x / sqrt (x * x + y * y) /\ sin (arctan2 y x) = y / sqrt (x * x + y * y).
Proof.
  intros y x N. unfold arctan2.
  assert (SP : forall z, 0 < sqrt (1 + z²)) by (intros z; apply sqrt_lt_R0; pose proof (Rle_0_sqr z); lra).
  destruct (Rlt_dec 0 x) as [H|H].
  - rewrite norm_factor by lra. rewrite Rabs_right by lra. rewrite cos_atan, sin_atan. specialize (SP (y / x)).
    split; field; split; lra.
  - destruct (Rlt_dec x 0) as [H'|H'].
    + rewrite norm_factor by lra. rewrite Rabs_left by lra. specialize (SP (y / x)).
      destruct (Rle_dec 0 y).
      * rewrite neg_cos, neg_sin, cos_atan, sin_atan. split; field; split; lra.
      * replace (atan (y / x) - PI) with (- (PI - atan (y / x))) by ring.
        rewrite cos_neg, sin_neg, Rtrigo_facts.cos_pi_minus, Rtrigo_facts.sin_pi_minus, cos_atan, sin_atan. split; field; split; lra.
    + assert (x = 0) as -> by lra. assert (Y : y <> 0) by (destruct N; congruence). rewrite Rmult_0_l, Rplus_0_l.
      fold (Rsqr y). rewrite sqrt_Rsqr_abs.
      destruct (Rlt_dec 0 y).
      * rewrite cos_PI2, sin_PI2, Rabs_right by lra. split; field; lra.
      * destruct (Rlt_dec y 0); [|lra]. rewrite cos_neg, sin_neg, cos_PI2, sin_PI2, Rabs_left by lra. split; field; lra.
Qed.

(** ** The frame *)
(** The map onto the unit chord, in closed form. *)
Definition onto_chord (le te p : pt) : pt :=
  let dx := fst le - fst te in let dy := snd le - snd te in
  let u := fst p - (fst le + fst te) / 2 in let v := snd p - (snd le + snd te) / 2 in
  let n := dx * dx + dy * dy in
  (1 / 2 - (u * dx + v * dy) / n, (dx * v - dy * u) / n).

Lemma frame_flat : forall le te, snd le = snd te -> frame_of le te = Err NonFinite.
Proof.
  intros le te E. unfold frame_of, over_tan. rewrite E. replace (snd te - snd te) with 0 by ring.
  assert (S : sin (arctan2 0 (fst le - fst te)) = 0).
  { destruct (Req_EM_T (fst le - fst te) 0) as [->|N].
    - unfold arctan2. destruct (Rlt_dec 0 0); [lra|]. destruct (Rlt_dec 0 0); [lra|]. apply sin_0.
    - destruct (arctan2_trig 0 (fst le - fst te)) as (_ & ->); auto. unfold Rdiv. ring. }
  rewrite S. destruct (Req_EM_T 0 0); [reflexivity|congruence].
Qed.
Lemma frame_ok : forall le te, snd le <> snd te ->
  exists f, frame_of le te = Ok f /\
    angle f = arctan2 (snd le - snd te) (fst le - fst te) /\
    skew_y f = (snd le + snd te) / 2 /\
    induced f = skew_y f * (fst le - fst te) / (snd le - snd te) /\
    rake_x f = (fst le + fst te) / 2 - induced f /\
    chord f = pdist le te /\ 0 < chord f /\
    (forall x, over_tan x (angle f) = Ok (x * (fst le - fst te) / (snd le - snd te))) /\
    (forall p, normalise f p = Ok (onto_chord le te p)) /\
    normalise_edge f le = Ok (0, 0) /\ normalise_edge f te = Ok (1, 0) /\
    normalise_edge f ((fst le + fst te) / 2, (snd le + snd te) / 2) = Ok (1 / 2, 0).
Proof.
  intros [lx ly] [tx ty] N. unfold frame_of. cbn [fst snd] in *.
  set (dx := lx - tx). set (dy := ly - ty). set (a := arctan2 dy dx).
  assert (DY : dy <> 0) by (unfold dy; lra).
  set (n := sqrt (dx * dx + dy * dy)).
  assert (NN : n * n = dx * dx + dy * dy) by (unfold n; apply sqrt_sqrt; nra).
  assert (NP : 0 < n) by (unfold n; apply sqrt_lt_R0; nra).
  destruct (arctan2_trig dy dx (or_intror DY)) as (CA & SA). fold a n in CA, SA.
  assert (OT : forall x, over_tan x a = Ok (x * dx / dy)).
  { intros x. unfold over_tan. destruct (Req_EM_T (sin a) 0) as [Z|Z].
    - exfalso. rewrite SA in Z. apply DY. apply Rmult_eq_reg_r with (/ n); [|apply Rinv_neq_0_compat; lra]. unfold Rdiv in Z. lra.
    - f_equal. rewrite CA, SA. field. lra. }
  rewrite OT. cbn [bind].
  set (ind := (ly + ty) / 2 * dx / dy). set (rk := (lx + tx) / 2 - ind).
  assert (RP : forall p, rotate_point a (centre ((ly + ty) / 2) ind rk p) =
     ((dx * (fst p - (lx + tx) / 2) + dy * (snd p - (ly + ty) / 2)) / n,
      (dx * (snd p - (ly + ty) / 2) - dy * (fst p - (lx + tx) / 2)) / n)).
  { intros p. unfold rotate_point, centre. cbn [fst snd]. rewrite cos_neg, sin_neg, CA, SA. unfold rk. f_equal; field; lra. }
  rewrite !RP. cbn [fst snd].
  replace (sqrt _) with n.
  2:{ transitivity (sqrt (n * n)); [symmetry; apply sqrt_square; lra|]. f_equal.
      replace (lx - (lx + tx) / 2) with (dx / 2) by (unfold dx; field). replace (ly - (ly + ty) / 2) with (dy / 2) by (unfold dy; field).
      replace (tx - (lx + tx) / 2) with (- (dx / 2)) by (unfold dx; field). replace (ty - (ly + ty) / 2) with (- (dy / 2)) by (unfold dy; field).
      replace ((dx * (dx / 2) + dy * (dy / 2)) / n - (dx * - (dx / 2) + dy * - (dy / 2)) / n) with ((dx * dx + dy * dy) / n) by (field; lra).
      rewrite <- NN. field. lra. }
  eexists. split; [reflexivity|]. cbn [angle skew_y induced rake_x chord].
  split; [reflexivity|]. split; [reflexivity|]. split; [reflexivity|]. split; [reflexivity|].
  split; [reflexivity|]. split; [exact NP|]. split; [exact OT|].
  assert (FD : forall x, fdiv x n = Ok (x / n)). { intros x. unfold fdiv. destruct (Req_EM_T n 0); [lra|reflexivity]. }
  unfold normalise, normalise_edge. cbn [angle skew_y induced rake_x chord].
  split; [intros p|repeat split]; rewrite RP; cbn [fst snd bind]; rewrite !FD; cbn [bind].
  - unfold onto_chord. cbn [fst snd]. fold dx dy. rewrite <- NN. apply (f_equal (@Ok pt)), f_equal2; field; lra.
  - apply (f_equal (@Ok pt)), f_equal2; unfold dx, dy; [|field; lra].
    replace (((lx - tx) * (lx - (lx + tx) / 2) + (ly - ty) * (ly - (ly + ty) / 2)) / n / n) with ((dx * dx + dy * dy) / (2 * (n * n))) by (unfold dx, dy; field; lra).
    rewrite <- NN. field. lra.
  - apply (f_equal (@Ok pt)), f_equal2; unfold dx, dy; [|field; lra].
    replace (((lx - tx) * (tx - (lx + tx) / 2) + (ly - ty) * (ty - (ly + ty) / 2)) / n / n) with (- ((dx * dx + dy * dy) / (2 * (n * n)))) by (unfold dx, dy; field; lra).
    rewrite <- NN. field. lra.
  - apply (f_equal (@Ok pt)), f_equal2; field; lra.
Qed.
Lemma squares_positive : forall lx ly tx ty, (lx, ly) <> (tx, ty) -> 0 < (lx - tx) * (lx - tx) + (ly - ty) * (ly - ty).
Proof.
  intros lx ly tx ty N. pose proof (Rle_0_sqr (lx - tx)) as A. pose proof (Rle_0_sqr (ly - ty)) as B. unfold Rsqr in *.
  destruct (Req_EM_T lx tx) as [->|E].
  - destruct (Req_EM_T ly ty) as [->|E]; [congruence|]. assert (0 < (ly - ty)²) by (apply Rsqr_pos_lt; lra). unfold Rsqr in *. lra.
  - assert (0 < (lx - tx)²) by (apply Rsqr_pos_lt; lra). unfold Rsqr in *. lra.
Qed.
Lemma onto_chord_ends : forall le te, le <> te -> onto_chord le te le = (0, 0) /\ onto_chord le te te = (1, 0).
Proof.
  intros [lx ly] [tx ty] N. unfold onto_chord. cbn [fst snd].
  assert (D : (lx - tx) * (lx - tx) + (ly - ty) * (ly - ty) <> 0) by (pose proof (squares_positive _ _ _ _ N); lra).
  split; f_equal; field; exact D.
Qed.
Lemma onto_chord_similar : forall le te, le <> te -> mirror_similarity (/ pdist le te) (onto_chord le te).
Proof.
  intros [lx ly] [tx ty] N.
  set (dx := lx - tx). set (dy := ly - ty). set (n := dx * dx + dy * dy).
  assert (NP : 0 < n) by (exact (squares_positive _ _ _ _ N)). assert (D : n <> 0) by lra.
  assert (PD : pdist (lx, ly) (tx, ty) = sqrt n) by reflexivity.
  assert (SP : 0 < sqrt n) by (apply sqrt_lt_R0; exact NP).
  assert (SS : sqrt n * sqrt n = n) by (apply sqrt_sqrt; lra).
  split.
  - intros [ax ay] [bx by_]. rewrite PD. unfold onto_chord, pdist, pnorm, psub. cbn [fst snd]. fold dx dy n.
    apply Rmult_eq_reg_l with (sqrt n); [|lra].
    replace (sqrt n * (/ sqrt n * sqrt ((ax - bx) * (ax - bx) + (ay - by_) * (ay - by_)))) with (sqrt ((ax - bx) * (ax - bx) + (ay - by_) * (ay - by_))) by (field; lra).
    rewrite <- sqrt_mult; [|lra|].
    + f_equal. apply Rmult_eq_reg_l with n; [|exact D].
      match goal with |- n * (n * ?e) = _ => replace (n * (n * e)) with ((dx * dx + dy * dy) * ((ax - bx) * (ax - bx) + (ay - by_) * (ay - by_))) by (field; exact D) end.
      fold n. reflexivity.
    + apply Rplus_le_le_0_compat; apply Rle_0_sqr.
  - intros [ax ay] [bx by_] [cx cy]. rewrite PD. unfold onto_chord, area2. cbn [fst snd]. fold dx dy n.
    replace (/ sqrt n * / sqrt n) with (/ n) by (rewrite <- SS at 1; field; lra).
    apply Rmult_eq_reg_l with (n * n); [|apply Rmult_integral_contrapositive; auto].
    match goal with |- n * n * ?e = n * n * (- / n * ?g) => replace (n * n * e) with (- (dx * dx + dy * dy) * g) by (field; exact D) end.
    fold n. field. exact D.
Qed.
