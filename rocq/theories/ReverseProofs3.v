From Coq Require Import Reals List Bool Lia Lra Permutation.
From Verif Require Import Base ProfileModel ProfileSpec ProfileProofs BladeModel BladeSpec BladeProofs BladeProofs2 BladeProofs3
  PathModel ReverseModel ReverseSpec ReverseProofs ReverseProofs2.
Import ListNotations.
Open Scope R_scope.

Lemma unroll_wrap : forall r a, 0 < r -> - PI < snd a / r <= PI ->
  unroll (1000 * r) (scale3 1000 (wrap r a)) = pscale 1000 a.
Proof.
  intros r [x y] Hr Hy. cbn [fst snd] in *. unfold unroll, scale3, wrap, pscale. cbn [fst snd]. f_equal.
  rewrite <- !Rmult_assoc. rewrite arctan2_polar by (assumption || lra). field. lra.
Qed.
Lemma onto_scale : forall le te p, le <> te -> onto_chord (pscale 1000 le) (pscale 1000 te) (pscale 1000 p) = onto_chord le te p.
Proof.
  intros [lx ly] [tx ty] [px py] N. unfold onto_chord, pscale. cbn [fst snd].
  pose proof (squares_positive _ _ _ _ N) as S. f_equal.
  - f_equal. replace ((1000 * lx - 1000 * tx) * (1000 * lx - 1000 * tx) + (1000 * ly - 1000 * ty) * (1000 * ly - 1000 * ty)) with (1000000 * ((lx - tx) * (lx - tx) + (ly - ty) * (ly - ty))) by ring.
    field. lra.
  - replace ((1000 * lx - 1000 * tx) * (1000 * lx - 1000 * tx) + (1000 * ly - 1000 * ty) * (1000 * ly - 1000 * ty)) with (1000000 * ((lx - tx) * (lx - tx) + (ly - ty) * (ly - ty))) by ring.
    field. lra.
Qed.
Lemma pdist_sym : forall a b, pdist a b = pdist b a.
Proof. intros [a b] [c d]. unfold pdist, pnorm, psub. cbn [fst snd]. f_equal. ring. Qed.
Lemma pdist_scale : forall k a b, 0 <= k -> pdist (pscale k a) (pscale k b) = k * pdist a b.
Proof.
  intros k [a b] [c d] H. unfold pdist, pnorm, psub, pscale. cbn [fst snd].
  replace ((k * a - k * c) * (k * a - k * c) + (k * b - k * d) * (k * b - k * d)) with ((k * k) * ((a - c) * (a - c) + (b - d) * (b - d))) by ring.
  rewrite sqrt_mult_alt by nra. rewrite sqrt_square by exact H. reflexivity.
Qed.

(** What is read off the two edges in the plane. *)
Definition slope_of (A B : pt) : R := (fst A - fst B) / (snd A - snd B).
Lemma slope_sym : forall A B, snd A <> snd B -> slope_of A B = slope_of B A.
Proof. intros A B N. unfold slope_of. field. lra. Qed.

Lemma edges_param : forall P r k sk g A B, 0 < r ->
  psub B A = pscale g (sin (atan (P / (2 * PI * r))), cos (atan (P / (2 * PI * r)))) ->
  pscale (1 / 2) (padd A B) = (- (k + sk * (PI / 180) * P / (2 * PI)), - (r * (sk * (PI / 180)))) ->
  snd A <> snd B ->
  slope_of A B = P / (2 * PI * r) /\ pdist A B = Rabs g /\
  (fst A + fst B) / 2 = - (k + sk * (PI / 180) * P / (2 * PI)) /\ (snd A + snd B) / 2 = - (r * (sk * (PI / 180))).
Proof.
  intros P r k sk g [ax ay] [bx by_] Hr HD HM N. pose proof PI_RGT_0 as HP. unfold psub, padd, pscale in *. cbn [fst snd] in *.
  set (b := atan (P / (2 * PI * r))) in *.
  injection HD as D1 D2. injection HM as M1 M2.
  assert (G : g <> 0). { intros ->. apply N. lra. }
  assert (CB : 0 < cos b) by (apply cos_gt_0; unfold b; pose proof (atan_bound (P / (2 * PI * r))); lra).
  assert (TB : sin b / cos b = P / (2 * PI * r)). { fold (tan b). unfold b. rewrite tan_atan. reflexivity. }
  split; [|split; [|split; lra]].
  - unfold slope_of. cbn [fst snd]. rewrite <- TB. replace (ax - bx) with (- (g * sin b)) by lra. replace (ay - by_) with (- (g * cos b)) by lra.
    field. split; lra.
  - unfold pdist, pnorm, psub. cbn [fst snd]. replace (ax - bx) with (- (g * sin b)) by lra. replace (ay - by_) with (- (g * cos b)) by lra.
    rewrite <- sqrt_Rsqr_abs. f_equal. unfold Rsqr. pose proof (sin2_cos2 b) as SC. unfold Rsqr in SC.
    replace (- (g * sin b) * - (g * sin b) + - (g * cos b) * - (g * cos b)) with (g * g * (sin b * sin b + cos b * cos b)) by ring. rewrite SC. ring.
Qed.
Definition in_range (r : R) (a : pt) : Prop := - PI < snd a / r <= PI.
Lemma recovered : forall cubic slice n s P r k sk g A B c, 0 < r -> in_range r A -> in_range r B ->
  psub B A = pscale g (sin (atan (P / (2 * PI * r))), cos (atan (P / (2 * PI * r)))) ->
  pscale (1 / 2) (padd A B) = (- (k + sk * (PI / 180) * P / (2 * PI)), - (r * (sk * (PI / 180)))) ->
  section_bladex cubic slice n (1000 * r) = Ok s -> slice (1000 * r) n = Ok c ->
  (c_le c = scale3 1000 (wrap r A) /\ c_te c = scale3 1000 (wrap r B)) \/
  (c_le c = scale3 1000 (wrap r B) /\ c_te c = scale3 1000 (wrap r A)) ->
  s_pitch s = Rabs P /\ s_skew_angle s = sk /\ s_skew s = - (r * (sk * (PI / 180))) /\ s_rake s = k /\ s_chord s = Rabs g.
Proof.
  intros cubic slice n s P r k sk g A B c Hr RA RB HD HM HS HC HE. pose proof PI_RGT_0 as HP.
  apply section_bladex_inv in HS as (c' & EC & _ & _ & NE & _ & EP & ESA & ES & ER & ECh & _).
  rewrite HC in EC. injection EC as <-.
  assert (Q : snd A <> snd B /\
     ((fst (unroll (1000 * r) (c_le c)) - fst (unroll (1000 * r) (c_te c))) / (snd (unroll (1000 * r) (c_le c)) - snd (unroll (1000 * r) (c_te c))) = slope_of A B) /\
     fst (unroll (1000 * r) (c_le c)) + fst (unroll (1000 * r) (c_te c)) = 1000 * (fst A + fst B) /\
     snd (unroll (1000 * r) (c_le c)) + snd (unroll (1000 * r) (c_te c)) = 1000 * (snd A + snd B) /\
     pdist (unroll (1000 * r) (c_le c)) (unroll (1000 * r) (c_te c)) = 1000 * pdist A B).
  { destruct HE as [(E1 & E2)|(E1 & E2)]; rewrite E1, E2 in *; rewrite !unroll_wrap in * by assumption.
    - assert (N : snd A <> snd B) by (unfold pscale in NE; cbn [snd] in NE; lra).
      split; [exact N|]. unfold pscale, slope_of. cbn [fst snd]. split; [field; lra|]. split; [ring|]. split; [ring|].
      apply (pdist_scale 1000 A B). lra.
    - assert (N : snd A <> snd B) by (unfold pscale in NE; cbn [snd] in NE; lra).
      split; [exact N|]. unfold pscale, slope_of. cbn [fst snd]. split; [field; lra|]. split; [ring|]. split; [ring|].
      rewrite (pdist_sym A B). apply (pdist_scale 1000 B A). lra. }
  clear HE. destruct Q as (N & Q1 & Q2 & Q3 & Q4). rewrite Q1 in EP, ER. rewrite Q3 in ESA, ES, ER. rewrite Q2 in ER. rewrite Q4 in ECh.
  destruct (edges_param P r k sk g A B Hr HD HM N) as (S1 & S2 & S3 & S4). rewrite S1 in *. rewrite S2 in ECh.
  assert (F1 : fst A + fst B = 2 * (- (k + sk * (PI / 180) * P / (2 * PI)))) by lra.
  assert (F2 : snd A + snd B = 2 * (- (r * (sk * (PI / 180))))) by lra.
  rewrite F1, F2 in *.
  split; [|split; [|split; [|split]]].
  - rewrite EP. replace (2 * PI * (1000 * r) * (P / (2 * PI * r))) with (P * 1000) by (field; lra).
    rewrite Rabs_mult, (Rabs_right 1000) by lra. field.
  - rewrite ESA. field. lra.
  - rewrite ES. field.
  - rewrite ER. field. lra.
  - rewrite ECh. field.
Qed.
(** ** Placed sections *)
Lemma seat_edges : forall r P k sk refl c le te L, 0 < r -> psub te le = (L, 0) ->
  let ref := pscale (1 / 2) (padd le te) in
  let A := seat r P k sk refl (sized c ref le) in let B := seat r P k sk refl (sized c ref te) in
  psub B A = pscale ((if refl then - c else c) * L) (sin (atan (P / (2 * PI * r))), cos (atan (P / (2 * PI * r)))) /\
  pscale (1 / 2) (padd A B) = (- (k + sk * (PI / 180) * P / (2 * PI)), - (r * (sk * (PI / 180)))).
Proof.
  intros r P k sk refl c [lx ly] [tx ty] L Hr HD. unfold psub in HD. cbn [fst snd] in HD. injection HD as D1 D2.
  assert (tx = lx + L) as -> by lra. assert (ty = ly) as -> by lra. pose proof PI_RGT_0 as HP.
  cbv zeta. unfold seat, sized, psub, pscale, padd, prot, pneg. cbn [fst snd].
  assert (C1 : cos (PI / 2 - atan (P / (2 * PI * r))) = sin (atan (P / (2 * PI * r)))) by apply cos_shift.
  assert (S1 : sin (PI / 2 - atan (P / (2 * PI * r))) = cos (atan (P / (2 * PI * r)))) by apply sin_shift.
  split; destruct refl; cbn [fst snd]; rewrite C1, S1; f_equal; field; lra.
Qed.
Lemma sqrt_bound : forall x y, Rabs x <= sqrt (x * x + y * y).
Proof. intros x y. rewrite <- sqrt_Rsqr_abs. apply sqrt_le_1_alt. unfold Rsqr. pose proof (Rle_0_sqr y). unfold Rsqr in *. lra. Qed.
Lemma seat_range : forall r P k sk refl c ref a, 0 < r -> r * Rabs (sk * (PI / 180)) + Rabs c * pdist a ref < PI * r ->
  in_range r (seat r P k sk refl (sized c ref a)).
Proof.
  intros r P k sk refl c [rx ry] [ax ay] Hr H. unfold in_range.
  set (t := PI / 2 - atan (P / (2 * PI * r))).
  assert (E : exists d, snd (seat r P k sk refl (sized c (rx, ry) (ax, ay))) = - (r * (sk * (PI / 180))) + d /\ Rabs d <= Rabs c * pdist (ax, ay) (rx, ry)).
  { unfold seat, sized, psub, pscale, padd, prot, pneg. fold t. cbn [fst snd].
    set (u := ax - rx). set (v := ay - ry).
    assert (B : Rabs (sin t * u + cos t * v) <= pdist (ax, ay) (rx, ry)).
    { unfold pdist, pnorm, psub. cbn [fst snd]. fold u v.
      replace (u * u + v * v) with ((sin t * u + cos t * v) * (sin t * u + cos t * v) + (cos t * u - sin t * v) * (cos t * u - sin t * v)).
      - apply sqrt_bound.
      - pose proof (sin2_cos2 t) as SC. unfold Rsqr in SC.
        replace ((sin t * u + cos t * v) * (sin t * u + cos t * v) + (cos t * u - sin t * v) * (cos t * u - sin t * v)) with ((sin t * sin t + cos t * cos t) * (u * u + v * v)) by ring. rewrite SC. ring. }
    destruct refl; cbn [fst snd]; eexists; (split; [reflexivity|]).
    - replace (sin t * - (c * u) + cos t * - (c * v)) with (- c * (sin t * u + cos t * v)) by ring. rewrite Rabs_mult, Rabs_Ropp.
      apply Rmult_le_compat_l; [apply Rabs_pos|exact B].
    - replace (sin t * (c * u) + cos t * (c * v)) with (c * (sin t * u + cos t * v)) by ring. rewrite Rabs_mult.
      apply Rmult_le_compat_l; [apply Rabs_pos|exact B]. }
  destruct E as (d & -> & D).
  assert (A1 : Rabs (- (r * (sk * (PI / 180))) + d) < PI * r).
  { eapply Rle_lt_trans; [apply Rabs_triang|]. rewrite Rabs_Ropp, Rabs_mult, (Rabs_right r) by lra. lra. }
  apply Rabs_def2 in A1. destruct A1 as (A1 & A2).
  set (y := - (r * (sk * (PI / 180))) + d) in *. clearbody y.
  assert (Y : y / r * r = y) by (field; lra).
  split; [apply Rmult_lt_reg_r with r; [lra|]|left; apply Rmult_lt_reg_r with r; [lra|]]; rewrite Y; lra.
Qed.
(** The normalising map undoes the seat up to the sign of y. *)
Lemma seat_normalised : forall r P k sk refl c le te L a, 0 < r -> c <> 0 -> L <> 0 -> psub te le = (L, 0) ->
  let ref := pscale (1 / 2) (padd le te) in
  let S := fun x => seat r P k sk refl (sized c ref x) in
  onto_chord (S le) (S te) (S a) = flip_y (pscale (/ L) (psub a le)).
Proof.
  intros r P k sk refl c [lx ly] [tx ty] L [ax ay] Hr Hc HL HD. unfold psub in HD. cbn [fst snd] in HD. injection HD as D1 D2.
  assert (tx = lx + L) as -> by lra. assert (ty = ly) as -> by lra.
  cbv zeta. unfold onto_chord, flip_y, seat, sized, psub, pscale, padd, prot, pneg.
  set (t := PI / 2 - atan (P / (2 * PI * r))). cbn [fst snd].
  pose proof (sin2_cos2 t) as SC. unfold Rsqr in SC.
  set (C := cos t) in *. set (D := sin t) in *.
  set (X := - (k + sk * (PI / 180) * P / (2 * PI))). set (Y := - (r * (sk * (PI / 180)))).
  assert (CL : c * L * (c * L) <> 0) by (repeat (apply Rmult_integral_contrapositive_currified); assumption).
  destruct refl; cbn [fst snd].
  all: match goal with |- (1 / 2 - ?u / ?n, ?w / ?n) = _ =>
     replace n with (c * L * (c * L)) by (transitivity (c * L * (c * L) * (D * D + C * C)); [rewrite SC; ring|ring]);
     replace u with (c * L * (c * (lx + L / 2 - ax))) by (transitivity (c * L * (c * (lx + L / 2 - ax)) * (D * D + C * C)); [rewrite SC; ring|field]);
     replace w with (c * L * (c * (ly - ay))) by (transitivity (c * L * (c * (ly - ay)) * (D * D + C * C)); [rewrite SC; ring|field])
  end; f_equal; field; auto.
Qed.
