(** Spline values, digit parsing, and the constructed foils. *)
From Coq Require Import Reals List ZArith String Ascii Lra Lia.
From Coquelicot Require Import Coquelicot.
From Verif Require Import Base SolveProofs ProfileModel ProfileSpec ProfileProofs ProfileProofs2 CustomProofs2 CustomProofs3
  NacaModel NacaBounds NacaSpec NacaProofs.
Import ListNotations.
Open Scope R_scope.

(** ** Splines *)
(** The divided difference and the cubic error term by term. *)
Lemma cubic4_error : forall x0 y0 x1 y1 x2 y2 x3 y3 x4 y4, x0 < x1 -> x1 < x2 -> x2 < x3 -> x3 < x4 ->
  (x4 - x0) * (x4 - x1) * (x4 - x2) * (x4 - x3) * dd5 x0 y0 x1 y1 x2 y2 x3 y3 x4 y4 = y4 - cubic4 x0 y0 x1 y1 x2 y2 x3 y3 x4.
Proof.
  intros x0 y0 x1 y1 x2 y2 x3 y3 x4 y4 L1 L2 L3 L4. unfold dd5, cubic4.
  set (w := (x4 - x0) * (x4 - x1) * (x4 - x2) * (x4 - x3)).
  assert (A0 : w * (y0 / ((x0 - x1) * (x0 - x2) * (x0 - x3) * (x0 - x4))) =
    - (y0 * (x4 - x1) * (x4 - x2) * (x4 - x3) / ((x0 - x1) * (x0 - x2) * (x0 - x3)))) by (unfold w; field; lra).
  assert (A1 : w * (y1 / ((x1 - x0) * (x1 - x2) * (x1 - x3) * (x1 - x4))) =
    - (y1 * (x4 - x0) * (x4 - x2) * (x4 - x3) / ((x1 - x0) * (x1 - x2) * (x1 - x3)))) by (unfold w; field; lra).
  assert (A2 : w * (y2 / ((x2 - x0) * (x2 - x1) * (x2 - x3) * (x2 - x4))) =
    - (y2 * (x4 - x0) * (x4 - x1) * (x4 - x3) / ((x2 - x0) * (x2 - x1) * (x2 - x3)))) by (unfold w; field; lra).
  assert (A3 : w * (y3 / ((x3 - x0) * (x3 - x1) * (x3 - x2) * (x3 - x4))) =
    - (y3 * (x4 - x0) * (x4 - x1) * (x4 - x2) / ((x3 - x0) * (x3 - x1) * (x3 - x2)))) by (unfold w; field; lra).
  assert (A4 : w * (y4 / w) = y4) by (unfold w; field; lra).
  rewrite !Rmult_plus_distr_l, A0, A1, A2, A3, A4. ring.
Qed.
Definition newton (x0 x1 x2 c0 c1 c2 c3 x : R) : R :=
  c0 + c1 * (x - x0) + c2 * (x - x0) * (x - x1) + c3 * (x - x0) * (x - x1) * (x - x2).
Lemma cubic4_newton : forall x0 x1 x2 x3 c0 c1 c2 c3 x, x0 < x1 -> x1 < x2 -> x2 < x3 ->
  let P := newton x0 x1 x2 c0 c1 c2 c3 in cubic4 x0 (P x0) x1 (P x1) x2 (P x2) x3 (P x3) x = P x.
Proof.
  intros x0 x1 x2 x3 c0 c1 c2 c3 x L1 L2 L3 P.
  assert (B0 : cubic4 x0 1 x1 1 x2 1 x3 1 x = 1) by (unfold cubic4; field; lra).
  assert (B1 : cubic4 x0 0 x1 (x1 - x0) x2 (x2 - x0) x3 (x3 - x0) x = x - x0) by (unfold cubic4; field; lra).
  assert (B2 : cubic4 x0 0 x1 0 x2 ((x2 - x0) * (x2 - x1)) x3 ((x3 - x0) * (x3 - x1)) x = (x - x0) * (x - x1)) by (unfold cubic4; field; lra).
  assert (B3 : cubic4 x0 0 x1 0 x2 0 x3 ((x3 - x0) * (x3 - x1) * (x3 - x2)) x = (x - x0) * (x - x1) * (x - x2)) by (unfold cubic4; field; lra).
  transitivity (c0 * cubic4 x0 1 x1 1 x2 1 x3 1 x + c1 * cubic4 x0 0 x1 (x1 - x0) x2 (x2 - x0) x3 (x3 - x0) x +
    c2 * cubic4 x0 0 x1 0 x2 ((x2 - x0) * (x2 - x1)) x3 ((x3 - x0) * (x3 - x1)) x +
    c3 * cubic4 x0 0 x1 0 x2 0 x3 ((x3 - x0) * (x3 - x1) * (x3 - x2)) x).
  - unfold P, newton, cubic4, Rdiv. ring.
  - rewrite B0, B1, B2, B3. unfold P, newton. ring.
Qed.
Lemma dd5_newton : forall x0 x1 x2 x3 x4 c0 c1 c2 c3, x0 < x1 -> x1 < x2 -> x2 < x3 -> x3 < x4 ->
  let P := newton x0 x1 x2 c0 c1 c2 c3 in dd5 x0 (P x0) x1 (P x1) x2 (P x2) x3 (P x3) x4 (P x4) = 0.
Proof.
  intros x0 x1 x2 x3 x4 c0 c1 c2 c3 L1 L2 L3 L4 P.
  apply Rmult_eq_reg_l with ((x4 - x0) * (x4 - x1) * (x4 - x2) * (x4 - x3)).
  - rewrite cubic4_error by auto. unfold P. rewrite cubic4_newton by auto. ring.
  - repeat apply Rmult_integral_contrapositive_currified; lra.
Qed.
Lemma dd5_knot : forall x0 x1 x2 x3 x4, x0 < x1 -> x1 < x2 -> x2 < x3 -> x3 < x4 ->
  let g := truncated x2 in dd5 x0 (g x0) x1 (g x1) x2 (g x2) x3 (g x3) x4 (g x4) <> 0.
Proof.
    intros x0 x1 x2 x3 x4 L1 L2 L3 L4 g.
    unfold g, truncated. destruct (Rle_dec x0 x2); [|lra]. destruct (Rle_dec x1 x2); [|lra].
    destruct (Rle_dec x2 x2); [|lra]. destruct (Rle_dec x3 x2); [lra|]. destruct (Rle_dec x4 x2); [lra|].
    unfold dd5. clear g.
    set (a := x3 - x2). set (b := x4 - x3). set (c := x2 - x1). set (d := x1 - x0).
    assert (0 < a /\ 0 < b /\ 0 < c /\ 0 < d) as (A & B & C & D) by (unfold a, b, c, d; lra).
    replace (x3 - x0) with (a + c + d) by (unfold a, c, d; ring). replace (x3 - x1) with (a + c) by (unfold a, c; ring).
    replace (x3 - x4) with (- b) by (unfold b; ring). replace (x4 - x0) with (a + b + c + d) by (unfold a, b, c, d; ring).
    replace (x4 - x1) with (a + b + c) by (unfold a, b, c; ring). replace (x4 - x2) with (a + b) by (unfold a, b; ring).
    fold a b. clearbody a b c d.
    assert (E : forall u v w p q, 0 / u + 0 / v + 0 / w + p + q = p + q) by (intros; unfold Rdiv; ring). rewrite E.
    assert (N : a ^ 3 / ((a + c + d) * (a + c) * a * - b) + (a + b) ^ 3 / ((a + b + c + d) * (a + b + c) * (a + b) * b) =
      ((a + b) ^ 2 * ((a + c + d) * (a + c)) - a ^ 2 * ((a + b + c + d) * (a + b + c))) /
      (b * (a + c + d) * (a + c) * (a + b + c + d) * (a + b + c))) by (field; lra).
    rewrite N. apply Rgt_not_eq. apply Rdiv_lt_0_compat.
    - replace (_ - _) with (b * (a * (2 * c * c + 2 * c * d + a * (2 * c + d)) + b * (c * c + c * d + a * (2 * c + d)))) by ring.
      repeat (apply Rmult_lt_0_compat || apply Rplus_lt_0_compat); lra.
    - repeat apply Rmult_lt_0_compat; lra.
Qed.

(** The spline reproduces its table: any five increasing abscissae. *)
Lemma spline5_nodes : forall x0 y0 x1 y1 x2 y2 x3 y3 x4 y4,
  x0 < x1 -> x1 < x2 -> x2 < x3 -> x3 < x4 ->
  let f := spline5 x0 y0 x1 y1 x2 y2 x3 y3 x4 y4 in f x0 = y0 /\ f x1 = y1 /\ f x2 = y2 /\ f x3 = y3 /\ f x4 = y4.
Proof.
  intros x0 y0 x1 y1 x2 y2 x3 y3 x4 y4 L1 L2 L3 L4. cbv zeta. unfold spline5.
  pose proof (dd5_knot x0 x1 x2 x3 x4 L1 L2 L3 L4) as G. cbv zeta in G.
  set (g := truncated x2) in *. set (e := dd5 _ _ _ _ _ _ _ _ _ _ / _).
  split; [unfold cubic4; field; lra|]. split; [unfold cubic4; field; lra|].
  split; [unfold cubic4; field; lra|]. split; [unfold cubic4; field; lra|].
  (* at x4: dd5 of (y - e g) vanishes *)
  assert (Z : dd5 x0 (y0 - e * g x0) x1 (y1 - e * g x1) x2 (y2 - e * g x2) x3 (y3 - e * g x3) x4 (y4 - e * g x4) = 0).
  { transitivity (dd5 x0 y0 x1 y1 x2 y2 x3 y3 x4 y4 - e * dd5 x0 (g x0) x1 (g x1) x2 (g x2) x3 (g x3) x4 (g x4)).
    - clearbody e. unfold dd5, Rdiv. ring.
    - unfold e. field. auto. }
  clearbody e. clear G.
  pose proof (cubic4_error x0 (y0 - e * g x0) x1 (y1 - e * g x1) x2 (y2 - e * g x2) x3 (y3 - e * g x3) x4 (y4 - e * g x4) L1 L2 L3 L4) as H.
  rewrite Z, Rmult_0_r in H. lra.
Qed.
(** A cubic plus a knot term is reproduced everywhere. *)
Lemma spline5_exact : forall x0 x1 x2 x3 x4 c0 c1 c2 c3 e x, x0 < x1 -> x1 < x2 -> x2 < x3 -> x3 < x4 ->
  let f := fun x => newton x0 x1 x2 c0 c1 c2 c3 x + e * truncated x2 x in
  spline5 x0 (f x0) x1 (f x1) x2 (f x2) x3 (f x3) x4 (f x4) x = f x.
Proof.
  intros x0 x1 x2 x3 x4 c0 c1 c2 c3 e x L1 L2 L3 L4 f. unfold spline5.
  pose proof (dd5_knot x0 x1 x2 x3 x4 L1 L2 L3 L4) as G. pose proof (dd5_newton x0 x1 x2 x3 x4 c0 c1 c2 c3 L1 L2 L3 L4) as Z.
  pose proof (cubic4_newton x0 x1 x2 x3 c0 c1 c2 c3 x L1 L2 L3) as C.
  cbv zeta in *. set (g := truncated x2) in *. set (P := newton x0 x1 x2 c0 c1 c2 c3) in *.
  assert (E : dd5 x0 (f x0) x1 (f x1) x2 (f x2) x3 (f x3) x4 (f x4) / dd5 x0 (g x0) x1 (g x1) x2 (g x2) x3 (g x3) x4 (g x4) = e).
  { replace (dd5 x0 (f x0) x1 (f x1) x2 (f x2) x3 (f x3) x4 (f x4)) with
      (dd5 x0 (P x0) x1 (P x1) x2 (P x2) x3 (P x3) x4 (P x4) + e * dd5 x0 (g x0) x1 (g x1) x2 (g x2) x3 (g x3) x4 (g x4))
      by (unfold f, dd5, Rdiv; ring).
    rewrite Z. field. auto. }
  rewrite E. unfold f. clear E f.
  assert (K : forall y, P y + e * g y - e * g y = P y) by (intros; ring). rewrite !K, C. auto.
Qed.
Lemma spline5_value : forall x0 y0 x1 y1 x2 y2 x3 y3 x4 y4 c0 c1 c2 c3 e x v, x0 < x1 -> x1 < x2 -> x2 < x3 -> x3 < x4 ->
  let P := newton x0 x1 x2 c0 c1 c2 c3 in
  y0 = P x0 -> y1 = P x1 -> y2 = P x2 -> y3 = P x3 + e * (x3 - x2) ^ 3 -> y4 = P x4 + e * (x4 - x2) ^ 3 ->
  x2 < x -> v = P x + e * (x - x2) ^ 3 -> spline5 x0 y0 x1 y1 x2 y2 x3 y3 x4 y4 x = v.
Proof.
  intros x0 y0 x1 y1 x2 y2 x3 y3 x4 y4 c0 c1 c2 c3 e x v L1 L2 L3 L4 P -> -> -> -> -> X ->.
  pose proof (spline5_exact x0 x1 x2 x3 x4 c0 c1 c2 c3 e x L1 L2 L3 L4) as H. cbv zeta in H. unfold truncated in H.
  destruct (Rle_dec x0 x2); [|lra]. destruct (Rle_dec x1 x2); [|lra].
  destruct (Rle_dec x2 x2); [|lra]. destruct (Rle_dec x3 x2); [lra|]. destruct (Rle_dec x4 x2); [lra|].
  destruct (Rle_dec x x2); [lra|]. rewrite !Rmult_0_r, !Rplus_0_r in H. exact H.
Qed.
Lemma cubic4_value : forall x0 y0 x1 y1 x2 y2 x3 y3 c0 c1 c2 c3 x v, x0 < x1 -> x1 < x2 -> x2 < x3 ->
  let P := newton x0 x1 x2 c0 c1 c2 c3 in
  y0 = P x0 -> y1 = P x1 -> y2 = P x2 -> y3 = P x3 -> v = P x -> cubic4 x0 y0 x1 y1 x2 y2 x3 y3 x = v.
Proof. intros x0 y0 x1 y1 x2 y2 x3 y3 c0 c1 c2 c3 x v L1 L2 L3 P -> -> -> -> ->. apply cubic4_newton; auto. Qed.
Lemma m_std : forall b, (1 <= b <= 9)%nat -> naca5_m false (5 * INR b / 100) =
  nth (b - 1) [58/1000; 126/1000; 2025/10000; 29/100; 391/1000; 508/1000; 6435/10000; 8/10; 98/100] 0.
Proof.
  intros b H.  assert (b = 1 \/ b = 2 \/ b = 3 \/ b = 4 \/ b = 5 \/ b = 6 \/ b = 7 \/ b = 8 \/ b = 9)%nat as C by lia.
  destruct C as [->|[->|[->|[->|[->|[->|[->|[->| ->]]]]]]]]; cbn [nth Nat.sub]; rewrite INR_IZR_INZ; cbn [Z.of_nat Pos.of_succ_nat Pos.succ]; unfold naca5_m.
  - match goal with |- spline5 ?a ?b ?c ?d ?e ?f ?g ?h ?i ?j ?x = ?v => replace x with a by lra; destruct (spline5_nodes a b c d e f g h i j) as (N0 & N1 & N2 & N3 & N4); try lra; rewrite N0; lra end.
  - match goal with |- spline5 ?a ?b ?c ?d ?e ?f ?g ?h ?i ?j ?x = ?v => replace x with c by lra; destruct (spline5_nodes a b c d e f g h i j) as (N0 & N1 & N2 & N3 & N4); try lra; rewrite N1; lra end.
  - match goal with |- spline5 ?a ?b ?c ?d ?e ?f ?g ?h ?i ?j ?x = ?v => replace x with e by lra; destruct (spline5_nodes a b c d e f g h i j) as (N0 & N1 & N2 & N3 & N4); try lra; rewrite N2; lra end.
  - match goal with |- spline5 ?a ?b ?c ?d ?e ?f ?g ?h ?i ?j ?x = ?v => replace x with g by lra; destruct (spline5_nodes a b c d e f g h i j) as (N0 & N1 & N2 & N3 & N4); try lra; rewrite N3; lra end.
  - match goal with |- spline5 ?a ?b ?c ?d ?e ?f ?g ?h ?i ?j ?x = ?v => replace x with i by lra; destruct (spline5_nodes a b c d e f g h i j) as (N0 & N1 & N2 & N3 & N4); try lra; rewrite N4; lra end.
  - apply (spline5_value _ _ _ _ _ _ _ _ _ _ (29/500) (34/25) (17/10) (10/3) (0/1)); unfold newton; lra.
  - apply (spline5_value _ _ _ _ _ _ _ _ _ _ (29/500) (34/25) (17/10) (10/3) (0/1)); unfold newton; lra.
  - apply (spline5_value _ _ _ _ _ _ _ _ _ _ (29/500) (34/25) (17/10) (10/3) (0/1)); unfold newton; lra.
  - apply (spline5_value _ _ _ _ _ _ _ _ _ _ (29/500) (34/25) (17/10) (10/3) (0/1)); unfold newton; lra.
Qed.
Lemma m_ref : forall b, (1 <= b <= 9)%nat -> naca5_m true (5 * INR b / 100) =
  nth (b - 1) [49/1000; 13/100; 217/1000; 318/1000; 441/1000; 594/1000; 785/1000; 1022/1000; 1313/1000] 0.
Proof.
  intros b H.  assert (b = 1 \/ b = 2 \/ b = 3 \/ b = 4 \/ b = 5 \/ b = 6 \/ b = 7 \/ b = 8 \/ b = 9)%nat as C by lia.
  destruct C as [->|[->|[->|[->|[->|[->|[->|[->| ->]]]]]]]]; cbn [nth Nat.sub]; rewrite INR_IZR_INZ; cbn [Z.of_nat Pos.of_succ_nat Pos.succ]; unfold naca5_m; apply (cubic4_value _ _ _ _ _ _ _ _ (13/100) (87/50) (14/5) (32/3)); unfold newton; lra.
Qed.
Lemma k_std : forall b, (1 <= b <= 9)%nat -> naca5_k false (naca5_m false (5 * INR b / 100)) =
  nth (b - 1) [1807/5; 1291/25; 15957/1000; 6643/1000; 323/100; 5734907802316248823/46678589511085000; 79722162289645541/132046929310000; 15562490807032241741/8237398149015000; 665568207907028002453/140035768533255000] 0.
Proof.
  intros b H. rewrite m_std by auto.  assert (b = 1 \/ b = 2 \/ b = 3 \/ b = 4 \/ b = 5 \/ b = 6 \/ b = 7 \/ b = 8 \/ b = 9)%nat as C by lia.
  destruct C as [->|[->|[->|[->|[->|[->|[->|[->| ->]]]]]]]]; cbn [nth Nat.sub]; unfold naca5_k.
  - match goal with |- spline5 ?a ?b ?c ?d ?e ?f ?g ?h ?i ?j ?x = ?v => replace x with a by lra; destruct (spline5_nodes a b c d e f g h i j) as (N0 & N1 & N2 & N3 & N4); try lra; rewrite N0; lra end.
  - match goal with |- spline5 ?a ?b ?c ?d ?e ?f ?g ?h ?i ?j ?x = ?v => replace x with c by lra; destruct (spline5_nodes a b c d e f g h i j) as (N0 & N1 & N2 & N3 & N4); try lra; rewrite N1; lra end.
  - match goal with |- spline5 ?a ?b ?c ?d ?e ?f ?g ?h ?i ?j ?x = ?v => replace x with e by lra; destruct (spline5_nodes a b c d e f g h i j) as (N0 & N1 & N2 & N3 & N4); try lra; rewrite N2; lra end.
  - match goal with |- spline5 ?a ?b ?c ?d ?e ?f ?g ?h ?i ?j ?x = ?v => replace x with g by lra; destruct (spline5_nodes a b c d e f g h i j) as (N0 & N1 & N2 & N3 & N4); try lra; rewrite N3; lra end.
  - match goal with |- spline5 ?a ?b ?c ?d ?e ?f ?g ?h ?i ?j ?x = ?v => replace x with i by lra; destruct (spline5_nodes a b c d e f g h i j) as (N0 & N1 & N2 & N3 & N4); try lra; rewrite N4; lra end.
  - apply (spline5_value _ _ _ _ _ _ _ _ _ _ (1807/5) (-(77440/17)) (1251188000/44217) (-(3509413390965726640000/24282202263666417)) (14804199388628800000/93035257715197)); unfold newton; lra.
  - apply (spline5_value _ _ _ _ _ _ _ _ _ _ (1807/5) (-(77440/17)) (1251188000/44217) (-(3509413390965726640000/24282202263666417)) (14804199388628800000/93035257715197)); unfold newton; lra.
  - apply (spline5_value _ _ _ _ _ _ _ _ _ _ (1807/5) (-(77440/17)) (1251188000/44217) (-(3509413390965726640000/24282202263666417)) (14804199388628800000/93035257715197)); unfold newton; lra.
  - apply (spline5_value _ _ _ _ _ _ _ _ _ _ (1807/5) (-(77440/17)) (1251188000/44217) (-(3509413390965726640000/24282202263666417)) (14804199388628800000/93035257715197)); unfold newton; lra.
Qed.
Lemma k_ref : forall b, (1 <= b <= 9)%nat -> naca5_k true (naca5_m true (5 * INR b / 100)) =
  nth (b - 1) [442551774120441/3510681826000; 5199/100; 15793/1000; 163/25; 3191/1000; -(13184565696053/211851489500); -(1872158678369657/4914954556400); -(310318252886987/219417614125); -(2920460426414301/702136365200)] 0.
Proof.
  intros b H. rewrite m_ref by auto.  assert (b = 1 \/ b = 2 \/ b = 3 \/ b = 4 \/ b = 5 \/ b = 6 \/ b = 7 \/ b = 8 \/ b = 9)%nat as C by lia.
  destruct C as [->|[->|[->|[->|[->|[->|[->|[->| ->]]]]]]]]; cbn [nth Nat.sub]; unfold naca5_k; apply (cubic4_value _ _ _ _ _ _ _ _ (5199/100) (-(36197/87)) (712286500/412989) (-(170165942687500/36862159173))); unfold newton; lra.
Qed.

(** ** Parsing *)
Lemma digit_of_char : forall d, is_digit d -> digit_of (digit_char d) = Some (INR d).
Proof.
  intros d H. unfold is_digit in H. unfold digit_of, digit_char. rewrite nat_ascii_embedding by lia.
  replace (Nat.leb 48 (48 + d) && Nat.leb (48 + d) 57)%bool with true.
  - f_equal. f_equal. lia.
  - symmetry. apply Bool.andb_true_iff. split; apply Nat.leb_le; lia.
Qed.
Lemma digit_of_iff : forall c x, digit_of c = Some x <-> exists d, is_digit d /\ c = digit_char d /\ x = INR d.
Proof.
  intros c x. split.
  - unfold digit_of. destruct (Nat.leb 48 (nat_of_ascii c)) eqn:A; cbn [andb]; [|discriminate].
    destruct (Nat.leb (nat_of_ascii c) 57) eqn:B; [|discriminate]. apply Nat.leb_le in A, B. intros H. injection H as <-.
    exists (nat_of_ascii c - 48)%nat. unfold is_digit, digit_char. split; [lia|]. split; [|reflexivity].
    replace (48 + (nat_of_ascii c - 48))%nat with (nat_of_ascii c) by lia. symmetry. apply ascii_nat_embedding.
  - intros (d & Hd & -> & ->). apply digit_of_char. exact Hd.
Qed.
Lemma is_space_iff : forall c, is_space c = true <-> space_char c.
Proof.
  intros c. unfold space_char. split.
  - destruct c as [[] [] [] [] [] [] [] []]; intros H; try discriminate H; cbn [In]; tauto.
  - intros H. cbn [In] in H. repeat (destruct H as [<-|H]; [reflexivity|]). destruct H.
Qed.
Lemma is_char_iff : forall k c, (k < 256)%nat -> (is_char k c = true <-> c = ascii_of_nat k).
Proof.
  intros k c K. unfold is_char. rewrite Nat.eqb_eq. split; [intros <-; symmetry; apply ascii_nat_embedding|intros ->; apply nat_ascii_embedding; exact K].
Qed.
Lemma special_not_digit : forall c, (c = "."%char \/ c = "+"%char \/ c = "-"%char \/ space_char c) -> digit_of c = None.
Proof.
  intros c H. unfold space_char in H. cbn [In] in H.
  repeat (destruct H as [H|H]; [subst c; reflexivity|]). destruct H.
Qed.
Lemma float2_iff : forall a b x, float2 a b = Ok x <-> two_chars a b x.
Proof.
  intros a b x. unfold two_chars. split.
  - unfold float2. destruct (digit_of a) as [u|] eqn:A; destruct (digit_of b) as [v|] eqn:B; try discriminate.
    + apply digit_of_iff in A as (c & C1 & C2 & ->). apply digit_of_iff in B as (d & D1 & D2 & ->). intros H. injection H as <-. left. exists c, d. auto.
    + apply digit_of_iff in A as (c & C1 & C2 & ->). destruct (is_char 46 b) eqn:P; cbn [orb].
      * intros H. injection H as <-. apply is_char_iff in P; [|lia]. right. left. exists c. auto.
      * destruct (is_space b) eqn:Q; [|discriminate]. intros H. injection H as <-. apply is_space_iff in Q. right. left. exists c. auto.
    + apply digit_of_iff in B as (d & D1 & D2 & ->). intros H. right. right. exists d. split; auto. split; auto. revert H.
      destruct (is_char 46 a) eqn:P; [intros H; injection H as <-; apply is_char_iff in P; [auto|lia]|].
      destruct (is_char 43 a) eqn:Q; cbn [orb]; [intros H; injection H as <-; apply is_char_iff in Q; [auto|lia]|].
      destruct (is_space a) eqn:S; [intros H; injection H as <-; apply is_space_iff in S; auto|].
      destruct (is_char 45 a) eqn:T; [|discriminate]. intros H; injection H as <-; apply is_char_iff in T; [auto|lia].
  - intros [(c & d & C & D & -> & -> & ->)|[(c & C & -> & [->|S] & ->)|(d & D & -> & [(-> & ->)|[([->|S] & ->)|(-> & ->)]])]]; unfold float2.
    + rewrite !digit_of_char by auto. reflexivity.
    + rewrite digit_of_char by auto. reflexivity.
    + rewrite digit_of_char by auto. rewrite special_not_digit by auto. rewrite (proj2 (is_space_iff b) S), Bool.orb_true_r. reflexivity.
    + rewrite digit_of_char by auto. reflexivity.
    + rewrite digit_of_char by auto. reflexivity.
    + rewrite digit_of_char by auto. rewrite special_not_digit by auto. rewrite (proj2 (is_space_iff a) S), Bool.orb_true_r.
      replace (is_char 46 a) with false; [reflexivity|]. unfold space_char in S. cbn [In] in S. repeat (destruct S as [<-|S]; [reflexivity|]). destruct S.
    + rewrite digit_of_char by auto. reflexivity.
Qed.
Lemma float1_digit : forall d, is_digit d -> float1 (digit_char d) = Ok (INR d).
Proof. intros. unfold float1. rewrite digit_of_char; auto. Qed.
Lemma float2_digits : forall c d, is_digit c -> is_digit d -> float2 (digit_char c) (digit_char d) = Ok (10 * INR c + INR d).
Proof. intros. unfold float2. rewrite !digit_of_char; auto. Qed.
Lemma code_list : forall ds, list_ascii_of_string (code ds) = map digit_char ds.
Proof. intros. unfold code. apply list_ascii_of_string_of_list_ascii. Qed.

Lemma coords4 : forall a b c d cosine n, is_digit a -> is_digit b -> is_digit c -> is_digit d ->
  naca_coordinates (code [a; b; c; d]) cosine n = naca4 (INR a / 100) (INR b / 10) ((10 * INR c + INR d) / 100) cosine n.
Proof.
  intros. unfold naca_coordinates. rewrite code_list. cbn [map].
  rewrite !float1_digit by auto. cbn [bind]. rewrite float2_digits by auto. auto.
Qed.
Lemma coords5 : forall a b s c d cosine n, is_digit a -> is_digit b -> is_digit s -> is_digit c -> is_digit d ->
  naca_coordinates (code [a; b; s; c; d]) cosine n = naca5 (INR a * (15/100)) (5 * INR b / 100) (INR s) ((10 * INR c + INR d) / 100) cosine n.
Proof.
  intros. unfold naca_coordinates. rewrite code_list. cbn [map].
  rewrite !float1_digit by auto. cbn [bind]. rewrite float2_digits by auto. auto.
Qed.

(** ** Constructed foils *)
Section A.
Variable american : profile -> R -> list R -> R -> list R -> res (list R).

Lemma traced_sized : forall n X U D V p, traced n X U D V p -> sized n p.
Proof. intros n X U D V p ->. unfold sized; simpl. rewrite !map_length, linspace_length. auto. Qed.
Lemma traced_nth : forall n X U D V p i, traced n X U D V p -> (2 <= n)%nat -> (i < n)%nat ->
  up_i p i = (X (station n i), U (station n i)) /\ down_i p i = (D (station n i), V (station n i)).
Proof.
  intros n X U D V p i -> N H. unfold up_i, down_i; simpl.
  rewrite linspace01 by auto. rewrite !map_map.
  rewrite !(nth_map _ _ i 0%nat) by (rewrite seq_length; auto). rewrite seq_nth by auto. auto.
Qed.
Lemma traced_first : forall n (f : R -> R), (2 <= n)%nat -> first (map f (linspace 0 1 n)) = Ok (f 0).
Proof. intros n f H. rewrite linspace01 by auto. destruct n; [lia|]. simpl. rewrite station_0. auto. Qed.
Lemma traced_final : forall n (f : R -> R), (2 <= n)%nat -> final (map f (linspace 0 1 n)) = Ok (f 1).
Proof.
  intros n f H. rewrite final_map. rewrite linspace01 by auto.
  assert (E : seq 0 n = seq 0 (n - 1) ++ [(n - 1)%nat]).
  { replace n with (S (n - 1)) at 1 by lia. rewrite seq_S. auto. }
  rewrite E, map_app. simpl. rewrite (final_last _ 0).
  - rewrite last_last. cbn [bind]. rewrite station_last; auto.
  - destruct (map (station n) (seq 0 (n - 1))); discriminate.
Qed.
Lemma traced_edges : forall n X U D V p, traced n X U D V p -> (2 <= n)%nat ->
  X 0 = 0 -> D 0 = 0 -> X 1 = 1 -> D 1 = 1 -> update_edges p = Ok ((0, U 0), (1, (U 1 + V 1) / 2)).
Proof.
  intros n X U D V p T N A B C E. apply update_edges_iff.
  exists (X 0), (D 0), (X 1), (D 1), (U 0), (U 1), (V 1). rewrite T; simpl.
  rewrite !traced_first, !traced_final by auto. rewrite A, B, C, E.
  repeat (split; [reflexivity|]). split; [rewrite Rminus_0_r, Rabs_R0; lra|].
  split; [unfold Rminus; rewrite Rplus_opp_r, Rabs_R0; lra|]. auto.
Qed.
Lemma traced_params : forall n X U D V p, traced n X U D V p -> (2 <= n)%nat ->
  X 0 = 0 -> D 0 = 0 -> X 1 = 1 -> D 1 = 1 -> exists q, generate_parameters american "british" p = Ok q /\
    chord_length q = pdist (0, U 0) (1, (U 1 + V 1) / 2).
Proof.
  intros n X U D V p T N A B C E. pose proof (traced_edges _ _ _ _ _ _ T N A B C E) as Ee.
  destruct (gp_ok american p _ _ Ee) as [q Eq].
  - intros Z. apply (f_equal fst) in Z. simpl in Z. lra.
  - destruct (traced_sized _ _ _ _ _ _ T) as (S1 & S2 & S3 & S4). repeat split; lia.
  - exists q. split; auto. apply gp_inv in Eq. destruct Eq as (le & te & ? & ? & ? & E1 & _ & E2 & _).
    rewrite Ee in E1. injection E1 as <- <-. auto.
Qed.

Lemma digit_INR : forall d, is_digit d -> 0 <= INR d <= 9.
Proof. intros d H. split; [apply pos_INR|]. replace 9 with (INR 9) by (simpl; lra). apply le_INR. exact H. Qed.
Lemma INR_pos_or_0 : forall d, INR d = 0 \/ 1 <= INR d.
Proof. intros d. destruct d; [left; auto|right]. rewrite S_INR. pose proof (pos_INR d). lra. Qed.

Lemma naca_ok : forall s cosine n p q z, naca_coordinates s cosine n = Ok p -> z = Z.of_nat n ->
  generate_parameters american "british" p = Ok q -> naca_profile american (DStr s) (NInt z) cosine = Ok (p, q).
Proof.
  intros s cosine n p q z E -> G. unfold naca_profile, naca_check. cbn [bind].
  replace (Z.of_nat n <? 0)%Z with false by (symmetry; apply Z.ltb_ge; lia). cbn [bind fst snd].
  rewrite Nat2Z.id, E. cbn [bind]. rewrite G. auto.
Qed.

(** The mid points, the separation and its direction for any traced foil. *)
Lemma normal_mid : forall x h c th, pscale (1/2) (padd (x - h * sin th, c + h * cos th) (x + h * sin th, c - h * cos th)) = (x, c).
Proof. intros. apply injective_projections; simpl; field. Qed.
Lemma normal_gap : forall x h c th, 0 <= h -> pdist (x - h * sin th, c + h * cos th) (x + h * sin th, c - h * cos th) = 2 * h.
Proof.
  intros x h c th H. unfold pdist, pnorm, psub; simpl.
  replace (_ + _) with ((2 * h) * (2 * h) * (Rsqr (sin th) + Rsqr (cos th))) by (unfold Rsqr; ring).
  rewrite sin2_cos2, Rmult_1_r. apply sqrt_square. lra.
Qed.
Lemma vertical_gap : forall x h c, 0 <= h -> pdist (x, c + h) (x, c - h) = 2 * h.
Proof.
  intros x h c H. unfold pdist, pnorm, psub; simpl. replace (_ + _) with ((2 * h) * (2 * h)) by ring. apply sqrt_square. lra.
Qed.
Lemma cos_atan_pos : forall m, 0 < cos (atan m).
Proof. intros m. pose proof (atan_bound m). apply cos_gt_0; lra. Qed.
Lemma sin_atan : forall m, sin (atan m) = m * cos (atan m).
Proof.
  intros m. pose proof (tan_atan m) as T. unfold tan in T. pose proof (cos_atan_pos m). rewrite <- T at 2. field. lra.
Qed.
End A.
