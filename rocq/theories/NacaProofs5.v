(** The NACA statements in the vocabulary of NacaSpec. *)
From Coq Require Import Reals List ZArith String Ascii Lra Lia.
From Coquelicot Require Import Coquelicot.
From Verif Require Import Base SolveProofs ProfileModel ProfileSpec ProfileProofs ProfileProofs2 CustomSpec CustomProofs2 CustomProofs3
  NacaModel NacaBounds NacaSpec NacaProofs NacaProofs2 NacaProofs3 NacaProofs4.
Import ListNotations.
Open Scope R_scope.

Section A.
Variable american : profile -> R -> list R -> R -> list R -> res (list R).
Notation build s n cosine := (naca_profile american (DStr s) (NInt (Z.of_nat n)) cosine).

Lemma naca4_constructed : forall a b c d cosine n, is_digit a -> is_digit b -> is_digit c -> is_digit d -> (2 <= n)%nat ->
  exists p q, build (code [a; b; c; d]) n cosine = Ok (p, q) /\ sized n p /\ closed_unit n p /\ chord_length q = 1 /\
    forall i, (i < n)%nat -> snd (down_i p i) <= snd (up_i p i).
Proof.
  intros a b c d cosine n Ha Hb Hc Hd N. destruct (foil4 american a b c d cosine n Ha Hb Hc Hd N) as (p & q & E & CL & CU & L).
  exists p, q. split; auto. split; [exact (proj1 L)|]. split; auto. split; auto.
  intros i Hi. eapply laid_ordered; eauto. pose proof (half_bounds (tfrac c d) (station n i) (tfrac_pos c d) (station_bounds n i N Hi)). lra.
Qed.

Lemma naca4_thickness : forall a b c d cosine n p q i, is_digit a -> is_digit b -> is_digit c -> is_digit d -> (2 <= n)%nat ->
  build (code [a; b; c; d]) n cosine = Ok (p, q) -> (i < n)%nat ->
  let t := (10 * INR c + INR d) / 100 in
  pdist (up_i p i) (down_i p i) = 2 * half_thickness t (station n i) /\ pdist (up_i p i) (down_i p i) <= 1.0002 * t.
Proof.
  intros a b c d cosine n p q i Ha Hb Hc Hd N E Hi t.
  destruct (foil4 american a b c d cosine n Ha Hb Hc Hd N) as (p0 & q0 & E0 & _ & _ & L).
  rewrite E in E0. injection E0 as <- <-.
  pose proof (half_bounds (tfrac c d) (station n i) (tfrac_pos c d) (station_bounds n i N Hi)) as HB.
  rewrite (laid_gap _ _ _ _ _ i L Hi) by lra. split; [auto|]. exact (proj2 HB).
Qed.
Lemma naca5_thickness : forall a b (reflex : bool) c d cosine n p q i, is_digit a -> is_digit b -> is_digit c -> is_digit d -> (2 <= n)%nat ->
  build (code [a; b; (if reflex then 1 else 0)%nat; c; d]) n cosine = Ok (p, q) -> (i < n)%nat ->
  let t := (10 * INR c + INR d) / 100 in
  pdist (up_i p i) (down_i p i) = 2 * half_thickness t (station n i) /\ pdist (up_i p i) (down_i p i) <= 1.0002 * t.
Proof.
  intros a b reflex c d cosine n p q i Ha Hb Hc Hd N E Hi t.
  destruct (foil5 american a b reflex c d cosine n Ha Hb Hc Hd N) as (p0 & q0 & E0 & L).
  rewrite E in E0. injection E0 as <- <-.
  pose proof (half_bounds (tfrac c d) (station n i) (tfrac_pos c d) (station_bounds n i N Hi)) as HB.
  rewrite (laid_gap _ _ _ _ _ i L Hi) by lra. split; [auto|]. exact (proj2 HB).
Qed.

Lemma naca4_symmetric : forall a c d cosine n p q, is_digit a -> is_digit c -> is_digit d ->
  build (code [a; 0; c; d]%nat) n cosine = Ok (p, q) -> xup p = xdown p /\ ydown p = map Ropp (yup p).
Proof.
  intros a c d cosine n p q Ha Hc Hd E. rewrite build_unfold, coords4 in E by (auto; unfold is_digit; lia).
  unfold naca4 in E. simpl INR in E. destruct (Req_EM_T (0 / 10) 0); [|lra]. cbn [bind] in E.
  apply bind_ok in E. destruct E as [q' [_ E]]. injection E as <- <-. split; reflexivity.
Qed.

Lemma distribution : forall t x, 0 <= t -> 0 <= x <= 1 ->
  0 <= 2 * half_thickness t x <= 1.0002 * t /\ half_thickness t 0 = 0 /\ half_thickness t 1 = 0 /\
  t <= 2 * half_thickness t 0.3 /\ (0 < t -> 0 < x < 1 -> 0 < half_thickness t x).
Proof.
  intros t x T X. split; [apply half_bounds; auto|]. split; [apply half_ends|]. split; [apply half_ends|].
  split; [apply half_peak; auto|]. intros. apply half_strict; auto.
Qed.

Lemma naca4_camber : forall a b c d cosine n p q i, is_digit a -> is_digit b -> is_digit c -> is_digit d -> (2 <= n)%nat ->
  build (code [a; b; c; d]) n cosine = Ok (p, q) -> (i < n)%nat -> (b <> 0)%nat ->
  mid_i p i = (station n i, camber_line4 (INR a / 100) (INR b / 10) (station n i)) /\
  (cosine = false -> fst (up_i p i) = station n i /\ fst (down_i p i) = station n i) /\
  (cosine = true -> forall s, is_derive (camber_line4 (INR a / 100) (INR b / 10)) (station n i) s ->
     pdot (psub (up_i p i) (down_i p i)) (1, s) = 0).
Proof.
  intros a b c d cosine n p q i Ha Hb Hc Hd N E Hi Z.
  destruct (foil4 american a b c d cosine n Ha Hb Hc Hd N) as (p0 & q0 & E0 & _ & _ & L).
  rewrite E in E0. injection E0 as <- <-. destruct L as [_ L]. destruct (L i Hi) as [A B].
  unfold mean4, slope4 in *. destruct (Nat.eqb_spec b 0); [contradiction|]. split; auto. split.
  - intros ->. apply (f_equal fst) in A, B. unfold mid_i in A. simpl in A, B. rewrite Ropp_0, Rmult_0_r in B.
    change (nth i (xup p) 0) with (fst (up_i p i)) in *. change (nth i (xdown p) 0) with (fst (down_i p i)) in *. lra.
  - intros ->. intros s D.
    assert (PB : 0 < INR b / 10 < 1).
    { pose proof (digit_INR b Hb). destruct (INR_pos_or_0 b) as [F|F]; [exfalso; apply Z; apply INR_eq; auto|]. lra. }
    pose proof (d4_slope (INR a / 100) (INR b / 10) (station n i) PB) as D4.
    apply is_derive_unique in D, D4. rewrite D4 in D. rewrite B, <- D. unfold pdot, pscale; simpl. ring.
Qed.

Lemma d4_continuous : forall m p x, 0 < p < 1 -> continuous (d4 m p) x.
Proof.
  intros m p x P.
  assert (E : forall x, d4 m p x = m / p ^ 2 * (p - x + Rabs (p - x)) + m / (1 - p) ^ 2 * (p - x - Rabs (p - x))).
  { intros y. unfold d4. destruct (Rle_dec y p); [rewrite Rabs_right by lra|rewrite Rabs_left by lra]; field; lra. }
  apply continuous_ext with (fun x => m / p ^ 2 * (p - x + Rabs (p - x)) + m / (1 - p) ^ 2 * (p - x - Rabs (p - x))).
  { intros; symmetry; apply E. }
  assert (CA : continuous (fun x => Rabs (p - x)) x).
  { apply continuous_comp; [|apply continuity_pt_filterlim, Rcontinuity_abs].
    apply (continuous_minus (fun _ => p) (fun x => x)); [apply continuous_const|apply continuous_id]. }
  assert (CL : continuous (fun x => p - x) x) by (apply (continuous_minus (fun _ => p) (fun x => x)); [apply continuous_const|apply continuous_id]).
  apply (continuous_plus (fun x => m / p ^ 2 * (p - x + Rabs (p - x))) (fun x => m / (1 - p) ^ 2 * (p - x - Rabs (p - x)))).
  - apply (continuous_scal_r (m / p ^ 2) (fun x => p - x + Rabs (p - x))).
    apply (continuous_plus (fun x => p - x) (fun x => Rabs (p - x))); auto.
  - apply (continuous_scal_r (m / (1 - p) ^ 2) (fun x => p - x - Rabs (p - x))).
    apply (continuous_minus (fun x => p - x) (fun x => Rabs (p - x))); auto.
Qed.

Lemma camber4_smooth : forall m p, 0 < p < 1 -> exists D : R -> R,
  (forall x, is_derive (camber_line4 m p) x (D x)) /\ (forall x, continuous D x) /\ D p = 0.
Proof.
  intros m p P. exists (d4 m p). split; [intros; apply d4_slope; auto|]. split; [intros; apply d4_continuous; auto|].
  unfold d4. destruct (Rle_dec p p); [|lra]. ring.
Qed.
Lemma camber4_shape : forall m p, 0 <= m -> 0 < p < 1 ->
  camber_line4 m p 0 = 0 /\ camber_line4 m p 1 = 0 /\ camber_line4 m p p = m /\
  forall x, 0 <= x <= 1 -> 0 <= camber_line4 m p x <= m.
Proof.
  intros m p M P. split; [apply camber4_ends; auto|]. split; [apply camber4_ends; auto|]. split; [apply camber4_peak; auto|].
  intros. apply camber4_range; auto.
Qed.

Lemma naca5_constructed : forall a b (reflex : bool) c d cosine n,
  is_digit a -> is_digit b -> is_digit c -> is_digit d -> (2 <= n)%nat ->
  exists p q, build (code [a; b; (if reflex then 1 else 0)%nat; c; d]) n cosine = Ok (p, q) /\ sized n p /\
    ((reflex = true -> (b <= 7)%nat) -> closed_unit n p) /\
    forall i, (i < n)%nat -> snd (down_i p i) <= snd (up_i p i) /\
      mid_i p i = (station n i,
        if Nat.eqb b 0 then 0 else
        let m := naca5_m reflex (5 * INR b / 100) in
        (if cosine then INR a / 2 else 1) * camber_line5 (naca5_k reflex m) m (station n i)).
Proof.
  intros a b reflex c d cosine n Ha Hb Hc Hd N.
  destruct (foil5 american a b reflex c d cosine n Ha Hb Hc Hd N) as (p & q & E & L).
  exists p, q. split; auto. split; [exact (proj1 L)|]. split.
  { intros H. exact (foil5_closed a b reflex c d cosine n p Hb H N L). }
  intros i Hi. split; [|exact (proj1 (proj2 L i Hi))].
  eapply laid_ordered; eauto. pose proof (half_bounds (tfrac c d) (station n i) (tfrac_pos c d) (station_bounds n i N Hi)). lra.
Qed.
Lemma naca5_reflex_open : forall a b c d n, is_digit a -> (b = 8 \/ b = 9)%nat -> is_digit c -> is_digit d -> (2 <= n)%nat ->
  exists p q, build (code [a; b; 1; c; d]%nat) n false = Ok (p, q) /\ ~ closed_unit n p.
Proof.
  intros a b c d n Ha Hb Hc Hd N.
  destruct (foil5 american a b true c d false n Ha ltac:(unfold is_digit; lia) Hc Hd N) as (p & q & E & L).
  exists p, q. split; auto. intros (_ & _ & E1 & E2). pose proof (foil5_open a b c d n p Hb N L) as P.
  unfold mid_i in P. rewrite E1, E2 in P. simpl in P; lra.
Qed.
Lemma table5 : forall b, (1 <= b <= 5)%nat ->
  let m := naca5_m false (5 * INR b / 100) in
  m = nth (b - 1) [58/1000; 126/1000; 2025/10000; 29/100; 391/1000] 0 /\
  naca5_k false m = nth (b - 1) [3614/10; 5164/100; 15957/1000; 6643/1000; 323/100] 0.
Proof.
  intros b H m. unfold m. rewrite k_std, m_std by lia.
  assert (b = 1 \/ b = 2 \/ b = 3 \/ b = 4 \/ b = 5)%nat as C by lia.
  destruct C as [->|[->|[->|[->| ->]]]]; simpl; lra.
Qed.
Lemma table5r : forall b, (2 <= b <= 5)%nat ->
  let m := naca5_m true (5 * INR b / 100) in
  m = nth (b - 2) [13/100; 217/1000; 318/1000; 441/1000] 0 /\
  naca5_k true m = nth (b - 2) [5199/100; 15793/1000; 652/100; 3191/1000] 0.
Proof.
  intros b H m. unfold m. rewrite k_ref, m_ref by lia.
  assert (b = 2 \/ b = 3 \/ b = 4 \/ b = 5)%nat as C by lia.
  destruct C as [->|[->|[->| ->]]]; simpl; lra.
Qed.
Lemma camber5_smooth : forall k m, exists D : R -> R, (forall x, is_derive (camber_line5 k m) x (D x)) /\
  (0 <= m < 1 -> camber_line5 k m 0 = 0 /\ camber_line5 k m 1 = 0).
Proof. intros k m. exists (d5 k m). split; [intros; apply d5_slope|]. apply camber5_ends. Qed.
End A.
