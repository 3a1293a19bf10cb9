(** The constructed 4- and 5-digit foils. *)
From Coq Require Import Reals List ZArith String Ascii Lra Lia.
From Coquelicot Require Import Coquelicot.
From Verif Require Import Base SolveProofs ProfileModel ProfileSpec ProfileProofs ProfileProofs2 CustomProofs2 CustomProofs3
  NacaModel NacaBounds NacaSpec NacaProofs NacaProofs2.
Import ListNotations.
Open Scope R_scope.

Definition tfrac (c d : nat) : R := (10 * INR c + INR d) / 100.
Lemma tfrac_pos : forall c d, 0 <= tfrac c d.
Proof. intros. unfold tfrac. pose proof (pos_INR c). pose proof (pos_INR d). lra. Qed.

(** What is known at every station of a foil laid on camber [c] with half
    thickness [h]; [sl] is the slope the thickness is orthogonal to. *)
Definition laid (n : nat) (h c sl : R -> R) (p : profile) : Prop :=
  sized n p /\ forall i, (i < n)%nat -> let x := station n i in
    mid_i p i = (x, c x) /\
    psub (up_i p i) (down_i p i) = pscale (2 * h x * cos (atan (sl x))) (- sl x, 1).

Lemma laid_normal : forall n h c sl p, (2 <= n)%nat -> traced n
   (fun x => x - h x * sin (atan (sl x))) (fun x => c x + h x * cos (atan (sl x)))
   (fun x => x + h x * sin (atan (sl x))) (fun x => c x - h x * cos (atan (sl x))) p -> laid n h c sl p.
Proof.
  intros n h c sl p N T. split; [eapply traced_sized; eauto|]. intros i Hi. cbv zeta.
  unfold mid_i; destruct (traced_nth _ _ _ _ _ _ i T N Hi) as [E1 E2]; rewrite E1, E2.
  split; [apply normal_mid|]. rewrite sin_atan. apply injective_projections; simpl; ring.
Qed.
Lemma laid_vertical : forall n h c p, (2 <= n)%nat ->
  traced n (fun x => x) (fun x => c x + h x) (fun x => x) (fun x => c x - h x) p -> laid n h c (fun _ => 0) p.
Proof.
  intros n h c p N T. split; [eapply traced_sized; eauto|]. intros i Hi. cbv zeta.
  unfold mid_i; destruct (traced_nth _ _ _ _ _ _ i T N Hi) as [E1 E2]; rewrite E1, E2.
  rewrite atan_0, cos_0. split; apply injective_projections; simpl; field.
Qed.
Lemma laid_ordered : forall n h c sl p i, laid n h c sl p -> (i < n)%nat -> 0 <= h (station n i) ->
  snd (down_i p i) <= snd (up_i p i).
Proof.
  intros n h c sl p i [_ L] Hi H. destruct (L i Hi) as [_ E]. apply (f_equal snd) in E. simpl in E.
  pose proof (cos_atan_pos (sl (station n i))). simpl. 
  assert (0 <= 2 * h (station n i) * cos (atan (sl (station n i)))) by (apply Rmult_le_pos; lra). lra.
Qed.
Lemma laid_gap : forall n h c sl p i, laid n h c sl p -> (i < n)%nat -> 0 <= h (station n i) ->
  pdist (up_i p i) (down_i p i) = 2 * h (station n i).
Proof.
  intros n h c sl p i [_ L] Hi H. destruct (L i Hi) as [_ E]. unfold pdist. rewrite E.
  set (m := sl (station n i)). set (g := h (station n i)) in *. unfold pnorm, pscale; simpl.
  pose proof (sin_atan m) as S. pose proof (sin2_cos2 (atan m)) as P. unfold Rsqr in P. rewrite S in P.
  replace (_ + _) with ((2 * g) * (2 * g) * (m * cos (atan m) * (m * cos (atan m)) + cos (atan m) * cos (atan m))) by ring.
  rewrite P, Rmult_1_r. apply sqrt_square. lra.
Qed.
Lemma laid_ends : forall n h c sl p, (2 <= n)%nat -> laid n h c sl p -> h 0 = 0 -> h 1 = 0 -> c 0 = 0 -> c 1 = 0 -> closed_unit n p.
Proof.
  assert (K : forall a b m, pscale (1/2) (padd a b) = m -> psub a b = (0, 0) -> a = m /\ b = m).
  { intros [a1 a2] [b1 b2] [m1 m2] E1 E2. unfold pscale, padd, psub in *; simpl in *.
    injection E1 as X1 Y1. injection E2 as X2 Y2. split; apply injective_projections; simpl; lra. }
  intros n h c sl p N [_ L] H0 H1 C0 C1.
  destruct (L 0%nat ltac:(lia)) as [A1 A2]. destruct (L (n - 1)%nat ltac:(lia)) as [B1 B2].
  rewrite station_0 in *. rewrite station_last in * by auto. rewrite H0, C0 in *. rewrite H1, C1 in *.
  apply K in A1; [|rewrite A2; apply injective_projections; simpl; ring].
  apply K in B1; [|rewrite B2; apply injective_projections; simpl; ring].
  unfold closed_unit. tauto.
Qed.

Section A.
Variable american : profile -> R -> list R -> R -> list R -> res (list R).
Notation build s n cosine := (naca_profile american (DStr s) (NInt (Z.of_nat n)) cosine).

Definition mean4 (a b : nat) (x : R) : R := if Nat.eqb b 0 then 0 else camber_line4 (INR a / 100) (INR b / 10) x.
Definition slope4 (a b : nat) (cosine : bool) (x : R) : R :=
  if Nat.eqb b 0 then 0 else if cosine then d4 (INR a / 100) (INR b / 10) x else 0.

Lemma laid_ext : forall n h c c' sl sl' p, laid n h c sl p -> (forall x, c x = c' x) -> (forall x, sl x = sl' x) -> laid n h c' sl' p.
Proof. intros n h c c' sl sl' p [S L] E1 E2. split; auto. intros i Hi. destruct (L i Hi) as [A B]. cbv zeta in *. rewrite <- E1, <- E2. auto. Qed.

Lemma foil4 : forall a b c d cosine n, is_digit a -> is_digit b -> is_digit c -> is_digit d -> (2 <= n)%nat ->
  exists p q, build (code [a; b; c; d]) n cosine = Ok (p, q) /\ chord_length q = 1 /\ closed_unit n p /\
    laid n (half_thickness (tfrac c d)) (mean4 a b) (slope4 a b cosine) p.
Proof.
  intros a b c d cosine n Ha Hb Hc Hd N.
  assert (PB : b <> 0%nat -> 0 < INR b / 10 < 1).
  { intros Z. pose proof (digit_INR b Hb). destruct (INR_pos_or_0 b) as [E|E]; [exfalso; apply Z; apply INR_eq; auto|]. lra. }
  destruct (naca4_traced (INR a / 100) (INR b / 10) (tfrac c d) cosine n) as (p & E & T0 & T1 & T2).
  destruct (half_ends (tfrac c d)) as [H0 H1].
  assert (L : laid n (half_thickness (tfrac c d)) (mean4 a b) (slope4 a b cosine) p /\
              exists q, generate_parameters american "british" p = Ok q /\ chord_length q = 1).
  { assert (U1 : forall U V : R, U = 0 -> V = 0 -> forall W, W = pdist (0, U) (1, (U + V) / 2) -> W = 1).
    { intros U V -> -> W ->. unfold pdist, pnorm, psub; simpl. replace (_ + _) with (1 * 1) by field. apply sqrt_square. lra. }
    destruct (Nat.eqb_spec b 0) as [Z|Z].
    - assert (Zp : INR b / 10 = 0) by (subst; simpl; lra). specialize (T0 Zp). split.
      + assert (LV : laid n (half_thickness (tfrac c d)) (fun _ => 0) (fun _ => 0) p).
        { apply laid_vertical; auto. rewrite T0. unfold traced. f_equal; apply map_ext; intros; ring. }
        eapply laid_ext; [exact LV| |]; intros; unfold mean4, slope4; subst b; reflexivity.
      + destruct (traced_params american _ _ _ _ _ _ T0 N) as (q & Eq & CL); try lra. exists q. split; auto.
        rewrite CL. eapply (U1 (half_thickness (tfrac c d) 0) (- half_thickness (tfrac c d) 1)); [auto|lra|].
        do 2 f_equal. rewrite H0, H1. lra.
    - specialize (PB Z). assert (NZ : INR b / 10 <> 0) by lra.
      destruct (camber4_ends (INR a / 100) (INR b / 10) PB) as [C0 C1].
      rewrite <- c4_textbook in C0, C1 by lra.
      destruct cosine.
      + specialize (T1 NZ eq_refl). split.
        * apply laid_normal in T1; auto. eapply laid_ext; [exact T1| |]; intros; unfold mean4, slope4;
            destruct (Nat.eqb_spec b 0); try contradiction; auto. apply c4_textbook; lra.
        * destruct (traced_params american _ _ _ _ _ _ T1 N) as (q & Eq & CL); try (rewrite ?H0, ?H1; lra). exists q. split; auto.
          rewrite CL. rewrite H0, H1, C0, C1. apply (U1 0 0); auto. do 2 f_equal; lra.
      + specialize (T2 NZ eq_refl). split.
        * apply laid_vertical in T2; auto. eapply laid_ext; [exact T2| |]; intros; unfold mean4, slope4;
            destruct (Nat.eqb_spec b 0); try contradiction; auto. apply c4_textbook; lra.
        * destruct (traced_params american _ _ _ _ _ _ T2 N) as (q & Eq & CL); try lra. exists q. split; auto.
          rewrite CL. rewrite H0, H1, C0, C1. apply (U1 0 0); auto. do 2 f_equal; lra. }
  destruct L as [L (q & Eq & CL)]. exists p, q.
  split. { eapply naca_ok; [|reflexivity|exact Eq]. rewrite coords4 by auto. exact E. }
  split; auto. split; auto.
  eapply laid_ends; [exact N|exact L|exact H0|exact H1| |]; unfold mean4; destruct (Nat.eqb_spec b 0); auto; apply camber4_ends; auto.
Qed.

Definition mean5 (a b : nat) (reflex cosine : bool) (x : R) : R :=
  if Nat.eqb b 0 then 0 else
  let m := naca5_m reflex (5 * INR b / 100) in
  (if cosine then INR a / 2 else 1) * camber_line5 (naca5_k reflex m) m x.
Definition slope5 (b : nat) (reflex cosine : bool) (x : R) : R :=
  if Nat.eqb b 0 then 0 else if cosine then
    let m := naca5_m reflex (5 * INR b / 100) in d5 (naca5_k reflex m) m x else 0.

Lemma foil5 : forall a b (reflex : bool) c d cosine n, is_digit a -> is_digit b -> is_digit c -> is_digit d -> (2 <= n)%nat ->
  exists p q, build (code [a; b; (if reflex then 1 else 0)%nat; c; d]) n cosine = Ok (p, q) /\
    laid n (half_thickness (tfrac c d)) (mean5 a b reflex cosine) (slope5 b reflex cosine) p.
Proof.
  intros a b reflex c d cosine n Ha Hb Hc Hd N.
  destruct (naca5_traced (INR a * (15/100)) (5 * INR b / 100) reflex (INR (if reflex then 1 else 0)%nat) (tfrac c d) cosine n) as (p & E & T0 & T1 & T2).
  { destruct reflex; reflexivity. }
  destruct (half_ends (tfrac c d)) as [H0 H1].
  assert (L : laid n (half_thickness (tfrac c d)) (mean5 a b reflex cosine) (slope5 b reflex cosine) p /\
              exists q, generate_parameters american "british" p = Ok q).
  { destruct (Nat.eqb_spec b 0) as [Z|Z].
    - assert (Zp : 5 * INR b / 100 = 0) by (subst; simpl; lra). specialize (T0 Zp). split.
      + assert (LV : laid n (half_thickness (tfrac c d)) (fun _ => 0) (fun _ => 0) p).
        { apply laid_vertical; auto. rewrite T0. unfold traced. f_equal; apply map_ext; intros; ring. }
        eapply laid_ext; [exact LV| |]; intros; unfold mean5, slope5; subst b; reflexivity.
      + destruct (traced_params american _ _ _ _ _ _ T0 N) as (q & Eq & CL); try lra. eauto.
    - assert (NZ : 5 * INR b / 100 <> 0).
      { destruct (INR_pos_or_0 b) as [F|F]; [exfalso; apply Z, INR_eq; auto|lra]. }
      destruct cosine.
      + specialize (T1 NZ eq_refl). split.
        * apply laid_normal in T1; auto. eapply laid_ext; [exact T1| |]; intros; unfold mean5, slope5;
            destruct (Nat.eqb_spec b 0); try contradiction; auto. cbv zeta. f_equal. field.
        * destruct (traced_params american _ _ _ _ _ _ T1 N) as (q & Eq & CL); try (rewrite ?H0, ?H1; lra). eauto.
      + specialize (T2 NZ eq_refl). split.
        * apply laid_vertical in T2; auto. eapply laid_ext; [exact T2| |]; intros; unfold mean5, slope5;
            destruct (Nat.eqb_spec b 0); try contradiction; auto. cbv zeta. lra.
        * destruct (traced_params american _ _ _ _ _ _ T2 N) as (q & Eq & CL); try lra. eauto. }
  destruct L as [L (q & Eq)]. exists p, q. split; auto.
  eapply naca_ok; [|reflexivity|exact Eq]. rewrite coords5 by (auto; destruct reflex; unfold is_digit; lia). exact E.
Qed.

Lemma foil5_closed : forall a b (reflex : bool) c d cosine n p, is_digit b -> (reflex = true -> (b <= 7)%nat) -> (2 <= n)%nat ->
  laid n (half_thickness (tfrac c d)) (mean5 a b reflex cosine) (slope5 b reflex cosine) p -> closed_unit n p.
Proof.
  intros a b reflex c d cosine n p Hb R7 N L. destruct (half_ends (tfrac c d)) as [H0 H1].
  assert (M : b <> 0%nat -> 0 <= naca5_m reflex (5 * INR b / 100) < 1).
  { intros Z. unfold is_digit in Hb. destruct reflex.
    - specialize (R7 eq_refl). rewrite m_ref by lia.
      assert (b = 1 \/ b = 2 \/ b = 3 \/ b = 4 \/ b = 5 \/ b = 6 \/ b = 7)%nat as C by lia.
      destruct C as [->|[->|[->|[->|[->|[->| ->]]]]]]; simpl; lra.
    - rewrite m_std by lia.
      assert (b = 1 \/ b = 2 \/ b = 3 \/ b = 4 \/ b = 5 \/ b = 6 \/ b = 7 \/ b = 8 \/ b = 9)%nat as C by lia.
      destruct C as [->|[->|[->|[->|[->|[->|[->|[->| ->]]]]]]]]; simpl; lra. }
  eapply laid_ends; [exact N|exact L|exact H0|exact H1| |]; unfold mean5; destruct (Nat.eqb_spec b 0); auto;
    cbv zeta; destruct (camber5_ends (naca5_k reflex (naca5_m reflex (5 * INR b / 100))) _ (M n0)) as [E1 E2]; rewrite ?E1, ?E2; ring.
Qed.

(** Reflexed codes whose second digit is 8 or 9 do not close at y = 0. *)
Lemma foil5_open : forall a b c d n p, (b = 8 \/ b = 9)%nat -> (2 <= n)%nat ->
  laid n (half_thickness (tfrac c d)) (mean5 a b true false) (slope5 b true false) p -> 0 < snd (mid_i p (n - 1)).
Proof.
  intros a b c d n p B N [_ L]. destruct (L (n - 1)%nat ltac:(lia)) as [E _]. rewrite E. cbn [snd].
  rewrite station_last by auto. unfold mean5. replace (Nat.eqb b 0) with false by (destruct B; subst; auto).
  cbv zeta. rewrite k_ref, m_ref by lia. destruct B; subst b; cbn [nth Nat.sub]; unfold camber_line5.
  - destruct (Rle_dec 1 (1022 / 1000)); [|lra]. lra.
  - destruct (Rle_dec 1 (1313 / 1000)); [|lra]. lra.
Qed.
End A.
