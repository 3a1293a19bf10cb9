(** Five-digit NACA foils in binary64: edges, order, coordinates, construction. *)
From Coq Require Import Reals ZArith List Lra Lia Bool Sorted.
From Flocq Require Import Core BinarySingleNaN.
From Verif Require Import Base PpgFloatModel PpgFloatProofs ProfileModel FloatModel FloatSpec FloatProofs ShapeFloatModel ShapeFloatSpec ShapeFloatProofs SectionFloatModel SectionFloatSpec SectionFloatProofs SectionFloatProofs4 NacaModel NacaSpec NacaBounds NacaProofs NacaProofs2 NacaFloatModel NacaFloatSpec NacaFloatProofs NacaFloatProofs2 NacaFloatProofs3 NacaFloatProofs4 NacaFloatProofs5 NacaFloatProofs7 NacaFiveModel NacaFiveSpec NacaFiveProofs NacaFiveProofs2.
Import ListNotations.
Open Scope R_scope.

Section Five.
Variables (L : mathlib) (S : splines) (a b : nat) (reflex : bool) (c d n : nat) (cosine : bool).
Hypothesis K : naca5_input L S a b reflex c d n.
Lemma produced5 : exists p, naca_foil5_64 L S a b (third reflex) c d cosine n = Ok p /\ length (fxup p) = n /\ same_sizes p /\ numbers p.
Proof.
  destruct (foil5_points L S a b reflex c d cosine n K) as (XU & XD & YU & YD & m & k & E & P & _). destruct K as (_ & _ & _ & _ & C & D & N & M). eexists. split; [exact E|].
  pose proof (g_sizes c d n (cosine = false \/ b = 0%nat) _ ltac:(eauto 10)) as (S1 & S2). split; auto. split; auto. exact (g_all_numbers c d n (cosine = false \/ b = 0%nat) _ C D N M ltac:(eauto 10)).
Qed.
Variable p : fprofile.
Hypothesis E : naca_foil5_64 L S a b (third reflex) c d cosine n = Ok p.
Lemma described5 : exists XU XD YU YD, p = mkF (map XU (linspace64 n)) (map XD (linspace64 n)) (map YU (linspace64 n)) (map YD (linspace64 n)) /\
  point_facts (thickness_of c d) (cosine = false \/ b = 0%nat) XU XD YU YD.
Proof. destruct (foil5_points L S a b reflex c d cosine n K) as (XU & XD & YU & YD & m & k & E' & P & _). rewrite E' in E. injection E as <-. eauto 10. Qed.
Lemma leading5 : real (fst (up64 p 0)) = 0 /\ real (snd (up64 p 0)) = 0 /\ real (fst (down64 p 0)) = 0 /\ real (snd (down64 p 0)) = 0.
Proof. destruct K as (_ & _ & _ & _ & C & D & N & M). apply (g_leading c d n _ p C D N M described5). Qed.
Lemma ordered5 : (1 <= 10 * c + d)%nat -> forall i, (0 < i < n - 1)%nat -> real (snd (down64 p i)) < real (snd (up64 p i)).
Proof. destruct K as (_ & _ & _ & _ & C & D & N & M). apply (g_ordered c d n _ p C D N M described5). Qed.
Lemma crossed5 : (1 <= 10 * c + d)%nat -> let u := up64 p (n - 1) in let w := down64 p (n - 1) in
  real (snd u) < 0 < real (snd w) /\ real (snd w) = - real (snd u) /\ real (snd w) <= 2 * eps /\ Rabs (real (fst u) - 1) <= 4 * eps /\ Rabs (real (fst w) - 1) <= 4 * eps.
Proof.
  intros T u w. destruct K as (_ & _ & _ & _ & C & D & N & M). destruct (g_trailing c d n _ p C D N M described5 T) as (Q1 & Q2 & Q3 & Q4). fold u w in Q1, Q2, Q3, Q4. split; [lra|]. split; auto. split; [lra|]. auto.
Qed.
Lemma stations5 : cosine = false \/ b = 0%nat -> fxdown p = fxup p /\ (forall i, (i < n)%nat -> Rabs (real (nth i (fxup p) zero64) - INR i / INR (n - 1)) <= 3 * eps) /\
  (forall i j, (i < j < n)%nat -> real (nth i (fxup p) zero64) < real (nth j (fxup p) zero64)).
Proof. destruct K as (_ & _ & _ & _ & C & D & N & M). apply (g_stations c d n _ p C D N M described5). Qed.
Lemma accepted5 : (1 <= 10 * c + d)%nat -> check_coordinates64 p = Ok tt.
Proof. destruct K as (_ & _ & _ & _ & C & D & N & M). apply (g_accepted c d n _ p C D N M described5). Qed.
Lemma parametrised5 : forall o, (1 <= 10 * c + d)%nat \/ cosine = false \/ b = 0%nat -> exists s, parameters_british64 o p = Ok s /\ same_lengths s /\ length (pchord s) = n.
Proof. destruct K as (_ & _ & _ & _ & C & D & N & M). apply (g_parametrised c d n _ p C D N M described5). Qed.
Lemma coordinates5 : exists m k, (b <> 0%nat -> Rabs (m - junction5 reflex b) <= / 2 ^ 30 /\ Rabs (k - strength5 reflex b) <= / 2 ^ 10) /\ forall i, (i < n)%nat ->
  exists x, Rabs (x - INR i / INR (n - 1)) <= 3 * eps /\ 0 <= x <= 1 /\ (i = 0%nat -> x = 0) /\ (i = (n - 1)%nat -> x = 1) /\
  let h := half4 c d x in let C := camber5 a b cosine k m x in let th := angle5 b cosine k m x in
  Rabs (real (fst (up64 p i)) - (x - h * sin th)) <= 90 * eps /\ Rabs (real (fst (down64 p i)) - (x + h * sin th)) <= 90 * eps /\
  Rabs (real (snd (up64 p i)) - (C + h * cos th)) <= 160 * eps /\ Rabs (real (snd (down64 p i)) - (C - h * cos th)) <= 160 * eps.
Proof.
  destruct (foil5_points L S a b reflex c d cosine n K) as (XU & XD & YU & YD & m & k & E' & _ & T & Q). rewrite E' in E. injection E as <-. exists m, k. split; [exact T|]. intros i I. destruct K as (_ & _ & _ & _ & C & D & N & M).
  destruct (station_facts n i N M I) as (_ & SE & S0 & S1 & _). destruct (station_range n i N M I) as (F & R). destruct (Q _ F R) as ((_ & Q1) & (_ & Q2) & (_ & Q3) & (_ & Q4)).
  exists (val (station n i)). split; [exact SE|]. split; [exact R|]. split; [exact S0|]. split. { intros W. rewrite S1 by auto. apply one_val. }
  unfold up64, down64. cbn [fst snd fxup fxdown fyup fydown]. rewrite !nth_station by auto. unfold real. cbv zeta. auto.
Qed.
End Five.
Lemma constructed5 : forall L S o a b reflex c d n cosine, naca5_input L S a b reflex c d n -> (1 <= 10 * c + d)%nat \/ cosine = false \/ b = 0%nat ->
  exists p s, naca_profile5_64 L S o a b (third reflex) c d cosine n = Ok (p, s) /\ naca_foil5_64 L S a b (third reflex) c d cosine n = Ok p /\ same_lengths s /\ length (pchord s) = n.
Proof.
  intros L S o a b reflex c d n cosine K V. destruct (produced5 L S a b reflex c d n cosine K) as (p & E & _). destruct (parametrised5 L S a b reflex c d n cosine K p E o V) as (s & H & Q1 & Q2).
  exists p, s. unfold naca_profile5_64. rewrite E. cbn [bind]. rewrite H. auto.
Qed.
Lemma no_points5 : forall L S o a b s c d cosine, (s <= 1)%nat -> naca_profile5_64 L S o a b s c d cosine 0 = Err IndexError.
Proof.
  intros L S o a b s c d cosine H. assert (C : s = third false \/ s = third true) by (unfold third; lia). unfold naca_profile5_64, naca_foil5_64, naca5_64.
  destruct C as [-> | ->]; rewrite kind; cbn [bind]; (destruct (Beqb _ zero64); [reflexivity|]); destruct cosine; reflexivity.
Qed.
Lemma other_kind : forall L S a b s c d cosine n, (2 <= s <= 9)%nat -> naca_foil5_64 L S a b s c d cosine n = Err ValueError.
Proof.
  intros L S a b s c d cosine n H. unfold naca_foil5_64, naca5_64. assert (s = 2 \/ s = 3 \/ s = 4 \/ s = 5 \/ s = 6 \/ s = 7 \/ s = 8 \/ s = 9)%nat as C by lia.
  destruct C as [->|[->|[->|[->|[->|[->|[->| ->]]]]]]];
  match goal with |- context [Beqb ?u one64] => replace (Beqb u one64) with false by (vm_compute; reflexivity); replace (Beqb u zero64) with false by (vm_compute; reflexivity) end; reflexivity.
Qed.

(** ** A library *)
Lemma leb_range : forall x (t : b64) lo hi, finite x = true -> finite t = true -> lo <= val x <= hi -> (hi <= val t -> Bleb x t = true) /\ (val t < lo -> Bleb x t = false).
Proof. intros x t lo hi F T B. rewrite leb_val by auto. split; intros H. apply Rle_bool_true. lra. apply Rle_bool_false. lra. Qed.
Ltac pick V F := repeat (match goal with |- context [Bleb ?x ?t] =>
    (rewrite (proj1 (leb_range x t _ _ F eq_refl V)) by (unfold val; cbn; unfold F2R; cbn; lra)) || (rewrite (proj2 (leb_range x t _ _ F eq_refl V)) by (unfold val; cbn; unfold F2R; cbn; lra)) end).
Ltac settle := split; [reflexivity|]; unfold real; cbn; unfold F2R; cbn; apply Rabs_le; lra.
Ltac finish_table := match goal with F : is_number ?x, B : - ?e <= val ?x - ?v <= ?e |- _ => let V := fresh in assert (V : v - e <= val x <= v + e) by lra; pick V F; settle end.
Lemma plain_splines_good : good_splines plain_splines.
Proof.
  intros reflex b T. unfold strength5, junction5. destruct reflex; unfold tabulated in T.
  - assert (MB := m_ref b ltac:(lia)). assert (KB := k_ref b ltac:(lia)). rewrite MB in *. rewrite KB. split; intros x F B; apply Rabs_le_inv in B; unfold real in B; fold (val x) in B; unfold plain_splines; cbn [junction64 strength64];
    assert (b = 2 \/ b = 3 \/ b = 4 \/ b = 5)%nat as C by lia; destruct C as [->|[->|[->| ->]]]; cbn [nth Nat.sub] in *; rewrite ?INR_IZR_INZ in B; cbn [Z.of_nat Pos.of_succ_nat Pos.succ] in B.
    all: try finish_table.
  - assert (MB := m_std b ltac:(lia)). assert (KB := k_std b ltac:(lia)). rewrite MB in *. rewrite KB. split; intros x F B; apply Rabs_le_inv in B; unfold real in B; fold (val x) in B; unfold plain_splines; cbn [junction64 strength64];
    assert (b = 1 \/ b = 2 \/ b = 3 \/ b = 4 \/ b = 5)%nat as C by lia; destruct C as [->|[->|[->|[->| ->]]]]; cbn [nth Nat.sub] in *; rewrite ?INR_IZR_INZ in B; cbn [Z.of_nat Pos.of_succ_nat Pos.succ] in B.
    all: try finish_table.
Qed.
