(** Sections in binary64: symmetric ones, NaN parameters, a cambered one. *)
From Coq Require Import Reals ZArith List Lra Lia Bool.
From Flocq Require Import Core BinarySingleNaN.
From Verif Require Import Base PpgFloatModel PpgFloatProofs ProfileModel ProfileSpec ProfileProofs2 FloatModel FloatSpec FloatProofs FloatProofs2 ShapeFloatModel ShapeFloatSpec ShapeFloatProofs ShapeFloatProofs2 ShapeFloatProofs4 ShapeFloatProofs5 ShapeFloatProofs6 SectionFloatModel SectionFloatSpec SectionFloatProofs SectionFloatProofs2.
Import ListNotations.
Open Scope R_scope.

Lemma nth_error_same : forall A (l l' : list A), (forall i, nth_error l i = nth_error l' i) -> l = l'.
Proof.
  intros A. induction l as [|x l IH]; intros [|y l'] H; [reflexivity|specialize (H 0%nat); discriminate|specialize (H 0%nat); discriminate|].
  f_equal; [specialize (H 0%nat); cbn in H; congruence|]. apply IH. intros i. apply (H (S i)).
Qed.

Lemma symmetric_section : forall s, number_parameters s -> same_lengths s -> moderate s -> 0 <= real (pcmax s) -> bpow radix2 (-1021) <= real (ptmax s) ->
  Forall (fun c => real c * real (pcmax s) = 0) (pcamber s) ->
  Forall (fun t => 0 <= real t <= 1) (pthick s) -> Exists (fun t => real t = 1) (pthick s) ->
  exists q t, from_parameters64 s = Ok q /\ map real (fydown q) = map Ropp (map real (fyup q)) /\ max_thickness64 q = Ok t /\ is_number t /\ real t = real (ptmax s).
Proof.
  intros s N L M PC PT Z P01 PE. pose proof N as (N1 & N2 & N3 & NC & NT & NL). pose proof M as (M1 & M2 & M3). pose proof (bpow_gt_0 radix2 (-1021)) as B0.
  assert (PT0 : 0 <= real (ptmax s)) by lra. destruct (constructed s N L M PC PT0) as (q & Q & Nq & Xq & Sq & Lq & _). exists q.
  assert (Q2 := Q). rewrite from_list in Q2 by (auto; apply not_negative; auto). injection Q2 as Q2. 
  set (C := pcmax s) in *. set (T := ptmax s) in *. pose proof huge_big as HB.
  assert (HT : val (fdiv64 T two64) = val T / 2). { apply halved_exact; auto. right. rewrite Rabs_pos_eq; auto. }
  apply Exists_exists in PE as (t1 & I1 & V1). apply In_nth_error in I1 as (j & J).
  assert (K : forall i c t, nth_error (pcamber s) i = Some c -> nth_error (pthick s) i = Some t ->
    real (point_up C T c t) = real (off64 T t) /\ real (point_down C T c t) = - real (off64 T t) /\ 0 <= real (off64 T t) <= real T / 2 /\ (real t = 1 -> real (off64 T t) = real T / 2)).
  { intros i c t Hc Ht. pose proof (nth_of _ _ _ _ N2 Hc) as Fc. pose proof (nth_of _ _ _ _ N3 Ht) as Ft. pose proof (nth_of _ _ _ _ M3 Ht) as Bt. pose proof (nth_of _ _ _ _ Z Hc) as Zc. pose proof (nth_of _ _ _ _ P01 Ht) as Pt. cbn beta in *.
    destruct (point_symmetric C T c t NC NT Fc Ft Zc Bt) as (A & B). split; [exact A|]. split; [exact B|].
    destruct (halved T NT) as (Fh & _). unfold real in *. 
    destruct (fmul_fine (fdiv64 T two64) t Fh Ft) as (V & _). { rewrite HT, Rmult_comm. lra. }
    rewrite HT in V. fold (off64 T t) in V. 
    assert (R : rnd (val T / 2) = val T / 2) by (rewrite <- HT; apply rnd_exact, format_val).
    split; [split|].
    - rewrite V. apply rnd_nonneg. apply Rmult_le_pos; lra.
    - rewrite V. rewrite <- R at 2. apply rnd_le. rewrite <- (Rmult_1_r (val T / 2)) at 2. apply Rmult_le_compat_l; lra.
    - intros E. rewrite V, E, Rmult_1_r. exact R. }
  destruct L as (L1 & L2). pose proof (eq_sym Q2) as Q3. clear Q2.
  assert (Sym : map real (fydown q) = map Ropp (map real (fyup q))).
  { rewrite Q3. cbn [fyup fydown]. rewrite !map_map2. apply nth_error_same. intros i.
    destruct (nth_error (pcamber s) i) as [c|] eqn:Hc.
    - destruct (nth_error (pthick s) i) as [t|] eqn:Ht.
      + rewrite !(map2_nth _ _ _ _ _ _ _ _ _ Hc Ht). destruct (K i c t Hc Ht) as (A & B & _). rewrite A, B. reflexivity.
      + exfalso. apply nth_error_None in Ht. assert (i < length (pcamber s))%nat by (apply nth_error_Some; congruence). unfold b64 in *. lia.
    - apply nth_error_None in Hc. rewrite !(proj2 (nth_error_None _ _)); auto; rewrite map2_size by (unfold b64 in *; congruence); exact Hc. }
  assert (Cm : common_abscissae q) by (destruct Nq as (A & B & _); split; [|split]; auto; rewrite Xq; reflexivity).
  assert (NE : fxup q <> []). { intros E. rewrite E in Lq. cbn in Lq. assert (I : (j < length (pthick s))%nat) by (apply nth_error_Some; congruence). unfold b64 in *. lia. }
  destruct (sizes_gap q Sq NE) as (G1 & _). rewrite thickness_computed by auto.
  set (l := map2 (fun a b => fabs64 (fsub a b)) (fyup q) (fydown q)) in *.
  assert (E : forall i t, nth_error (pthick s) i = Some t -> exists g, nth_error l i = Some g /\ is_number g /\ real g <= real T /\ (real t = 1 -> real g = real T)).
  { intros i t Ht. assert (Li : (i < length (pthick s))%nat) by (apply nth_error_Some; congruence).
    destruct (nth_exists _ (pcamber s) i) as (c & Hc); [unfold b64 in *; congruence|]. destruct (K i c t Hc Ht) as (A & B & O & One).
    exists (fabs64 (fsub (point_up C T c t) (point_down C T c t))). split.
    { unfold l. rewrite Q3. cbn [fyup fydown]. rewrite map2_map2. exact (map2_nth _ _ _ (fun x y => fabs64 (fsub (point_up C T x y) (point_down C T x y))) _ _ _ _ _ Hc Ht). }
    destruct (points s N (conj L1 L2) M i c t Hc Ht) as (Fu & Fd & _). fold C T in Fu, Fd. unfold real, is_number in *.
    assert (T4 : val T / 2 <= huge / 4). { pose proof (nth_of _ _ _ _ M3 J) as Bj. cbn beta in Bj. unfold real in *. rewrite V1, Rmult_1_l, Rabs_pos_eq in Bj by lra. exact Bj. }
    destruct (fsub_ok _ _ Fu Fd) as (Vs & Fs). { rewrite A, B, Rabs_pos_eq by lra. lra. }
    rewrite fabs_finite, fabs_val, Vs, A, B. replace (val (off64 T t) - - val (off64 T t)) with (2 * val (off64 T t)) by ring.
    split; [exact Fs|]. assert (RT : rnd (val T) = val T) by apply rnd_exact, format_val. rewrite Rabs_pos_eq by (apply rnd_nonneg; lra). split.
    - rewrite <- RT. apply rnd_le. lra.
    - intros H1. rewrite One by exact H1. replace (2 * (val T / 2)) with (val T) by field. exact RT. }
  assert (LL : length l = length (pthick s)). { unfold l. destruct Sq as (S1 & S2 & S3). rewrite map2_size by (unfold b64 in *; congruence). unfold b64 in *. congruence. }
  assert (Fl : Forall is_number l).
  { apply Forall_forall. intros g I. apply In_nth_error in I as (i & I). assert (Li : (i < length (pthick s))%nat) by (rewrite <- LL; apply nth_error_Some; congruence).
    destruct (nth_exists _ _ _ Li) as (t & Ht). destruct (E i t Ht) as (g' & G & F & _). rewrite I in G. injection G as ->. exact F. }
  destruct (vmax64_finite l G1 Fl) as (t & Et & Ft & It & Mt). exists t. split; auto. split; auto. split; auto. split; auto.
  apply vmax_spec in Mt as (_ & Mt). apply Rle_antisym.
  - apply In_nth_error in It as (i & I). assert (Li : (i < length (pthick s))%nat) by (rewrite <- LL; apply nth_error_Some; congruence).
    destruct (nth_exists _ _ _ Li) as (ti & Ht). destruct (E i ti Ht) as (g' & G & _ & B & _). rewrite I in G. injection G as ->. exact B.
  - destruct (E j t1 J) as (g & G & _ & _ & B). rewrite <- (B V1). apply Mt. apply in_map. apply nth_error_In with j. exact G.
Qed.

(** NaN. *)
Lemma nan_mul_l : forall x y, is_nan64 x -> is_nan64 (fmul x y).
Proof. intros x y H. destruct x; try discriminate H. reflexivity. Qed.
Lemma nan_div_l : forall x y, is_nan64 x -> is_nan64 (fdiv64 x y).
Proof. intros x y H. destruct x; try discriminate H. reflexivity. Qed.
Lemma nan_add : forall x y, is_nan64 x \/ is_nan64 y -> is_nan64 (fadd x y).
Proof. intros x y [H|H]; [destruct x; try discriminate H; reflexivity|]. destruct y; try discriminate H. destruct x; reflexivity. Qed.
Lemma nan_minus : forall x y, is_nan64 x \/ is_nan64 y -> is_nan64 (fsub x y).
Proof. intros x y [H|H]; [destruct x; try discriminate H; reflexivity|]. destruct y; try discriminate H. destruct x; reflexivity. Qed.

Lemma nan_section : forall s, same_lengths s -> 
  (is_nan64 (pcmax s) \/ is_number (pcmax s) /\ 0 <= real (pcmax s)) -> (is_nan64 (ptmax s) \/ is_number (ptmax s) /\ 0 <= real (ptmax s)) ->
  exists q, from_parameters64 s = Ok q /\
    (is_nan64 (pcmax s) \/ is_nan64 (ptmax s) -> Forall is_nan64 (fyup q) /\ Forall is_nan64 (fydown q)) /\
    (is_nan64 (plen s) -> Forall is_nan64 (fxup q) /\ Forall is_nan64 (fxdown q)).
Proof.
  assert (K : forall x, is_nan64 x \/ is_number x /\ 0 <= real x -> Bltb x zero64 = false).
  { intros x [H|(F & P)]; [destruct x; try discriminate H; reflexivity|apply not_negative; auto]. }
  intros s L HC HT. eexists. split; [apply from_list; auto|]. cbn [fxup fxdown fyup fydown]. split.
  - intros H. assert (B : forall c t, is_nan64 (mid64 (pcmax s) c) \/ is_nan64 (off64 (ptmax s) t)).
    { intros c t. destruct H as [H|H]; [left; apply nan_mul; auto|right; apply nan_mul_l, nan_div_l; auto]. }
    split; apply nth_both; intros i c t _ _; [apply nan_add|apply nan_minus]; apply B.
  - intros H. assert (Forall is_nan64 (map (fun c => fmul c (plen s)) (pchord s))).
    { apply Forall_forall. intros x I. apply in_map_iff in I as (c & <- & _). apply nan_mul; auto. }
    auto.
Qed.

(** Thickness 0.1 and camber 0.1 give a section that is not 0.1 thick. *)
Definition cambered : fparams := mkFP [zero64; f1; two64] [zero64; f1; zero64] [zero64; f1; zero64] f01 f01 f1.
Definition cambered_thickness : option SpecFloat.spec_float :=
  match from_parameters64 cambered with Ok q => match max_thickness64 q with Ok t => Some (B2SF t) | Err _ => None end | Err _ => None end.
Lemma cambered_result : cambered_thickness = Some (SpecFloat.S754_finite false 7205759403792795 (-56)).
Proof. vm_compute. reflexivity. Qed.
Lemma f1_val : val f1 = 1.
Proof. unfold f1, B2R, F2R. cbn. lra. Qed.
Lemma f01_val : 1 / 16 <= val f01 <= 1 / 8.
Proof. unfold f01, B2R, F2R. cbn. lra. Qed.
Local Ltac each := repeat (apply Forall_cons; [|]); try apply Forall_nil.
Lemma cambered_fine : number_parameters cambered /\ same_lengths cambered /\ moderate cambered /\ 0 <= real (pcmax cambered) /\ 0 <= real (ptmax cambered) /\
  Forall (fun t => 0 <= real t <= 1) (pthick cambered) /\ Exists (fun t => real t = 1) (pthick cambered) /\
  real (hd zero64 (pthick cambered)) = 0 /\ real (last (pthick cambered) zero64) = 0 /\ Forall (fun c => Rabs (real c * real (pcmax cambered)) <= 1) (pcamber cambered).
Proof.
  pose proof huge_big as HB. pose proof f01_val as V. pose proof f1_val as V1. destruct two64_val as (V2 & _). assert (V0 : val zero64 = 0) by reflexivity.
  unfold cambered, number_parameters, same_lengths, moderate, real in *. cbn [pchord pcamber pthick pcmax ptmax plen hd last].
  split; [repeat split; repeat constructor|]. split; [split; reflexivity|].
  split; [split; [|split]; each; rewrite ?V0, ?V1, ?V2, Rabs_pos_eq; lra|].
  split; [lra|]. split; [lra|]. split; [each; rewrite ?V0, ?V1; lra|]. split; [right; left; exact V1|].
  split; [exact V0|]. split; [exact V0|]. each; rewrite ?V0, ?V1, Rabs_pos_eq; lra.
Qed.
Lemma cambered_refuted : exists s q t, number_parameters s /\ same_lengths s /\ moderate s /\ Forall (fun t => 0 <= real t <= 1) (pthick s) /\ Exists (fun t => real t = 1) (pthick s) /\
  from_parameters64 s = Ok q /\ max_thickness64 q = Ok t /\ real t <> real (ptmax s).
Proof.
  pose proof cambered_result as H. unfold cambered_thickness in H. destruct (from_parameters64 cambered) as [q|] eqn:E; [|discriminate].
  destruct (max_thickness64 q) as [t|] eqn:E2; [|discriminate]. exists cambered, q, t. destruct cambered_fine as (A & B & C & _ & _ & D & F & _).
  repeat (split; [assumption|]). assert (S : B2SF t = SpecFloat.S754_finite false 7205759403792795 (-56)) by congruence. apply sf_val in S. unfold real. rewrite S.
  unfold cambered, f01, B2R, F2R. cbn. lra.
Qed.
