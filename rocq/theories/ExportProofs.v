(** Proofs about the leading-edge curves. *)
From Coq Require Import Reals List ZArith Lra Lia Bool String.
From Coq Require Import List.
From Verif Require Import Base ProfileModel ProfileSpec ProfileProofs ProfileProofs2 BladeModel BladeSpec BladeProofs BladeProofs2 BladeProofs3 BladeProofs4 BladeProofs5 BladeProofs6 ExportModel ExportSpec.
Import ListNotations.
Open Scope R_scope.

(** ** argmin *)
Lemma argmin_from_spec : forall l best besti i,
  (argmin_from best besti i l = besti /\ forall j x, nth_error l j = Some x -> best <= x) \/
  (exists k x, argmin_from best besti i l = (i + k)%nat /\ nth_error l k = Some x /\ x < best /\
     (forall j y, nth_error l j = Some y -> x <= y) /\ (forall j y, (j < k)%nat -> nth_error l j = Some y -> x < y)).
Proof.
  induction l as [|a l IH]; intros best besti i; cbn [argmin_from].
  - left. split; auto. intros [|j] x H; discriminate.
  - destruct (Rlt_dec a best) as [H|H].
    + right. destruct (IH a i (S i)) as [(E & K)|(k & x & E & N & X & K1 & K2)]; rewrite E.
      * exists 0%nat, a. split; [lia|]. split; auto. split; auto. split.
        { intros [|j] y Hj; [injection Hj as <-; lra|apply (K j y Hj)]. }
        { intros j y Hj. lia. }
      * exists (S k), x. split; [lia|]. split; auto. split; [lra|]. split.
        { intros [|j] y Hj; [injection Hj as <-; lra|apply (K1 j y Hj)]. }
        { intros [|j] y Lj Hj; [injection Hj as <-; lra|]. apply (K2 j y); [lia|auto]. }
    + destruct (IH best besti (S i)) as [(E & K)|(k & x & E & N & X & K1 & K2)]; rewrite E.
      * left. split; auto. intros [|j] y Hj; [injection Hj as <-; lra|apply (K j y Hj)].
      * right. exists (S k), x. split; [lia|]. split; auto. split; auto. split.
        { intros [|j] y Hj; [injection Hj as <-; lra|apply (K1 j y Hj)]. }
        { intros [|j] y Lj Hj; [injection Hj as <-; lra|]. apply (K2 j y); [lia|auto]. }
Qed.

Lemma argmin_spec : forall l k, argmin l = Ok k -> exists x, nth_error l k = Some x /\
  (forall j y, nth_error l j = Some y -> x <= y) /\ (forall j y, (j < k)%nat -> nth_error l j = Some y -> x < y).
Proof.
  intros [|a l] k H; [discriminate|]. cbn [argmin] in H. injection H as <-.
  destruct (argmin_from_spec l a 0 1) as [(E & K)|(k & x & E & N & X & K1 & K2)]; rewrite E.
  - exists a. split; auto. split; [|intros; lia]. intros [|j] y Hj; [injection Hj as <-; lra|apply (K j y Hj)].
  - exists x. split; auto. split.
    + intros [|j] y Hj; [injection Hj as <-; lra|apply (K1 j y Hj)].
    + intros [|j] y Lj Hj; [injection Hj as <-; lra|]. apply (K2 j y); [lia|auto].
Qed.

Lemma argmin_ok : forall l, l <> [] -> exists k, argmin l = Ok k.
Proof. intros [|a l] H; [contradiction|]. cbn. eauto. Qed.

Lemma vmin_spec : forall l m, vmin l = Ok m -> In m l /\ forall x, In x l -> m <= x.
Proof.
  assert (F : forall l a, In (fold_left Rmin l a) (a :: l) /\ forall x, In x (a :: l) -> fold_left Rmin l a <= x).
  { induction l as [|b l IH]; intros a; cbn [fold_left].
    - split; [left; auto|]. intros x [->|[]]; lra.
    - destruct (IH (Rmin a b)) as (I & M). split.
      + destruct I as [I|I]; [|right; right; auto]. rewrite <- I. unfold Rmin. destruct (Rle_dec a b); [left|right; left]; auto.
      + intros x [<-|[<-|Hx]]; [| |apply M; right; auto];
          (eapply Rle_trans; [apply M; left; reflexivity|]); [apply Rmin_l|apply Rmin_r]. }
  intros [|a l] m H; [discriminate|]. injection H as <-. apply F.
Qed.

Lemma first_nearest_unique : forall xs t k k', first_nearest xs t k -> first_nearest xs t k' -> k = k'.
Proof.
  intros xs t k k' (x & N & M & S) (x' & N' & M' & S').
  destruct (Nat.lt_trichotomy k k') as [H|[H|H]]; auto.
  - specialize (S' _ _ H N). specialize (M _ _ N'). lra.
  - specialize (S _ _ H N'). specialize (M' _ _ N). lra.
Qed.

Lemma extent_unique : forall xs a b a' b', extent xs a b -> extent xs a' b' -> a = a' /\ b = b'.
Proof.
  intros xs a b a' b' (I & J & K) (I' & J' & K').
  pose proof (K _ I'). pose proof (K _ J'). pose proof (K' _ I). pose proof (K' _ J). lra.
Qed.

Lemma marked_unique : forall p k k', marked p k -> marked p k' -> k = k'.
Proof.
  intros p k k' (a & b & E & F) (a' & b' & E' & F'). destruct (extent_unique _ _ _ _ _ E E') as (<- & <-).
  eapply first_nearest_unique; eauto.
Qed.

Lemma le_index_marked : forall p k, le_index p = Ok k <-> marked p k.
Proof.
  assert (A : forall p k, le_index p = Ok k -> marked p k).
  { intros p k H. unfold le_index in H. apply bind_ok in H as (lo & H1 & H). apply bind_ok in H as (hi & H2 & H).
    apply vmin_spec in H1 as (I1 & M1). apply vmax_spec in H2 as (I2 & M2).
    exists lo, hi. split; [split; auto|].
    apply argmin_spec in H as (d & N & K1 & K2).
    rewrite nth_error_map in N. destruct (nth_error (xdown p) k) as [x|] eqn:E; [|discriminate]. injection N as <-.
    exists x. split; auto. split.
    - intros j y Hj. apply (K1 j). rewrite nth_error_map, Hj. reflexivity.
    - intros j y Lj Hj. apply (K2 j); auto. rewrite nth_error_map, Hj. reflexivity. }
  intros p k. split; [apply A|]. intros H.
  assert (NE : xdown p <> []).
  { destruct H as (lo & hi & (I & _) & _). intros Q. rewrite Q in I. destruct I. }
  assert (exists k', le_index p = Ok k') as (k' & E).
  { unfold le_index. destruct (xdown p) as [|x xs]; [contradiction|]. cbn [vmin vmax bind]. apply argmin_ok. discriminate. }
  rewrite E. f_equal. eapply marked_unique; eauto.
Qed.

(** ** The points *)
Lemma item_ok : forall {A} (l : list A) i x, item l i = Ok x <-> nth_error l i = Some x.
Proof. intros A l i x. unfold item. destruct (nth_error l i); split; congruence. Qed.

Lemma le_points_inv : forall st b up down ps, coordinates b = Built up down -> le_points st b = Ok ps ->
  List.length ps = List.length (sections b) /\
  forall i s, nth_error (sections b) i = Some s -> exists k ru rd pu pd, marked (st s) k /\
    nth_error up i = Some ru /\ nth_error down i = Some rd /\ nth_error ru k = Some pu /\ nth_error rd k = Some pd /\
    nth_error ps i = Some (scale3 1000 pu, scale3 1000 pd).
Proof.
  intros st b up down ps Hc H. unfold le_points in H. rewrite Hc in H.
  pose proof (mapM_nth _ _ _ H) as (L & N & _). rewrite seq_length in L. split; [auto|].
  intros i s Hs.
  assert (Li : (i < List.length (sections b))%nat) by (apply nth_error_Some; congruence).
  destruct (N i i) as (y & Y & F).
  { rewrite nth_error_nth' with (d := 0%nat) by (rewrite seq_length; auto). rewrite seq_nth; auto. }
  apply bind_ok in F as (s' & F1 & F). apply item_ok in F1. assert (s' = s) by congruence. subst s'.
  apply bind_ok in F as (k & F2 & F). apply le_index_marked in F2.
  apply bind_ok in F as (u & F3 & F). apply bind_ok in F as (d & F4 & F). injection F as <-.
  unfold le_point in F3, F4.
  apply bind_ok in F3 as (ru & A1 & F3). apply bind_ok in F3 as (pu & A2 & F3). injection F3 as <-.
  apply bind_ok in F4 as (rd & B1 & F4). apply bind_ok in F4 as (pd & B2 & F4). injection F4 as <-.
  exists k, ru, rd, pu, pd. apply item_ok in A1, A2, B1, B2. auto 10.
Qed.

Lemma nth_map_some : forall {A B} (f : A -> B) l k y, nth_error (map f l) k = Some y ->
  exists x, nth_error l k = Some x /\ y = f x.
Proof. intros A B f l k y H. rewrite nth_error_map in H. destruct (nth_error l k); [|discriminate]. injection H as <-. eauto. Qed.

(** Row i of the curves: the index of section i, the point of section n - 1 - i. *)
Lemma curve_points : forall refl st b st' b' ps, consistent b ->
  apply_transformations refl st b = (st', b', Ok tt) -> le_points st' b' = Ok ps ->
  List.length ps = List.length (sections b) /\
  forall i s r c P k sk si, station b i s r c P k sk ->
    nth_error (sections b) (List.length (sections b) - 1 - i) = Some si ->
    exists m au al, marked (st' si) m /\ nth_error (upper (st' s)) m = Some au /\ nth_error (lower (st' s)) m = Some al /\
      nth_error ps (List.length (sections b) - 1 - i) = Some (scale3 1000 (wrap r au), scale3 1000 (wrap r al)).
Proof.
  intros refl st b st' b' ps C HA H.
  destruct (apply_sections _ _ _ _ _ C HA) as ((SP & _) & _ & up & down & Hc & L1 & L2 & W).
  destruct (le_points_inv _ _ _ _ _ Hc H) as (L & N). rewrite <- SP in L, N. split; auto.
  intros i s r c P k sk si S Hs. destruct (N _ _ Hs) as (m & ru & rd & pu & pd & M & A1 & A2 & A3 & A4 & A5).
  destruct (W _ _ _ _ _ _ _ S) as (W1 & W2). rewrite W1 in A1. rewrite W2 in A2. injection A1 as <-. injection A2 as <-.
  apply nth_map_some in A3 as (au & A3 & ->). apply nth_map_some in A4 as (al & A4 & ->).
  exists m, au, al. auto.
Qed.

Lemma wrap_axis_distance : forall r a, axis_distance (scale3 1000 (wrap r a)) = 1000 * Rabs r.
Proof.
  intros r a. pose proof (wrap_on_cylinder r a) as Q. destruct (wrap r a) as [[x y] z]. destruct Q as (_ & Q). cbn.
  replace (1000 * y * (1000 * y) + 1000 * z * (1000 * z)) with ((1000 * r) * (1000 * r)) by (replace (1000 * r * (1000 * r)) with (1000 * 1000 * (y * y + z * z)) by (rewrite Q; ring); ring).
  change (1000 * r * (1000 * r)) with (Rsqr (1000 * r)). rewrite sqrt_Rsqr_abs, Rabs_mult, (Rabs_right 1000) by lra. reflexivity.
Qed.

Lemma curve_on_cylinder : forall refl st b st' b' ps, consistent b ->
  apply_transformations refl st b = (st', b', Ok tt) -> le_points st' b' = Ok ps ->
  forall i r u l, nth_error (radii b) i = Some r -> nth_error ps (List.length (sections b) - 1 - i) = Some (u, l) ->
    axis_distance u = 1000 * Rabs r /\ axis_distance l = 1000 * Rabs r.
Proof.
  intros refl st b st' b' ps C HA H i r u l Hr Hp.
  assert (Li : (i < List.length (sections b))%nat).
  { destruct C as (C & _). rewrite <- C. apply nth_error_Some. congruence. }
  destruct (consistent_station b i C Li) as (s & r' & c & P & k & sk & S).
  assert (r' = r) by (pose proof (st_radius _ _ _ _ _ _ _ _ S); congruence). subst r'.
  destruct (nth_error (sections b) (List.length (sections b) - 1 - i)) as [si|] eqn:Es; [|apply nth_error_None in Es; lia].
  destruct (curve_points _ _ _ _ _ _ C HA H) as (_ & K).
  destruct (K _ _ _ _ _ _ _ _ S Es) as (m & au & al & _ & _ & _ & E). rewrite Hp in E. injection E as -> ->.
  split; apply wrap_axis_distance.
Qed.

(** All sections mark the same position: every point is the one marked on its own
    section. *)
Lemma curve_same_index : forall refl st b st' b' ps m, consistent b ->
  apply_transformations refl st b = (st', b', Ok tt) -> le_points st' b' = Ok ps ->
  (forall s, In s (sections b) -> marked (st' s) m) ->
  forall i s r c P k sk, station b i s r c P k sk ->
    exists au al, nth_error (upper (st' s)) m = Some au /\ nth_error (lower (st' s)) m = Some al /\
      nth_error ps (List.length (sections b) - 1 - i) = Some (scale3 1000 (wrap r au), scale3 1000 (wrap r al)).
Proof.
  intros refl st b st' b' ps m C HA H A i s r c P k sk S.
  assert (Li : (i < List.length (sections b))%nat) by (apply nth_error_Some; rewrite (st_section _ _ _ _ _ _ _ _ S); discriminate).
  destruct (nth_error (sections b) (List.length (sections b) - 1 - i)) as [si|] eqn:Es; [|apply nth_error_None in Es; lia].
  destruct (curve_points _ _ _ _ _ _ C HA H) as (_ & K).
  destruct (K _ _ _ _ _ _ _ _ S Es) as (m' & au & al & M & N1 & N2 & E).
  assert (m' = m) by (eapply marked_unique; [exact M|apply A; eapply nth_error_In; eauto]). subst m'.
  exists au, al. auto.
Qed.

(** The points exist for sections of equal size. *)
Lemma le_points_total : forall st b up down m, coordinates b = Built up down -> (0 < m)%nat ->
  List.length up = List.length (sections b) -> List.length down = List.length (sections b) ->
  (forall s, In s (sections b) -> List.length (xdown (st s)) = m) ->
  (forall row, In row (up ++ down) -> List.length row = m) ->
  exists ps, le_points st b = Ok ps.
Proof.
  intros st b up down m Hc Hm L1 L2 S G. unfold le_points. rewrite Hc. apply mapM_total.
  intros i Hi. apply in_seq in Hi. destruct (nth_error (sections b) i) as [s|] eqn:Es; [|apply nth_error_None in Es; lia].
  unfold item at 1. rewrite Es. cbn [bind].
  assert (Ls : List.length (xdown (st s)) = m) by (apply S; eapply nth_error_In; eauto).
  assert (exists k, le_index (st s) = Ok k) as (k & Ek).
  { unfold le_index. destruct (xdown (st s)) as [|x xs]; [simpl in Ls; lia|]. cbn [vmin vmax bind]. apply argmin_ok. discriminate. }
  rewrite Ek. cbn [bind]. apply le_index_marked in Ek as (lo & hi & _ & x & N & _).
  assert (Lk : (k < m)%nat) by (rewrite <- Ls; apply nth_error_Some; congruence).
  assert (P : forall g, List.length g = List.length (sections b) -> (forall row, In row g -> List.length row = m) ->
     exists p, le_point g i k = Ok p).
  { intros g Lg Hg. unfold le_point, item. destruct (nth_error g i) as [row|] eqn:Eg; [|apply nth_error_None in Eg; lia]. cbn [bind].
    assert (List.length row = m) by (apply Hg; eapply nth_error_In; eauto).
    destruct (nth_error row k) as [p|] eqn:Er; [|apply nth_error_None in Er; lia]. cbn [bind]. eauto. }
  destruct (P up L1) as (u & ->); [intros; apply G, in_or_app; auto|].
  destruct (P down L2) as (d & ->); [intros; apply G, in_or_app; auto|]. cbn [bind]. eauto.
Qed.
