(** Proofs about array identity. *)
From Coq Require Import Reals List ZArith Lra Lia.
From Verif Require Import Base ProfileModel CustomModel PpgModel ProfileProofs HeapModel HeapSpec.
Import ListNotations.
Open Scope R_scope.

Lemma store_length h a v : List.length (store_at h a v) = List.length h.
Proof. revert a; induction h as [|x h IH]; intros [|a]; simpl; auto. Qed.

Lemma store_same h a v : (a < List.length h)%nat -> nth_error (store_at h a v) a = Some v.
Proof. revert a; induction h as [|x h IH]; intros [|a] H; simpl in *; auto; try lia. apply IH; lia. Qed.

Lemma store_other h a b v : a <> b -> nth_error (store_at h a v) b = nth_error h b.
Proof. revert a b; induction h as [|x h IH]; intros [|a] [|b] H; simpl; auto; congruence. Qed.

(** The effect of one in-place operation on an array. *)
Definition touch (g : R -> R) (a b : nat) (v : array) : array :=
  if Nat.eqb a b then mkArray (kind v) (map g (data v)) else v.

Lemma touch_kind g a b v : kind (touch g a b v) = kind v.
Proof. unfold touch. destruct (Nat.eqb a b); auto. Qed.

Lemma inplace_float f v fld h o :
  is_float h (fld o) ->
  exists h', inplace f v fld (h, o) = ((h', o), Ok tt) /\ List.length h' = List.length h /\
    forall b, nth_error h' b = option_map (touch (fun x => f x (num_value v)) (fld o) b) (nth_error h b).
Proof.
  intros [l E]. unfold inplace. cbn [fst snd]. rewrite E. cbn [kind].
  exists (store_at h (fld o) (mkArray Float64 (map (fun x => f x (num_value v)) l))).
  split; [reflexivity|]. split; [apply store_length|].
  intros b. unfold touch. destruct (Nat.eqb_spec (fld o) b) as [<-|N].
  - rewrite store_same, E; auto. apply nth_error_Some. congruence.
  - rewrite store_other by auto. destruct (nth_error h b); reflexivity.
Qed.

(** Same addresses are float in both heaps. *)
Lemma touched_float h h' g a : (forall b, nth_error h' b = option_map (touch g a b) (nth_error h b)) ->
  forall b, is_float h b -> is_float h' b.
Proof.
  intros H b [l E]. unfold is_float. rewrite H, E. simpl. unfold touch.
  destruct (Nat.eqb a b); simpl; eauto.
Qed.

Lemma then_ok m k s s' : m s = (s', Ok tt) -> then_ m k s = k s'.
Proof. intros E. unfold then_. rewrite E. reflexivity. Qed.

Definition touch4 (g1 g2 g3 g4 : R -> R) (o : object) (b : nat) (v : array) : array :=
  touch g4 (ayd o) b (touch g3 (ayu o) b (touch g2 (axd o) b (touch g1 (axu o) b v))).

Lemma option_map_map {A B C} (f : A -> B) (g : B -> C) (x : option A) :
  option_map g (option_map f x) = option_map (fun a => g (f a)) x.
Proof. destruct x; reflexivity. Qed.

Lemma four_inplace f v1 v2 v3 v4 h o :
  Forall (is_float h) (addresses o) ->
  exists h', (inplace f v1 axu ;; inplace f v2 axd ;; inplace f v3 ayu ;; inplace f v4 ayd) (h, o)
             = ((h', o), Ok tt) /\ List.length h' = List.length h /\
    forall b, nth_error h' b =
      option_map (touch4 (fun x => f x (num_value v1)) (fun x => f x (num_value v2))
                         (fun x => f x (num_value v3)) (fun x => f x (num_value v4)) o b) (nth_error h b).
Proof.
  intros F. unfold addresses in F. rewrite !Forall_cons_iff in F. destruct F as (F1 & F2 & F3 & F4 & _).
  destruct (inplace_float f v1 axu h o F1) as (h1 & E1 & L1 & T1).
  pose proof (touched_float _ _ _ _ T1) as K1.
  destruct (inplace_float f v2 axd h1 o (K1 _ F2)) as (h2 & E2 & L2 & T2).
  pose proof (touched_float _ _ _ _ T2) as K2.
  destruct (inplace_float f v3 ayu h2 o (K2 _ (K1 _ F3))) as (h3 & E3 & L3 & T3).
  pose proof (touched_float _ _ _ _ T3) as K3.
  destruct (inplace_float f v4 ayd h3 o (K3 _ (K2 _ (K1 _ F4)))) as (h4 & E4 & L4 & T4).
  exists h4. split; [|split; [congruence|]].
  - rewrite (then_ok _ _ _ _ E1), (then_ok _ _ _ _ E2), (then_ok _ _ _ _ E3). exact E4.
  - intros b. rewrite T4, T3, T2, T1, !option_map_map. reflexivity.
Qed.

Lemma touch_hit g a v : touch g a a v = mkArray (kind v) (map g (data v)).
Proof. unfold touch. rewrite Nat.eqb_refl. reflexivity. Qed.
Lemma touch_miss g a b v : a <> b -> touch g a b v = v.
Proof. intros H. unfold touch. destruct (Nat.eqb_spec a b); congruence. Qed.

Lemma read_ok h o p : read (h, o) = Ok p <->
  exists k1 k2 k3 k4,
    nth_error h (axu o) = Some (mkArray k1 (xup p)) /\ nth_error h (axd o) = Some (mkArray k2 (xdown p)) /\
    nth_error h (ayu o) = Some (mkArray k3 (yup p)) /\ nth_error h (ayd o) = Some (mkArray k4 (ydown p)).
Proof.
  unfold read, contents. cbn [fst snd]. split.
  - destruct (nth_error h (axu o)) as [[k1 l1]|]; [|discriminate]. cbn [bind data].
    destruct (nth_error h (axd o)) as [[k2 l2]|]; [|discriminate]. cbn [bind data].
    destruct (nth_error h (ayu o)) as [[k3 l3]|]; [|discriminate]. cbn [bind data].
    destruct (nth_error h (ayd o)) as [[k4 l4]|]; [|discriminate]. cbn [bind data].
    intros [= <-]. cbn. exists k1, k2, k3, k4. auto.
  - intros (k1 & k2 & k3 & k4 & E1 & E2 & E3 & E4). rewrite E1, E2, E3, E4. destruct p; reflexivity.
Qed.

Lemma owns_distinct h o : owns h o ->
  axu o <> axd o /\ axu o <> ayu o /\ axu o <> ayd o /\ axd o <> ayu o /\ axd o <> ayd o /\ ayu o <> ayd o.
Proof.
  intros [N _]. unfold addresses in N.
  inversion N as [|? ? N1 N2]; subst. inversion N2 as [|? ? N3 N4]; subst. inversion N4 as [|? ? N5 N6]; subst.
  cbn in N1, N3, N5. clear -N1 N3 N5. repeat split; intro E; symmetry in E; tauto.
Qed.

Lemma owns_read h o : owns h o -> exists p, read (h, o) = Ok p.
Proof.
  intros [_ F]. unfold addresses in F. rewrite !Forall_cons_iff in F. destruct F as ([l1 F1] & [l2 F2] & [l3 F3] & [l4 F4] & _).
  exists (mkProfile l1 l2 l3 l4). apply read_ok. cbn. eauto 10.
Qed.

(** Four in-place operations on distinct arrays. *)
Lemma four_read f v1 v2 v3 v4 h o p :
  owns h o -> read (h, o) = Ok p ->
  exists h', (inplace f v1 axu ;; inplace f v2 axd ;; inplace f v3 ayu ;; inplace f v4 ayd) (h, o)
             = ((h', o), Ok tt) /\ List.length h' = List.length h /\ owns h' o /\
    read (h', o) = Ok (mkProfile (map (fun x => f x (num_value v1)) (xup p)) (map (fun x => f x (num_value v2)) (xdown p))
                                 (map (fun x => f x (num_value v3)) (yup p)) (map (fun x => f x (num_value v4)) (ydown p))) /\
    forall b, ~ In b (addresses o) -> nth_error h' b = nth_error h b.
Proof.
  intros O Rd. pose proof (owns_distinct _ _ O) as (D1 & D2 & D3 & D4 & D5 & D6).
  destruct O as [N F].
  destruct (four_inplace f v1 v2 v3 v4 h o F) as (h' & E & L & T).
  exists h'. split; [exact E|]. split; [exact L|]. split; [|split].
  - split; [exact N|]. apply Forall_forall. intros b Hb. rewrite Forall_forall in F. destruct (F b Hb) as [l El].
    unfold is_float. rewrite T, El. cbn [option_map].
    set (w := touch4 _ _ _ _ o b _).
    assert (K : kind w = Float64) by (unfold w, touch4; rewrite !touch_kind; reflexivity).
    destruct w as [k d]. cbn in K. subst k. eauto.
  - apply read_ok in Rd. destruct Rd as (k1 & k2 & k3 & k4 & E1 & E2 & E3 & E4).
    apply read_ok. exists k1, k2, k3, k4. rewrite !T, E1, E2, E3, E4. cbn [option_map xup xdown yup ydown].
    unfold touch4. repeat split; f_equal;
      repeat (rewrite touch_hit || rewrite touch_miss by auto); reflexivity.
  - intros b Hb. rewrite T. unfold addresses in Hb. cbn in Hb.
    destruct (nth_error h b) as [v|]; [|reflexivity]. cbn [option_map]. unfold touch4.
    rewrite !touch_miss by (intro; apply Hb; auto). reflexivity.
Qed.

Lemma two_inplace f v3 v4 h o :
  is_float h (ayu o) -> is_float h (ayd o) ->
  exists h', (inplace f v3 ayu ;; inplace f v4 ayd) (h, o) = ((h', o), Ok tt) /\ List.length h' = List.length h /\
    forall b, nth_error h' b =
      option_map (fun v => touch (fun x => f x (num_value v4)) (ayd o) b (touch (fun x => f x (num_value v3)) (ayu o) b v)) (nth_error h b).
Proof.
  intros F3 F4.
  destruct (inplace_float f v3 ayu h o F3) as (h1 & E1 & L1 & T1).
  pose proof (touched_float _ _ _ _ T1) as K1.
  destruct (inplace_float f v4 ayd h1 o (K1 _ F4)) as (h2 & E2 & L2 & T2).
  exists h2. split; [|split; [congruence|]].
  - rewrite (then_ok _ _ _ _ E1). exact E2.
  - intros b. rewrite T2, T1, option_map_map. reflexivity.
Qed.

Lemma two_read f v3 v4 h o p :
  owns h o -> read (h, o) = Ok p ->
  exists h', (inplace f v3 ayu ;; inplace f v4 ayd) (h, o) = ((h', o), Ok tt) /\ List.length h' = List.length h /\ owns h' o /\
    read (h', o) = Ok (mkProfile (xup p) (xdown p)
                                 (map (fun x => f x (num_value v3)) (yup p)) (map (fun x => f x (num_value v4)) (ydown p))) /\
    forall b, ~ In b (addresses o) -> nth_error h' b = nth_error h b.
Proof.
  intros O Rd. pose proof (owns_distinct _ _ O) as (D1 & D2 & D3 & D4 & D5 & D6).
  destruct O as [N F].
  destruct (two_inplace f v3 v4 h o) as (h' & E & L & T);
    [rewrite Forall_forall in F; apply F; cbn; auto|rewrite Forall_forall in F; apply F; cbn; auto|].
  exists h'. split; [exact E|]. split; [exact L|]. split; [|split].
  - split; [exact N|]. apply Forall_forall. intros b Hb. rewrite Forall_forall in F. destruct (F b Hb) as [l El].
    unfold is_float. rewrite T, El. cbn [option_map].
    set (w := touch _ (ayd o) b _).
    assert (K : kind w = Float64) by (unfold w; rewrite !touch_kind; reflexivity).
    destruct w as [k d]. cbn in K. subst k. eauto.
  - apply read_ok in Rd. destruct Rd as (k1 & k2 & k3 & k4 & E1 & E2 & E3 & E4).
    apply read_ok. exists k1, k2, k3, k4. rewrite !T, E1, E2, E3, E4. cbn [option_map xup xdown yup ydown].
    repeat split; f_equal;
      repeat (rewrite touch_hit || rewrite touch_miss by auto); reflexivity.
  - intros b Hb. rewrite T. unfold addresses in Hb. cbn in Hb.
    destruct (nth_error h b) as [v|]; [|reflexivity]. cbn [option_map].
    rewrite !touch_miss by (intro; apply Hb; auto). reflexivity.
Qed.

(** Allocation. *)
Lemma nth_new {A} (h l : list A) i : nth_error (h ++ l) (List.length h + i) = nth_error l i.
Proof. rewrite nth_error_app2 by lia. f_equal. lia. Qed.

Lemma nth_old {A} (h l : list A) b : (b < List.length h)%nat -> nth_error (h ++ l) b = nth_error h b.
Proof. intros H. apply nth_error_app1. exact H. Qed.

Lemma alloc4_reads p h h' o : alloc4 p h = (h', o) ->
  owns h' o /\ read (h', o) = Ok p /\ Forall (fun b => (List.length h <= b)%nat) (addresses o) /\
  exists l, h' = h ++ l.
Proof.
  unfold alloc4. intros [= <- <-].
  assert (E0 : forall l : heap, nth_error (h ++ l) (List.length h) = nth_error l 0).
  { intros l. rewrite <- (nth_new h l 0), Nat.add_0_r. reflexivity. }
  split; [|split; [|split]].
  - split.
    + unfold addresses; cbn. repeat constructor; cbn; lia.
    + unfold addresses; cbn [axu axd ayu ayd]. repeat constructor; unfold is_float.
      * rewrite E0. cbn. eauto.
      * rewrite nth_new. cbn. eauto.
      * rewrite nth_new. cbn. eauto.
      * rewrite nth_new. cbn. eauto.
  - apply read_ok. cbn [axu axd ayu ayd]. rewrite !nth_new, E0. cbn. eauto 10.
  - unfold addresses; cbn. repeat constructor; lia.
  - eauto.
Qed.

Lemma alloc_y_reads p h o h' o' q :
  alloc_y p (h, o) = (h', o') -> read (h, o) = Ok q -> owns h o -> xup p = xup q -> xdown p = xdown q ->
  owns h' o' /\ read (h', o') = Ok p /\
  axu o' = axu o /\ axd o' = axd o /\ (List.length h <= ayu o')%nat /\ (List.length h <= ayd o')%nat /\
  exists l, h' = h ++ l.
Proof.
  unfold alloc_y. cbn [fst snd]. intros [= <- <-] Rd O Hu Hd.
  pose proof (owns_distinct _ _ O) as D.
  assert (E0 : forall l : heap, nth_error (h ++ l) (List.length h) = nth_error l 0).
  { intros l. rewrite <- (nth_new h l 0), Nat.add_0_r. reflexivity. }
  apply read_ok in Rd. destruct Rd as (k1 & k2 & k3 & k4 & R1 & R2 & R3 & R4).
  destruct O as [N F]. unfold addresses in F. rewrite !Forall_cons_iff in F. destruct F as ([l1 F1] & [l2 F2] & _).
  assert (H1 : (axu o < List.length h)%nat) by (apply nth_error_Some; congruence).
  assert (H2 : (axd o < List.length h)%nat) by (apply nth_error_Some; congruence).
  split; [|split; [|cbn [axu axd ayu ayd]; repeat split; try lia; eauto]].
  - split.
    + unfold addresses; cbn [axu axd ayu ayd]. repeat constructor; cbn; lia.
    + unfold addresses; cbn [axu axd ayu ayd]. repeat constructor; unfold is_float.
      * rewrite nth_old by auto. eauto.
      * rewrite nth_old by auto. eauto.
      * rewrite E0. cbn. eauto.
      * rewrite nth_new. cbn. eauto.
  - apply read_ok. cbn [axu axd ayu ayd]. rewrite nth_new, E0, !nth_old by auto. cbn.
    rewrite R1, R2, Hu, Hd. eauto 10.
Qed.

(** deform_camber_line keeps the abscissae if it does not interpolate. *)
Lemma deform_keeps_x pc n p p' :
  deform_camber_line pc n p = Ok p' -> interpolates n p = false -> xup p' = xup p /\ xdown p' = xdown p.
Proof.
  unfold deform_camber_line, interpolates. intros H I.
  apply bind_ok in H. destruct H as [cl [Ec H]].
  apply bind_ok in H. destruct H as [n' [En H]]. rewrite En in I.
  apply bind_ok in H. destruct H as [q [Eq H]].
  destruct (truthy n'); [discriminate|]. injection Eq as <-.
  apply bind_ok in H. destruct H as [hf [_ H]]. apply bind_ok in H. destruct H as [yu [_ H]].
  apply bind_ok in H. destruct H as [yd [_ H]]. injection H as <-. auto.
Qed.
