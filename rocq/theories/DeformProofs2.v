(** The methods of the deformation object. *)
From Coq Require Import String Reals List ZArith Ascii Bool Lra Lia.
From Verif Require Import Base ProfileProofs RbfModel RbfProofs RbfProofs2 SolveModel SolveProofs BsplineModel BsplineSpec BsplineProofs BsplineProofs2
  LstsqModel LstsqSpec LstsqProofs TextModel TextProofs ParamsModel ParamsSpec ParamsProofs ParamsProofs2 ParamsProofs3 DeformModel DeformSpec DeformProofs.
Import ListNotations.
Open Scope R_scope.

Lemma at_same : forall {A} k (v : A) d, at_key (set_key k v d) k = v.
Proof. intros. rewrite at_set. destruct k; auto. Qed.
Lemma at_other : forall {A} k j (v : A) d, j <> k -> at_key (set_key k v d) j = at_key d j.
Proof. intros. rewrite at_set. destruct k, j; auto; congruence. Qed.
Lemma at_all : forall {A} k (v : A), at_key (same_for_all v) k = v.
Proof. intros A [] v; auto. Qed.

Lemma check_name_key : forall k, check_name (key_name k) = Ok k.
Proof. intros []; vm_compute; reflexivity. Qed.
Lemma check_name_inv : forall s k, check_name s = Ok k -> s = key_name k.
Proof.
  intros s k H. unfold check_name in H. destruct (find _ keys) as [k'|] eqn:E; [|discriminate]. injection H as <-.
  apply find_some in E. destruct E as [_ E]. unfold eqb_str in E. destruct (list_eq_dec ascii_dec s (key_name k')); [auto|discriminate].
Qed.
Lemma check_name_bad : forall s, (forall k, s <> key_name k) -> check_name s = Err ValueError.
Proof.
  intros s H. unfold check_name. destruct (find _ keys) as [k'|] eqn:E; auto. exfalso. apply find_some in E. destruct E as [_ E].
  unfold eqb_str in E. destruct (list_eq_dec ascii_dec s (key_name k')); [eapply H; eauto|discriminate].
Qed.
Lemma check_name_err : forall s e, check_name s = Err e -> e = ValueError /\ forall k, s <> key_name k.
Proof.
  intros s e H. split.
  - unfold check_name in H. destruct (find _ keys); congruence.
  - intros k ->. rewrite check_name_key in H. discriminate.
Qed.

Lemma near_some : forall s r tol p, near s r tol = Some p <-> first_near s r tol p.
Proof.
  induction s as [|q s IH]; intros r tol p; cbn [near].
  - split; [discriminate|]. intros (j & H & _). destruct j; discriminate.
  - destruct (Rlt_dec (Rabs (fst q - r)) tol) as [C|C].
    + split.
      * intros H; injection H as ->. exists 0%nat. split; auto. split; auto. intros; lia.
      * intros (j & H & N & M). destruct j; [simpl in H; auto|]. exfalso. specialize (M 0%nat q ltac:(lia) eq_refl). lra.
    + rewrite IH. split.
      * intros (j & H & N & M). exists (S j). split; auto. split; auto. intros i q' I E. destruct i; [simpl in E; injection E as <-; lra|]. apply (M i); auto; lia.
      * intros (j & H & N & M). destruct j; [simpl in H; injection H as <-; contradiction|]. exists j. split; auto. split; auto. intros i q' I E. apply (M (S i)); auto; lia.
Qed.
Lemma near_none : forall s r tol, near s r tol = None <-> no_near s r tol.
Proof.
  induction s as [|q s IH]; intros r tol; cbn [near].
  - split; auto. intros _ q [].
  - destruct (Rlt_dec (Rabs (fst q - r)) tol) as [C|C].
    + split; [discriminate|]. intros H. specialize (H q ltac:(left; auto)). lra.
    + rewrite IH. split.
      * intros H p [<-|P]; [lra|apply H; auto].
      * intros H p P. apply H. right; auto.
Qed.

Lemma set_item_spec : forall v i x, (i < length v)%nat -> exists w, set_item v i x = Ok w /\ length w = length v /\ nth i w 0 = x /\
  forall j, j <> i -> nth j w 0 = nth j v 0.
Proof.
  induction v as [|y v IH]; intros i x H; [simpl in H; lia|]. destruct i as [|i]; cbn [set_item].
  - eexists. split; eauto. split; auto. split; auto. intros [|j] N; auto. congruence.
  - destruct (IH i x ltac:(simpl in H; lia)) as (w & -> & L & A & B). cbn [bind]. eexists. split; eauto. split; [simpl; auto|]. split; auto.
    intros [|j] N; auto. simpl. apply B. lia.
Qed.

Lemma sample_radii_spec : forall s tol rs i v w o, length v = (i + length rs)%nat -> sample_radii s tol i rs v = (w, o) ->
  length w = length v /\
  exists n, ((o = Ok tt /\ n = length rs) \/ (o = Err ValueError /\ (n < length rs)%nat /\ near s (nth n rs 0) tol = None)) /\
    (forall j, (j < n)%nat -> exists p, near s (nth j rs 0) tol = Some p /\ nth (i + j) w 0 = snd p) /\
    (forall j, (j < i \/ i + n <= j)%nat -> nth j w 0 = nth j v 0).
Proof.
  intros s tol. induction rs as [|r rs IH]; intros i v w o L H; cbn [sample_radii] in H.
  - injection H as <- <-. split; auto. exists 0%nat. split; [left; auto|]. split; auto. intros; lia.
  - destruct (near s r tol) as [p|] eqn:N.
    + destruct (set_item_spec v i (snd p)) as (v' & E & L' & A & B); [simpl in L; lia|]. rewrite E in H.
      destruct (IH (S i) v' w o ltac:(simpl in L; lia) H) as (LW & n & C & S1 & S2). split; [congruence|]. exists (S n). split.
      * destruct C as [[-> ->]|(-> & C1 & C2)]; [left|right]; auto. split; auto. split; [simpl; lia|auto].
      * split.
        -- intros [|j] J. { exists p. split; auto. rewrite Nat.add_0_r. rewrite S2 by lia. auto. }
           destruct (S1 j ltac:(lia)) as (q & Q1 & Q2). exists q. split; auto. rewrite <- Q2. f_equal. lia.
        -- intros j J. rewrite S2 by lia. apply B. lia.
    + injection H as <- <-. split; auto. exists 0%nat. split; [right; simpl; auto with arith|]. split; auto. intros; lia.
Qed.

(** Inversion of each call. *)
Lemma control_inv : forall d name rbf d' o, compute_control_points d name rbf = (d', o) ->
  (o <> Ok tt /\ d' = d) \/
  exists k X Y cv, name = key_name k /\ o = Ok tt /\ radii R (param d) = Some X /\ at_key (parameters R (param d)) k = Some Y /\
    optimum_control_points X Y (at_key (degree R (param d)) k) (at_key (nbasis R (param d)) k) rbf = Ok cv /\ d' = set_control d k cv.
Proof.
  intros d name rbf d' o H. unfold compute_control_points in H. destruct (check_name name) as [k|e] eqn:C; [|injection H as <- <-; left; split; auto; discriminate].
  destruct (radii R (param d)) as [X|]; [|injection H as <- <-; left; split; auto; discriminate].
  destruct (at_key (parameters R (param d)) k) as [Y|] eqn:P; [|injection H as <- <-; left; split; auto; discriminate].
  unfold assign in H. destruct (optimum_control_points _ _ _ _ _) as [cv|e] eqn:O; injection H as <- <-; [|left; split; auto; discriminate].
  right. exists k, X, Y, cv. apply check_name_inv in C. auto 10.
Qed.
Lemma update_inv : forall d name d' o, update_control_points d name = (d', o) ->
  (o = Err ValueError /\ d' = d) \/
  exists k cv, name = key_name k /\ o = Ok tt /\ at_key (control d) k = Some cv /\ length cv = length (at_key (deformations R (param d)) k) /\
    d' = set_control d k (map2 (fun (p : pt) (y : R) => (fst p, snd p + y)) cv (at_key (deformations R (param d)) k)).
Proof.
  intros d name d' o H. unfold update_control_points in H. destruct (check_name name) as [k|e] eqn:C.
  2:{ destruct (check_name_err _ _ C) as [-> _]. injection H as <- <-; left; auto. }
  destruct (at_key (control d) k) as [cv|] eqn:E; [|injection H as <- <-; left; auto].
  destruct (Nat.eqb_spec (length cv) (length (at_key (deformations R (param d)) k))) as [L|L]; injection H as <- <-; [|left; auto].
  right. exists k, cv. apply check_name_inv in C. auto 10.
Qed.
Lemma spline_inv : forall d name d' o, generate_spline d name = (d', o) ->
  (o <> Ok tt /\ d' = d) \/
  exists k cv s, name = key_name k /\ o = Ok tt /\ at_key (control d) k = Some cv /\
    bspline2 cv (at_key (npoints R (param d)) k) (at_key (degree R (param d)) k) = Ok s /\ d' = set_curve d k s.
Proof.
  intros d name d' o H. unfold generate_spline in H. destruct (check_name name) as [k|e] eqn:C; [|injection H as <- <-; left; split; auto; discriminate].
  destruct (at_key (control d) k) as [cv|] eqn:E; [|injection H as <- <-; left; split; auto; discriminate].
  unfold assign in H. destruct (bspline2 _ _ _) as [s|e] eqn:O; injection H as <- <-; [|left; split; auto; discriminate].
  right. exists k, cv, s. apply check_name_inv in C. auto 10.
Qed.
Lemma deformed_inv : forall d name tol d' o, compute_deformed_parameters d name tol = (d', o) ->
  (o <> Ok tt /\ d' = d) \/
  exists k s rs v, name = key_name k /\ at_key (curve d) k = Some s /\ radii R (param d) = Some rs /\
    sample_radii s tol 0 rs (at_key (deformed d) k) = (v, o) /\ d' = set_deformed d k v.
Proof.
  intros d name tol d' o H. unfold compute_deformed_parameters in H. destruct (check_name name) as [k|e] eqn:C; [|injection H as <- <-; left; split; auto; discriminate].
  destruct (at_key (curve d) k) as [s|] eqn:E; [|injection H as <- <-; left; split; auto; discriminate].
  destruct (radii R (param d)) as [rs|] eqn:RR; [|injection H as <- <-; left; split; auto; discriminate].
  destruct (sample_radii s tol 0 rs (at_key (deformed d) k)) as [v o'] eqn:S. injection H as <- <-.
  right. exists k, s, rs, v. apply check_name_inv in C. auto 10.
Qed.

(** Frames and the invariant. *)
Lemma same_refl : forall k d, same_elsewhere k d d.
Proof. intros. split; auto. Qed.
Lemma same_trans : forall k a b c, same_elsewhere k a b -> same_elsewhere k b c -> same_elsewhere k a c.
Proof. intros k a b c [P1 Q1] [P2 Q2]. split; [congruence|]. intros j N. destruct (Q1 j N) as (A & B & C), (Q2 j N) as (A' & B' & C'). repeat split; congruence. Qed.
Lemma same_control : forall d k v, same_elsewhere k d (set_control d k v).
Proof. intros. split; auto. intros j N. cbn [set_control deformed control curve]. rewrite at_other by auto. auto. Qed.
Lemma same_curve : forall d k v, same_elsewhere k d (set_curve d k v).
Proof. intros. split; auto. intros j N. cbn [set_curve deformed control curve]. rewrite at_other by auto. auto. Qed.
Lemma same_deformed : forall d k v, same_elsewhere k d (set_deformed d k v).
Proof. intros. split; auto. intros j N. cbn [set_deformed deformed control curve]. rewrite at_other by auto. auto. Qed.

Lemma sound_control : forall d k cv, sound d -> Z.of_nat (length cv) = at_key (nbasis R (param d)) k -> sound (set_control d k cv).
Proof.
  intros d k cv (C & P & K) L. split; auto. split; auto. intros j. destruct (K j) as (K1 & K2 & K3). cbn [set_control deformed control curve param].
  split; auto. destruct (key_dec j k) as [->|N].
  - rewrite at_same. split; [intros v E; injection E as <-; auto|]. intros s E. destruct (K3 s E). split; auto. discriminate.
  - rewrite at_other by auto. auto.
Qed.
Lemma sound_curve : forall d k s, sound d -> Z.of_nat (length s) = at_key (npoints R (param d)) k -> at_key (control d) k <> None -> sound (set_curve d k s).
Proof.
  intros d k s (C & P & K) L N0. split; auto. split; auto. intros j. destruct (K j) as (K1 & K2 & K3). cbn [set_curve deformed control curve param].
  split; auto. destruct (key_dec j k) as [->|N].
  - rewrite at_same. split; auto. intros s' E; injection E as <-; auto.
  - rewrite at_other by auto. auto.
Qed.
Lemma sound_deformed : forall d k v, sound d -> length v = length (or_empty R (radii R (param d))) -> sound (set_deformed d k v).
Proof.
  intros d k v (C & P & K) L. split; auto. split; auto. intros j. destruct (K j) as (K1 & K2 & K3). cbn [set_deformed deformed control curve param].
  split; auto. destruct (key_dec j k) as [->|N]; [rewrite at_same|rewrite at_other by auto]; auto.
Qed.
Lemma bspline2_length : forall cv n dg s, bspline2 cv n dg = Ok s -> Z.of_nat (length s) = n.
Proof.
  intros cv n dg s H. pose proof (bspline2_inv _ _ _ _ H) as F. destruct (bspline2_ends cv n dg F) as (s' & E & L & _). rewrite E in H. injection H as <-. rewrite L.
  destruct F. lia.
Qed.

Lemma sound_calls : forall d, sound d ->
  (forall n r, sound (fst (compute_control_points d n r))) /\ (forall n, sound (fst (update_control_points d n))) /\
  (forall n, sound (fst (generate_spline d n))) /\ (forall n t, sound (fst (compute_deformed_parameters d n t))).
Proof.
  intros d S. split; [|split; [|split]].
  - intros n r. destruct (compute_control_points d n r) as [d' o] eqn:E. cbn [fst]. destruct (control_inv _ _ _ _ _ E) as [[_ ->]|(k & X & Y & cv & _ & _ & _ & _ & O & ->)]; auto.
    apply sound_control; auto. destruct (optimum_inv _ _ _ _ _ _ O) as (X' & Y' & _ & _ & _ & _ & L & _). auto.
  - intros n. destruct (update_control_points d n) as [d' o] eqn:E. cbn [fst]. destruct (update_inv _ _ _ _ E) as [[_ ->]|(k & cv & _ & _ & C & L & ->)]; auto.
    apply sound_control; auto. rewrite map2_length by auto. apply S. auto.
  - intros n. destruct (generate_spline d n) as [d' o] eqn:E. cbn [fst]. destruct (spline_inv _ _ _ _ E) as [[_ ->]|(k & cv & s & _ & _ & C & B & ->)]; auto.
    apply sound_curve; auto; [|congruence]. eapply bspline2_length; eauto.
  - intros n t. destruct (compute_deformed_parameters d n t) as [d' o] eqn:E. cbn [fst]. destruct (deformed_inv _ _ _ _ _ E) as [[_ ->]|(k & s & rs & v & _ & C & RR & SR & ->)]; auto.
    pose proof S as (_ & _ & K). destruct (K k) as (K1 & _). rewrite RR in K1. cbn [or_empty] in K1.
    apply sound_deformed; auto. rewrite RR. cbn [or_empty]. destruct (sample_radii_spec _ _ _ 0%nat _ _ _ K1 SR) as [L _]. congruence.
Qed.
Lemma param_calls : forall d,
  (forall n r, param (fst (compute_control_points d n r)) = param d) /\ (forall n, param (fst (update_control_points d n)) = param d) /\
  (forall n, param (fst (generate_spline d n)) = param d) /\ (forall n t, param (fst (compute_deformed_parameters d n t)) = param d).
Proof.
  intros d. split; [|split; [|split]].
  - intros n r. destruct (compute_control_points d n r) as [d' o] eqn:E. destruct (control_inv _ _ _ _ _ E) as [[_ ->]|(k & X & Y & cv & _ & _ & _ & _ & O & ->)]; auto.
  - intros n. destruct (update_control_points d n) as [d' o] eqn:E. destruct (update_inv _ _ _ _ E) as [[_ ->]|(k & cv & _ & _ & C & L & ->)]; auto.
  - intros n. destruct (generate_spline d n) as [d' o] eqn:E. destruct (spline_inv _ _ _ _ E) as [[_ ->]|(k & cv & s & _ & _ & C & B & ->)]; auto.
  - intros n t. destruct (compute_deformed_parameters d n t) as [d' o] eqn:E. destruct (deformed_inv _ _ _ _ _ E) as [[_ ->]|(k & s & rs & v & _ & C & RR & SR & ->)]; auto.
Qed.
(** The state after a sequence of two calls is reached through both. *)
Lemma then_do_inv : forall A B (m : run A) (f : deform -> A -> run B) (I : deform -> Prop),
  I (fst m) -> (forall d a, I d -> I (fst (f d a))) -> I (fst (then_do m f)).
Proof. intros A B [d [a|e]] f I H1 H2; simpl in *; auto. Qed.
Lemma compute_one_inv : forall (I : deform -> Prop) rbf tols d k,
  (forall d n r, I d -> I (fst (compute_control_points d n r))) -> (forall d n, I d -> I (fst (update_control_points d n))) ->
  (forall d n, I d -> I (fst (generate_spline d n))) -> (forall d n t, I d -> I (fst (compute_deformed_parameters d n t))) ->
  I d -> I (fst (compute_one rbf tols d k)).
Proof.
  intros I rbf tols d k A B C D H. unfold compute_one. apply then_do_inv; auto. intros d1 _ H1. apply then_do_inv; auto. intros d2 _ H2. apply then_do_inv; auto.
Qed.
Lemma compute_list_inv : forall (I : deform -> Prop) rbf tols ks d,
  (forall d n r, I d -> I (fst (compute_control_points d n r))) -> (forall d n, I d -> I (fst (update_control_points d n))) ->
  (forall d n, I d -> I (fst (generate_spline d n))) -> (forall d n t, I d -> I (fst (compute_deformed_parameters d n t))) ->
  I d -> I (fst (compute_list rbf tols d ks)).
Proof.
  intros I rbf tols ks. induction ks as [|k ks IH]; intros d A B C D H; cbn [compute_list]; auto.
  apply then_do_inv; [apply compute_one_inv; auto|]. intros d1 _ H1. auto.
Qed.
Lemma call_inv : forall d a, (param (fst (call d a)) = param d) /\ (sound d -> sound (fst (call d a))).
Proof.
  intros d a. split; destruct a; cbn [call]; try apply param_calls; try (intros S; apply (sound_calls d S)).
  - apply (compute_list_inv (fun e => param e = param d)); auto; intros; rewrite <- H; apply param_calls.
  - intros S. unfold compute_all. apply (compute_list_inv sound); auto; intros; apply sound_calls; auto.
Qed.
Lemma after_sound : forall d d', sound d -> after d d' -> param d' = param d /\ sound d'.
Proof.
  intros d d' S A. induction A as [|d1 a A [IH1 IH2]]; auto. split; [rewrite <- IH1|]; apply call_inv; auto.
Qed.

Lemma new_deform_sound : forall cd fs a fs' d, new_deform cd fs a = (fs', Ok d) -> sound d /\
  (forall k, at_key (control d) k = None /\ at_key (curve d) k = None /\
     at_key (deformed d) k = zeros (length (or_empty R (radii R (param d))))) /\
  exists f, a = AStr f /\ read_parameters R cd fs (new_params R cd) a = (fs', (param d, Ok tt)).
Proof.
  intros cd fs a fs' d H. unfold new_deform in H. destruct (read_parameters R cd fs (new_params R cd) a) as [fs1 [p [[]|e]]] eqn:E; [|discriminate].
  destruct (radii R p) as [r|] eqn:RR; [|discriminate]. injection H as <- <-. destruct a as [f|]; [|discriminate].
  destruct (read_inv _ _ _ _ _ _ _ E) as (C & P & _). cbn [param control curve deformed].
  split; [|split; [|eauto]].
  - split; auto. split; auto. intros k. cbn [deformed control curve]. rewrite !at_all. cbn [param]. rewrite RR. cbn [or_empty]. split; [apply zeros_length|]. split; discriminate.
  - intros k. rewrite !at_all, RR. auto.
Qed.

(** compute_all does not depend on what was stored. *)
Lemma sample_radii_same : forall s tol rs v1 v2 w1 w2 o1 o2, length v1 = length rs -> length v2 = length rs ->
  sample_radii s tol 0 rs v1 = (w1, o1) -> sample_radii s tol 0 rs v2 = (w2, o2) -> o1 = o2 /\ (o1 = Ok tt -> w1 = w2).
Proof.
  intros s tol rs v1 v2 w1 w2 o1 o2 L1 L2 H1 H2.
  destruct (sample_radii_spec _ _ _ 0%nat _ _ _ L1 H1) as (A1 & n1 & C1 & S1 & _). destruct (sample_radii_spec _ _ _ 0%nat _ _ _ L2 H2) as (A2 & n2 & C2 & S2 & _).
  destruct C1 as [[-> ->]|(-> & C1 & D1)], C2 as [[-> ->]|(-> & C2 & D2)].
  - split; auto. intros _. apply (nth_ext _ _ 0 0); [congruence|]. intros j J. rewrite A1, L1 in J.
    destruct (S1 j J) as (p & P1 & P2). destruct (S2 j J) as (q & Q1 & Q2). simpl in P2, Q2. congruence.
  - exfalso. destruct (S1 _ C2) as (p & P & _). congruence.
  - exfalso. destruct (S2 _ C1) as (p & P & _). congruence.
  - split; auto. discriminate.
Qed.
(** Two objects with the same parameter file and arrays of the right length. *)
Definition alike (d1 d2 : deform) : Prop :=
  param d1 = param d2 /\ forall k, length (at_key (deformed d1) k) = length (or_empty R (radii R (param d1))) /\
    length (at_key (deformed d2) k) = length (or_empty R (radii R (param d1))).
Lemma alike_refl_sound : forall d1 d2, sound d1 -> sound d2 -> param d1 = param d2 -> alike d1 d2.
Proof. intros d1 d2 (_ & _ & K1) (_ & _ & K2) E. split; auto. intros k. split; [apply K1|rewrite E; apply K2]. Qed.
Definition agree (k : key) (d1 d2 : deform) : Prop :=
  at_key (deformed d1) k = at_key (deformed d2) k /\ at_key (control d1) k = at_key (control d2) k /\ at_key (curve d1) k = at_key (curve d2) k.
Lemma compute_one_same : forall rbf tols k d1 d2 e1 e2 o1 o2, alike d1 d2 ->
  compute_one rbf tols d1 k = (e1, o1) -> compute_one rbf tols d2 k = (e2, o2) ->
  o1 = o2 /\ alike e1 e2 /\ (o1 = Ok tt -> agree k e1 e2).
Proof.
  intros rbf tols k d1 d2 e1 e2 o1 o2 [P L] H1 H2. unfold compute_one in H1, H2.
  destruct (compute_control_points d1 (key_name k) rbf) as [a1 q1] eqn:E1. destruct (compute_control_points d2 (key_name k) rbf) as [a2 q2] eqn:E2.
  unfold compute_control_points in E1, E2. rewrite check_name_key in E1, E2. rewrite <- P in E2.
  assert (ER : forall e, q1 = Err e -> a1 = d1 /\ a2 = d2 /\ q2 = Err e -> o1 = o2 /\ alike e1 e2 /\ (o1 = Ok tt -> agree k e1 e2)).
  { intros e -> (-> & -> & ->). cbn [then_do] in H1, H2. injection H1 as <- <-. injection H2 as <- <-. split; auto. split; [split; auto|discriminate]. }
  destruct (radii R (param d1)) as [X|] eqn:RR; [|injection E1 as <- <-; injection E2 as <- <-; eapply ER; eauto].
  destruct (at_key (parameters R (param d1)) k) as [Y|]; [|injection E1 as <- <-; injection E2 as <- <-; eapply ER; eauto].
  destruct (optimum_control_points _ _ _ _ _) as [cv|e]; cbn [assign] in E1, E2; [|injection E1 as <- <-; injection E2 as <- <-; eapply ER; eauto].
  clear ER. injection E1 as <- <-. injection E2 as <- <-. cbn [then_do] in H1, H2.
  assert (LC : forall c, alike (set_control d1 k c) (set_control d2 k c)) by (intros c; split; auto; cbn [set_control param deformed]; rewrite RR; auto).
  unfold update_control_points in H1, H2. rewrite check_name_key in H1, H2. cbn [set_control control param] in H1, H2. rewrite at_same in H1, H2. rewrite <- P in H2.
  destruct (Nat.eqb _ _); cbn [then_do] in H1, H2; [|injection H1 as <- <-; injection H2 as <- <-; split; auto; split; auto; discriminate].
  match type of H1 with then_do (generate_spline (set_control _ _ ?c) _) _ = _ => set (c2 := c) in * end. set (b1 := set_control (set_control d1 k cv) k c2) in *. set (b2 := set_control (set_control d2 k cv) k c2) in *.
  assert (CB1 : at_key (control b1) k = Some c2) by (unfold b1; cbn [set_control control]; rewrite at_same; auto).
  assert (CB2 : at_key (control b2) k = Some c2) by (unfold b2; cbn [set_control control]; rewrite at_same; auto).
  assert (PB1 : param b1 = param d1) by auto. assert (PB2 : param b2 = param d1) by (unfold b2; cbn [set_control param]; auto).
  assert (LB : alike b1 b2) by (split; [congruence|]; unfold b1, b2; cbn [set_control param deformed]; rewrite RR; auto).
  unfold generate_spline in H1, H2. rewrite check_name_key in H1, H2. rewrite CB1 in H1. rewrite CB2 in H2. rewrite PB1 in H1. rewrite PB2 in H2.
  destruct (bspline2 _ _ _) as [s|e]; cbn [assign then_do] in H1, H2; [|injection H1 as <- <-; injection H2 as <- <-; split; auto; split; auto; discriminate].
  unfold compute_deformed_parameters in H1, H2. rewrite check_name_key in H1, H2. cbn [set_curve curve param deformed] in H1, H2. rewrite at_same in H1, H2.
  rewrite PB1 in H1. rewrite PB2 in H2. rewrite RR in H1, H2.
  change (deformed b1) with (deformed d1) in H1. change (deformed b2) with (deformed d2) in H2.
  destruct (sample_radii s (at_key tols k) 0 X (at_key (deformed d1) k)) as [w1 r1] eqn:S1. destruct (sample_radii s (at_key tols k) 0 X (at_key (deformed d2) k)) as [w2 r2] eqn:S2.
  injection H1 as <- <-. injection H2 as <- <-. destruct (L k) as [L1 L2]. cbn [or_empty] in L1, L2.
  destruct (sample_radii_same _ _ _ _ _ _ _ _ _ L1 L2 S1 S2) as [-> W].
  destruct (sample_radii_spec _ _ _ 0%nat _ _ _ L1 S1) as [A1 _]. destruct (sample_radii_spec _ _ _ 0%nat _ _ _ L2 S2) as [A2 _].
  split; auto. split.
  - split; [cbn [set_deformed set_curve param]; congruence|]. intros j. cbn [set_deformed set_curve param deformed].
    change (deformed b1) with (deformed d1). change (deformed b2) with (deformed d2). rewrite PB1, RR. cbn [or_empty].
    destruct (key_dec j k) as [->|N]; [rewrite !at_same|rewrite !at_other by auto; apply L]. split; congruence.
  - intros O. specialize (W O). subst w2. unfold agree. cbn [set_deformed set_curve deformed control curve]. rewrite !at_same, CB1, CB2. auto.
Qed.
Lemma compute_one_frame : forall rbf tols k d, same_elsewhere k d (fst (compute_one rbf tols d k)).
Proof.
  intros rbf tols k d. unfold compute_one.
  assert (A : forall d r, same_elsewhere k d (fst (compute_control_points d (key_name k) r))).
  { clear. intros d r. destruct (compute_control_points d (key_name k) r) as [d' o] eqn:E. destruct (control_inv _ _ _ _ _ E) as [[_ ->]|(k' & X & Y & cv & K & _ & _ & _ & O & ->)]; [apply same_refl|].
    assert (k' = k) by (destruct k, k'; try reflexivity; discriminate). subst. apply same_control. }
  assert (B : forall d, same_elsewhere k d (fst (update_control_points d (key_name k)))).
  { clear. intros d. destruct (update_control_points d (key_name k)) as [d' o] eqn:E. destruct (update_inv _ _ _ _ E) as [[_ ->]|(k' & cv & K & _ & C & L & ->)]; [apply same_refl|].
    assert (k' = k) by (destruct k, k'; try reflexivity; discriminate). subst. apply same_control. }
  assert (C : forall d, same_elsewhere k d (fst (generate_spline d (key_name k)))).
  { clear. intros d. destruct (generate_spline d (key_name k)) as [d' o] eqn:E. destruct (spline_inv _ _ _ _ E) as [[_ ->]|(k' & cv & s & K & _ & C & B & ->)]; [apply same_refl|].
    assert (k' = k) by (destruct k, k'; try reflexivity; discriminate). subst. apply same_curve. }
  assert (D : forall d t, same_elsewhere k d (fst (compute_deformed_parameters d (key_name k) t))).
  { clear. intros d t. destruct (compute_deformed_parameters d (key_name k) t) as [d' o] eqn:E. destruct (deformed_inv _ _ _ _ _ E) as [[_ ->]|(k' & s & rs & v & K & _ & RR & SR & ->)]; [apply same_refl|].
    assert (k' = k) by (destruct k, k'; try reflexivity; discriminate). subst. apply same_deformed. }
  apply then_do_inv; auto. intros d1 _ H1. apply then_do_inv; [eapply same_trans; eauto|]. intros d2 _ H2.
  apply then_do_inv; [eapply same_trans; eauto|]. intros d3 _ H3. eapply same_trans; eauto.
Qed.
Lemma compute_list_same : forall rbf tols ks d1 d2 e1 e2 o1 o2, NoDup ks -> alike d1 d2 ->
  compute_list rbf tols d1 ks = (e1, o1) -> compute_list rbf tols d2 ks = (e2, o2) ->
  o1 = o2 /\ alike e1 e2 /\ (o1 = Ok tt -> forall k, In k ks \/ agree k d1 d2 -> agree k e1 e2).
Proof.
  intros rbf tols ks. induction ks as [|k ks IH]; intros d1 d2 e1 e2 o1 o2 ND A H1 H2; cbn [compute_list] in H1, H2.
  - injection H1 as <- <-. injection H2 as <- <-. split; auto. split; auto. intros _ k [[]|G]; auto.
  - destruct (compute_one rbf tols d1 k) as [a1 q1] eqn:E1. destruct (compute_one rbf tols d2 k) as [a2 q2] eqn:E2.
    pose proof (compute_one_frame rbf tols k d1) as F1. pose proof (compute_one_frame rbf tols k d2) as F2. rewrite E1 in F1. rewrite E2 in F2. cbn [fst] in F1, F2.
    destruct (compute_one_same _ _ _ _ _ _ _ _ _ A E1 E2) as (<- & A' & G). inversion ND; subst.
    destruct q1 as [[]|e]; cbn [then_do] in H1, H2; [|injection H1 as <- <-; injection H2 as <- <-; split; auto; split; auto; discriminate].
    destruct (IH _ _ _ _ _ _ H4 A' H1 H2) as (-> & A2 & G2). split; auto. split; auto. intros O j J. apply (G2 O).
    destruct (key_dec j k) as [->|N]; [right; auto|]. destruct J as [[J|J]|J]; [congruence|auto|]. right.
    destruct F1 as [_ F1], F2 as [_ F2]. destruct (F1 j N) as (X1 & X2 & X3), (F2 j N) as (Y1 & Y2 & Y3). destruct J as (J1 & J2 & J3).
    repeat split; congruence.
Qed.
Lemma deform_ext : forall a b, param a = param b -> deformed a = deformed b -> control a = control b -> curve a = curve b -> a = b.
Proof. intros [] []. simpl. congruence. Qed.
Lemma keys_nodup : NoDup keys.
Proof. repeat constructor; simpl; intuition discriminate. Qed.
Lemma compute_all_same : forall rbf tols d1 d2, sound d1 -> sound d2 -> param d1 = param d2 ->
  snd (compute_all d1 rbf tols) = snd (compute_all d2 rbf tols) /\
  (snd (compute_all d1 rbf tols) = Ok tt -> fst (compute_all d1 rbf tols) = fst (compute_all d2 rbf tols)).
Proof.
  intros rbf tols d1 d2 S1 S2 E. unfold compute_all. destruct (compute_list rbf tols d1 keys) as [e1 o1] eqn:H1. destruct (compute_list rbf tols d2 keys) as [e2 o2] eqn:H2.
  destruct (compute_list_same _ _ _ _ _ _ _ _ _ keys_nodup (alike_refl_sound _ _ S1 S2 E) H1 H2) as (O & [P _] & G). cbn [fst snd]. split; auto.
  intros OK. specialize (G OK). apply deform_ext; auto; apply dict_ext; intros k; destruct (G k (or_introl (in_keys k))) as (G1 & G2 & G3); auto.
Qed.
