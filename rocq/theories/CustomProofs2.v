(** Lemmas about the conversions between coordinates and parameters. *)
From Coq Require Import Reals List ZArith String Lra Lia.
From Verif Require Import Base SolveProofs ProfileModel ProfileSpec ProfileProofs ProfileProofs2 CustomModel CustomSpec CustomProofs.
Import ListNotations.
Open Scope R_scope.

Lemma vmin_spec : forall l m, vmin l = Ok m <-> (In m l /\ forall x, In x l -> m <= x).
Proof.
  assert (A : forall l x, (In (fold_left Rmin l x) (x :: l)) /\ forall y, In y (x :: l) -> fold_left Rmin l x <= y).
  { induction l as [|a l IH]; intros x; simpl.
    - split; auto. intros y [->|[]]; lra.
    - destruct (IH (Rmin x a)) as [I L]. split.
      + destruct I as [E|I]; auto. rewrite <- E. unfold Rmin. destruct (Rle_dec x a); auto.
      + intros y [->|[->|Hy]].
        * eapply Rle_trans; [apply L; left; reflexivity|apply Rmin_l].
        * eapply Rle_trans; [apply L; left; reflexivity|apply Rmin_r].
        * apply L; right; auto. }
  intros l m. destruct l as [|x l]; simpl.
  - split; [discriminate|intros [[] _]].
  - destruct (A l x) as [I L]. split.
    + intros H. injection H as <-. split; auto.
    + intros [Im Hm]. f_equal. apply Rle_antisym; [apply L; auto|apply Hm; auto].
Qed.
Lemma vmin_ok : forall l, l <> [] -> exists m, vmin l = Ok m.
Proof. destruct l; [congruence|simpl; eauto]. Qed.

Lemma vdiv_inv : forall v c w, vdiv v c = Ok w -> v <> [] -> c <> 0 /\ w = map (fun x => x / c) v.
Proof.
  intros v c w H N. assert (C : c <> 0).
  { destruct v as [|a v]; [congruence|]. unfold vdiv in H; simpl in H. unfold fdiv in H at 1.
    destruct (Req_EM_T c 0); [discriminate|auto]. }
  split; auto. revert w H. clear N. induction v as [|a v IH]; intros w H; unfold vdiv in *; simpl in H.
  - injection H as <-; auto.
  - unfold fdiv in H at 1. destruct (Req_EM_T c 0); [contradiction|]. cbn [bind] in H.
    apply bind_ok in H. destruct H as [bs [E H]]. injection H as <-. rewrite (IH _ E). auto.
Qed.
Lemma vdiv_ok : forall v c, c <> 0 -> vdiv v c = Ok (map (fun x => x / c) v).
Proof.
  intros v c C. unfold vdiv. induction v as [|a v IH]; auto. simpl. unfold fdiv at 1.
  destruct (Req_EM_T c 0); [contradiction|]. cbn [bind]. rewrite IH. auto.
Qed.

Section A.
Variable american : profile -> R -> list R -> R -> list R -> res (list R).
Notation gp := (generate_parameters american "british").

Lemma gp_inv : forall p q, gp p = Ok q ->
  exists le te mn cm tm, update_edges p = Ok (le, te) /\ vmin (xup p) = Ok mn /\
    chord_length q = pdist le te /\ chord_length q <> 0 /\
    chord_percentage q = map (fun x => (x - mn) / chord_length q) (xup p) /\
    List.length (yup p) = List.length (ydown p) /\ vmax (mean (yup p) (ydown p)) = Ok cm /\ camber_max q = Rabs cm /\
    camber_percentage q = (if Req_EM_T (Rabs cm) 0 then zeros (List.length (xup p))
                           else map (fun x => x / Rabs cm) (mean (yup p) (ydown p))) /\
    vmax (gap (yup p) (ydown p)) = Ok tm /\ thickness_max q = tm /\
    thickness_percentage q = (if Req_EM_T tm 0 then zeros (List.length (xup p))
                              else map (fun x => x / tm) (gap (yup p) (ydown p))).
Proof.
  intros p q H. unfold generate_parameters in H. cbn [String.eqb Ascii.eqb Bool.eqb] in H.
  apply bind_ok in H. destruct H as [[[lx ly] [tx ty]] [Ee H]].
  apply bind_ok in H. destruct H as [mn [Emn H]].
  apply bind_ok in H. destruct H as [cp [Ecp H]].
  apply bind_ok in H. destruct H as [cam [Ecam H]]. apply vzip_inv in Ecam. destruct Ecam as [L ->].
  apply bind_ok in H. destruct H as [cm [Ecm H]].
  apply bind_ok in H. destruct H as [cap [Ecap H]].
  change (String.eqb "british" "british") with true in H. cbv iota in H.
  apply bind_ok in H. destruct H as [th [Eth H]]. apply vzip_inv in Eth. destruct Eth as [_ ->].
  apply bind_ok in H. destruct H as [tm [Etm H]].
  apply bind_ok in H. destruct H as [tp [Etp H]]. injection H as <-. simpl.
  assert (N : xup p <> []) by (destruct (xup p); [discriminate|discriminate]).
  apply vdiv_inv in Ecp; [|destruct (xup p); [congruence|discriminate]]. destruct Ecp as [C ->].
  exists (lx, ly), (tx, ty), mn, cm, tm.
  assert (NC : mean (yup p) (ydown p) <> []) by (intros E; unfold mean in E; rewrite E in Ecm; discriminate).
  assert (NT : gap (yup p) (ydown p) <> []) by (intros E; unfold gap in E; rewrite E in Etm; discriminate).
  split; [auto|]. split; [auto|]. split; [reflexivity|]. split; [auto|].
  split; [rewrite map_map; auto|]. split; [auto|]. split; [auto|]. split; [auto|]. split.
  { destruct (Req_EM_T (Rabs cm) 0); [congruence|]. apply vdiv_inv in Ecap; auto. tauto. }
  split; [auto|]. split; [auto|].
  destruct (Req_EM_T tm 0); [congruence|]. apply vdiv_inv in Etp; auto. tauto.
Qed.

Lemma gp_ok : forall p le te, update_edges p = Ok (le, te) -> le <> te -> uniform p -> exists q, gp p = Ok q.
Proof.
  intros p le te E D (U1 & U2 & U3). unfold generate_parameters. rewrite E. cbn [bind].
  destruct le as [lx ly], te as [tx ty].
  assert (N : xup p <> []) by (intros Z; unfold update_edges in E; rewrite Z in E; discriminate).
  destruct (vmin_ok _ N) as [mn ->]. cbn [bind].
  assert (C : norm2 (lx - tx) (ly - ty) <> 0).
  { unfold norm2. intros Z. apply D.
    pose proof (Rle_0_sqr (lx - tx)) as P1. pose proof (Rle_0_sqr (ly - ty)) as P2. unfold Rsqr in P1, P2.
    apply sqrt_eq_0 in Z; [|lra].
    assert (lx - tx = 0) by (apply Rsqr_0_uniq; unfold Rsqr; lra).
    assert (ly - ty = 0) by (apply Rsqr_0_uniq; unfold Rsqr; lra). f_equal; lra. }
  rewrite vdiv_ok by auto. cbn [bind]. rewrite vzip_ok by lia. cbn [bind].
  assert (NC : map2 (fun a b => (a + b) / 2) (yup p) (ydown p) <> []).
  { destruct (yup p), (ydown p); simpl in *; try discriminate; destruct (xup p), (xdown p); simpl in *; congruence. }
  destruct (vmax_ok _ NC) as [cm ->]. cbn [bind].
  assert (exists w, (if Req_EM_T (Rabs cm) 0 then Ok (zeros (List.length (xup p)))
     else vdiv (map2 (fun a b => (a + b) / 2) (yup p) (ydown p)) (Rabs cm)) = Ok w) as [w ->].
  { destruct (Req_EM_T (Rabs cm) 0); [eauto|]. rewrite vdiv_ok; eauto. }
  cbn [bind]. change (String.eqb "british" "british") with true. cbv iota.
  rewrite vzip_ok by lia. cbn [bind].
  assert (NT : map2 (fun a b => Rabs (a - b)) (yup p) (ydown p) <> []).
  { destruct (yup p), (ydown p); simpl in *; try discriminate; destruct (xup p), (xdown p); simpl in *; congruence. }
  destruct (vmax_ok _ NT) as [tm ->]. cbn [bind].
  destruct (Req_EM_T tm 0); [cbn [bind]; eauto|]. rewrite vdiv_ok by auto. cbn [bind]. eauto.
Qed.

Lemma map_id_in : forall (f : R -> R) l, map f l = l <-> (forall x, In x l -> f x = x).
Proof.
  intros f l. induction l as [|a l IH]; simpl; [tauto|]. split.
  - intros H. injection H as H1 H2. intros x [<-|I]; auto. apply IH; auto.
  - intros H. f_equal; [apply H; auto|apply IH; auto].
Qed.

Lemma map_zero : forall (f : R -> R) l, (forall x, In x l -> f x = 0) -> map f l = zeros (List.length l).
Proof. induction l as [|a l IH]; intros H; simpl; auto. unfold zeros in *. simpl. f_equal; [apply H; left; auto|apply IH; intros; apply H; right; auto]. Qed.
Lemma zeros_scale : forall k n, map (fun x => x * k) (zeros n) = zeros n.
Proof. intros. induction n; simpl; auto. unfold zeros in *. simpl. rewrite IHn. f_equal. lra. Qed.
Lemma zeros_scale_l : forall k n, map (fun x => k * x) (zeros n) = zeros n.
Proof. intros. induction n; simpl; auto. unfold zeros in *. simpl. rewrite IHn. f_equal. lra. Qed.

(** Half thickness rebuilt from the parameters. *)
Lemma half_gap : forall a b tm n, List.length a = List.length b -> List.length a = n -> vmax (gap a b) = Ok tm ->
  map (fun t => tm / 2 * t) (if Req_EM_T tm 0 then zeros n else map (fun x => x / tm) (gap a b)) = map (fun g => g / 2) (gap a b).
Proof.
  intros a b tm n L1 L2 H. destruct (Req_EM_T tm 0) as [Z|Z].
  - rewrite zeros_scale_l. symmetry. replace n with (List.length (gap a b)) by (unfold gap; rewrite map2_length; auto).
    apply map_zero. intros x I. apply vmax_spec in H. destruct H as [_ H]. specialize (H x I).
    assert (0 <= x). { unfold gap in I. apply In_nth_error in I. destruct I as [i I]. apply map2_nth_inv in I.
      destruct I as (u & v & _ & _ & ->). apply Rabs_pos. } lra.
  - rewrite map_map. apply map_ext. intros x. field. auto.
Qed.
Lemma cam_rebuilt : forall a b cm n, vmax (mean a b) = Ok cm ->
  map (fun x => x * Rabs cm) (if Req_EM_T (Rabs cm) 0 then zeros n else map (fun x => x / Rabs cm) (mean a b)) =
  (if Req_EM_T cm 0 then zeros n else mean a b).
Proof.
  intros a b cm n H. destruct (Req_EM_T (Rabs cm) 0) as [Z|Z]; destruct (Req_EM_T cm 0) as [Y|Y].
  - apply zeros_scale.
  - exfalso. apply Rabs_no_R0 in Y. contradiction.
  - exfalso. apply Z. rewrite Y. apply Rabs_R0.
  - rewrite map_map. transitivity (map (fun x : R => x) (mean a b)); [|apply map_id]. apply map_ext. intros. field. auto.
Qed.

Lemma upper_rebuilt : forall a b, List.length a = List.length b ->
  (map2 Rplus (mean a b) (map (fun g => g / 2) (gap a b)) = a <-> above a b).
Proof.
  induction a as [|x a IH]; destruct b as [|y b]; intros L; try discriminate; simpl.
  - split; auto. intros _ i u v H. destruct i; discriminate.
  - simpl in L. split.
    + intros H. injection H as H1 H2. apply IH in H2; [|lia].
      intros i u v Hu Hv. destruct i as [|i]; simpl in *; [|eapply H2; eauto].
      injection Hu as <-. injection Hv as <-. unfold Rabs in H1. destruct (Rcase_abs (x - y)); lra.
    + intros H. f_equal.
      * specialize (H 0%nat x y eq_refl eq_refl). rewrite Rabs_right by lra. lra.
      * apply IH; [lia|]. intros i u v Hu Hv. apply (H (S i)); auto.
Qed.
Lemma lower_rebuilt : forall a b, List.length a = List.length b ->
  (map2 Rminus (mean a b) (map (fun g => g / 2) (gap a b)) = b <-> above a b).
Proof.
  induction a as [|x a IH]; destruct b as [|y b]; intros L; try discriminate; simpl.
  - split; auto. intros _ i u v H. destruct i; discriminate.
  - simpl in L. split.
    + intros H. injection H as H1 H2. apply IH in H2; [|lia].
      intros i u v Hu Hv. destruct i as [|i]; simpl in *; [|eapply H2; eauto].
      injection Hu as <-. injection Hv as <-. unfold Rabs in H1. destruct (Rcase_abs (x - y)); lra.
    + intros H. f_equal.
      * specialize (H 0%nat x y eq_refl eq_refl). rewrite Rabs_right by lra. lra.
      * apply IH; [lia|]. intros i u v Hu Hv. apply (H (S i)); auto.
Qed.
Lemma flat_rebuilt : forall a b n, List.length a = List.length b -> List.length a = n ->
  map2 Rplus (zeros n) (map (fun g => g / 2) (gap a b)) = a ->
  map2 Rminus (zeros n) (map (fun g => g / 2) (gap a b)) = b ->
  above a b /\ forall x, In x (mean a b) -> x = 0.
Proof.
  induction a as [|x a IH]; destruct b as [|y b]; intros n L N; try discriminate; simpl.
  - intros _ _. split; [intros i u v H; destruct i; discriminate|tauto].
  - simpl in *. subst n. simpl. intros H1 H2. injection H1 as A1 A2. injection H2 as B1 B2.
    destruct (IH b (List.length a)) as [AB M]; auto. pose proof (Rabs_pos (x - y)). split.
    + intros i u v Hu Hv. destruct i as [|i]; simpl in *; [|eapply AB; eauto].
      injection Hu as <-. injection Hv as <-. lra.
    + intros z [<-|I]; auto. lra.
Qed.

(** C14. *)
Lemma round_trip_iff : forall p q, gp p = Ok q -> uniform p ->
  (coordinates_british q = Ok p <->
   xup p = xdown p /\ (In 0 (xup p) /\ forall x, In x (xup p) -> 0 <= x) /\ above (yup p) (ydown p) /\
   ((In 0 (mean (yup p) (ydown p)) /\ forall c, In c (mean (yup p) (ydown p)) -> c <= 0) ->
     forall c, In c (mean (yup p) (ydown p)) -> c = 0)).
Proof.
  intros p q H (U1 & U2 & U3). apply gp_inv in H.
  destruct H as (le & te & mn & cm & tm & Ee & Emn & _ & C & CP & L & Ecm & CM & CAP & Etm & TM & TP).
  unfold coordinates_british. rewrite CM, TM, CAP, TP. unfold vscale.
  rewrite cam_rebuilt by auto.
  rewrite half_gap by (auto; lia). rewrite CP, map_map.
  replace (map (fun x : R => (x - mn) / chord_length q * chord_length q) (xup p)) with (map (fun x => x - mn) (xup p))
    by (apply map_ext; intros; field; auto).
  assert (N : xup p <> []) by (intros Z; rewrite Z in Emn; discriminate).
  assert (LM : List.length (mean (yup p) (ydown p)) = List.length (xup p)) by (unfold mean; rewrite map2_length; auto).
  assert (LG : List.length (map (fun g => g / 2) (gap (yup p) (ydown p))) = List.length (xup p))
    by (rewrite map_length; unfold gap; rewrite map2_length; auto).
  assert (LC : List.length (if Req_EM_T cm 0 then zeros (List.length (xup p)) else mean (yup p) (ydown p)) = List.length (xup p))
    by (destruct (Req_EM_T cm 0); [apply repeat_length|auto]).
  rewrite !vzip_ok by lia. cbn [bind].
  assert (MN : map (fun x => x - mn) (xup p) = xup p <-> (In 0 (xup p) /\ forall x, In x (xup p) -> 0 <= x)).
  { rewrite map_id_in, <- vmin_spec, Emn. split.
    - intros A. destruct (xup p) as [|a l]; [congruence|]. specialize (A a (or_introl eq_refl)). f_equal. lra.
    - intros A. injection A as ->. intros; lra. }
  split.
  - intros H. injection H as H.
    assert (X1 : map (fun x => x - mn) (xup p) = xup p) by (apply (f_equal xup) in H; exact H).
    assert (X2 : map (fun x => x - mn) (xup p) = xdown p) by (apply (f_equal xdown) in H; exact H).
    apply (f_equal yup) in H as Y1. apply (f_equal ydown) in H as Y2. simpl in Y1, Y2.
    split; [congruence|]. split; [apply MN; auto|].
    destruct (Req_EM_T cm 0) as [Z|Z].
    + destruct (flat_rebuilt (yup p) (ydown p) (List.length (xup p))) as [AB M]; auto.
    + split; [apply upper_rebuilt; auto|]. intros [I B]. exfalso. apply Z.
      apply vmax_spec in Ecm. destruct Ecm as [I2 B2]. apply Rle_antisym; auto.
  - intros (X & M0 & AB & FL). apply f_equal, profile_eq; simpl.
    + apply MN; auto.
    + rewrite <- X. apply MN; auto.
    + destruct (Req_EM_T cm 0) as [Z|Z]; [|apply upper_rebuilt; auto].
      rewrite <- LM, <- (map_zero (fun c => c)).
      2:{ apply FL. subst cm. apply vmax_spec in Ecm. exact Ecm. }
      rewrite map_id. apply upper_rebuilt; auto.
    + destruct (Req_EM_T cm 0) as [Z|Z]; [|apply lower_rebuilt; auto].
      rewrite <- LM, <- (map_zero (fun c => c)).
      2:{ apply FL. subst cm. apply vmax_spec in Ecm. exact Ecm. }
      rewrite map_id. apply lower_rebuilt; auto.
Qed.

End A.
