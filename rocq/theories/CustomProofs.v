(** Lemmas about CustomProfile construction. *)
From Coq Require Import Reals List ZArith String Lra Lia.
From Verif Require Import Base SolveProofs ProfileModel ProfileSpec ProfileProofs ProfileProofs2 CustomModel CustomSpec.
Import ListNotations.
Open Scope R_scope.

Lemma mem_str_in : forall k l, mem_str k l = true <-> In k l.
Proof.
  intros k l. unfold mem_str. rewrite existsb_exists. split.
  - intros [x [I E]]. apply String.eqb_eq in E. subst; auto.
  - intros I. exists k. split; auto. apply String.eqb_refl.
Qed.
Lemma same_keys_iff : forall kw names, same_keys kw names = true <-> forall k, In k (map fst kw) <-> In k names.
Proof.
  intros kw names. unfold same_keys. rewrite Bool.andb_true_iff, !forallb_forall. split.
  - intros [A B] k. split; intros I; [apply A in I|apply B in I]; now apply mem_str_in in I.
  - intros H. split; intros k I; apply mem_str_in; apply H; auto.
Qed.
Lemma same_keys_has : forall kw names, NoDup (map fst kw) -> (same_keys kw names = true <-> has_keys kw names).
Proof. intros. rewrite same_keys_iff. unfold has_keys. tauto. Qed.

Lemma kw_get_in : forall k kw v, NoDup (map fst kw) -> In (k, v) kw -> kw_get k kw = Ok v.
Proof.
  induction kw as [|[k' v'] kw IH]; intros v N I; [destruct I|]. simpl in *.
  inversion N as [|? ? N1 N2]; subst. destruct I as [E|I].
  - injection E as -> ->. now rewrite String.eqb_refl.
  - destruct (String.eqb_spec k k') as [->|]; auto. exfalso. apply N1. change k' with (fst (k', v)). now apply in_map.
Qed.
Lemma kw_get_some : forall k kw, In k (map fst kw) -> exists v, kw_get k kw = Ok v /\ In (k, v) kw.
Proof.
  induction kw as [|[k' v'] kw IH]; intros I; [destruct I|]. simpl in *.
  destruct (String.eqb_spec k k') as [->|N]; [eauto|]. destruct I as [E|I]; [congruence|].
  destruct (IH I) as [v [A B]]; eauto.
Qed.

Lemma isclose_near : forall a b, isclose a b = true <-> near a b.
Proof. intros. unfold isclose, near. destruct (Rle_dec _ _); split; intros; auto; try discriminate; contradiction. Qed.
Lemma isclose_far : forall a b, isclose a b = false <-> ~ near a b.
Proof. intros. rewrite <- isclose_near. destruct (isclose a b); split; intros; try discriminate; auto; contradiction. Qed.

Lemma removelast_nth : forall {A} (l : list A) i, (S i < List.length l)%nat -> nth_error (removelast l) i = nth_error l i.
Proof.
  induction l as [|a l IH]; intros i H; simpl in *; [lia|].
  destruct l as [|b l]; simpl in *; [lia|]. destruct i; auto. simpl. rewrite IH; simpl; auto. lia.
Qed.
Lemma removelast_length : forall {A} (l : list A), List.length (removelast l) = (List.length l - 1)%nat.
Proof. induction l as [|a l IH]; auto. destruct l; auto. simpl in *. rewrite IH. lia. Qed.
Lemma interior_length : forall {A} (l : list A), List.length (interior l) = (List.length l - 2)%nat.
Proof. intros A l. unfold interior. rewrite removelast_length. destruct l; simpl; lia. Qed.
Lemma interior_nth : forall {A} (l : list A) i x, nth_error (interior l) i = Some x <->
  (S (S i) < List.length l)%nat /\ nth_error l (S i) = Some x.
Proof.
  intros A l i x. unfold interior. destruct l as [|a l]; simpl; [split; [destruct i; discriminate|intros [H _]; lia]|].
  destruct (Nat.lt_ge_cases (S i) (List.length l)) as [L|L].
  - rewrite removelast_nth by auto. split; [split; [lia|auto]|intros [_ H]; auto].
  - split; [|intros [H _]; lia]. intros H. assert (i < List.length (removelast l))%nat by (apply nth_error_Some; congruence).
    rewrite removelast_length in H0. lia.
Qed.

Lemma map2_nil_iff : forall {A B C} (f : A -> B -> C) a b, List.length a = List.length b -> List.length (map2 f a b) = List.length a.
Proof. intros. rewrite map2_length; auto. Qed.

Lemma greater_equal_same : forall a b, List.length a = List.length b ->
  greater_equal a b = Ok (map2 (fun x y => if Rle_dec y x then true else false) a b).
Proof.
  intros a b L. unfold greater_equal.
  destruct a as [|x a]; destruct b as [|y b]; try discriminate; auto.
  destruct a as [|x' a]; destruct b as [|y' b]; try discriminate; auto.
  rewrite vzip_ok; auto.
Qed.

Lemma ge_all : forall a b, List.length a = List.length b ->
  (forallb (fun b => b) (map2 (fun x y => if Rle_dec y x then true else false) a b) = true <-> above a b).
Proof.
  induction a as [|x a IH]; destruct b as [|y b]; intros L; try discriminate; simpl.
  - split; auto. intros _ i ? ? H. destruct i; discriminate.
  - rewrite Bool.andb_true_iff, IH by (simpl in L; lia). split.
    + intros [H1 H2] i u v Hu Hv. destruct i as [|i]; simpl in *.
      * injection Hu as <-. injection Hv as <-. destruct (Rle_dec y x); [auto|discriminate].
      * eapply H2; eauto.
    + intros H. split.
      * specialize (H 0%nat x y eq_refl eq_refl). destruct (Rle_dec y x) as [|N]; [auto|exfalso; apply N; exact H].
      * intros i u v Hu Hv. apply (H (S i) u v); auto.
Qed.

Lemma hd_first : forall l d, l <> [] -> first l = Ok (hd d l : R).
Proof. destruct l; [congruence|auto]. Qed.

Definition ordered_inside (p : profile) : Prop :=
  forall i u d, (0 < i)%nat -> (S i < List.length (yup p))%nat ->
     nth_error (yup p) i = Some u -> nth_error (ydown p) i = Some d -> d <= u.
Lemma above_interior : forall p, List.length (yup p) = List.length (ydown p) ->
  (above (interior (yup p)) (interior (ydown p)) <-> ordered_inside p).
Proof.
  intros p L. split.
  - intros H i u d Hi Hl Hu Hd. destruct i as [|i]; [lia|].
    apply (H i); apply interior_nth; split; auto; lia.
  - intros H i u d Hu Hd. apply interior_nth in Hu, Hd. apply (H (S i)); try tauto; lia.
Qed.

Lemma check_coordinates_spec : forall p, uniform p -> xup p <> [] ->
  (consistent p /\ check_coordinates p = Ok tt) \/ (~ consistent p /\ check_coordinates p = Err ValueError).
Proof.
  intros p (U1 & U2 & U3) N.
  assert (N2 : yup p <> []) by (destruct (yup p); [destruct (xup p); [congruence|discriminate]|discriminate]).
  assert (N3 : xdown p <> []) by (destruct (xdown p); [destruct (xup p); [congruence|discriminate]|discriminate]).
  assert (N4 : ydown p <> []) by (destruct (ydown p); [destruct (xdown p); [congruence|discriminate]|discriminate]).
  assert (L : List.length (yup p) = List.length (ydown p)) by lia.
  unfold check_coordinates. rewrite U1, Nat.eqb_refl, U2, Nat.eqb_refl. cbn [negb].
  assert (LI : List.length (interior (yup p)) = List.length (interior (ydown p))) by (rewrite !interior_length; lia).
  rewrite greater_equal_same by auto. cbn [bind].
  assert (G := ge_all _ _ LI). rewrite (above_interior p L) in G.
  destruct (forallb _ _) eqn:EG; cbn [negb].
  2:{ right. split; auto. intros [C _]. apply G in C. congruence. }
  assert (OI : ordered_inside p) by (apply G; auto).
  rewrite (hd_first (xdown p) 0), (hd_first (xup p) 0), (hd_first (ydown p) 0), (hd_first (yup p) 0),
    (final_last (xdown p) 0), (final_last (xup p) 0), (final_last (ydown p) 0), (final_last (yup p) 0) by auto.
  cbn [bind]. unfold consistent.
  destruct (isclose (hd 0 (xdown p)) (hd 0 (xup p))) eqn:E1; cbn [negb];
    [apply isclose_near in E1|apply isclose_far in E1; right; split; auto; tauto].
  destruct (isclose (last (xdown p) 0) (last (xup p) 0)) eqn:E2; cbn [negb];
    [apply isclose_near in E2|apply isclose_far in E2; right; split; auto; tauto].
  destruct (isclose (hd 0 (ydown p)) (hd 0 (yup p))) eqn:E3; cbn [negb];
    [apply isclose_near in E3|apply isclose_far in E3; right; split; auto; tauto].
  destruct (isclose (last (ydown p) 0) (last (yup p) 0)) eqn:E4; cbn [negb];
    [apply isclose_near in E4|apply isclose_far in E4; right; split; auto; tauto].
  left. repeat split; auto.
Qed.

Section A.
Variable american : profile -> R -> list R -> R -> list R -> res (list R).

Lemma custom_coords : forall kw p, coordinate_call kw p ->
  custom_profile american kw =
    (let* _ := check_coordinates p in let* q := generate_parameters american "british" p in Ok (p, q)).
Proof.
  intros kw p ((N & K) & I1 & I2 & I3 & I4). unfold custom_profile.
  rewrite (proj2 (same_keys_iff kw coord_keys) K).
  rewrite (kw_get_in "xup" kw _ N I1), (kw_get_in "yup" kw _ N I3), (kw_get_in "xdown" kw _ N I2), (kw_get_in "ydown" kw _ N I4).
  simpl. destruct p; auto.
Qed.

Lemma coord_not_param : forall kw, has_keys kw param_keys -> same_keys kw coord_keys = false.
Proof.
  intros kw (N & K). destruct (same_keys kw coord_keys) eqn:E; auto.
  rewrite same_keys_iff in E. assert (In "xup"%string (map fst kw)) as X by (apply E; simpl; auto).
  apply K in X. simpl in X. intuition discriminate.
Qed.

Lemma custom_params : forall kw q, parameter_call kw q ->
  custom_profile american kw =
    (let* _ := check_parameters q in let* p := coordinates_british q in Ok (p, q)).
Proof.
  intros kw q (HK & I1 & I2 & I3 & I4 & I5 & I6). unfold custom_profile.
  rewrite (coord_not_param _ HK). destruct HK as (N & K).
  rewrite (proj2 (same_keys_iff kw param_keys) K).
  rewrite (kw_get_in "chord_perc" kw _ N I1), (kw_get_in "camber_perc" kw _ N I2), (kw_get_in "thickness_perc" kw _ N I3),
   (kw_get_in "camber_max" kw _ N I4), (kw_get_in "thickness_max" kw _ N I5), (kw_get_in "chord_len" kw _ N I6).
  simpl. destruct q; auto.
Qed.

Lemma custom_other : forall kw, NoDup (map fst kw) -> ~ has_keys kw coord_keys -> ~ has_keys kw param_keys ->
  custom_profile american kw = Err RuntimeError.
Proof.
  intros kw N A B. unfold custom_profile.
  destruct (same_keys kw coord_keys) eqn:E1; [apply same_keys_has in E1; auto; contradiction|].
  destruct (same_keys kw param_keys) eqn:E2; [apply same_keys_has in E2; auto; contradiction|]. auto.
Qed.

Lemma custom_none : forall kw k, has_keys kw coord_keys -> arrays_or_none kw -> In (k, KNone) kw ->
  custom_profile american kw = Err ValueError.
Proof.
  intros kw k (N & K) A I. unfold custom_profile.
  rewrite (proj2 (same_keys_iff kw coord_keys) K).
  assert (Ik : In k coord_keys) by (apply K; change k with (fst (k, KNone)); now apply in_map).
  destruct (kw_get_some "xup" kw) as (v1 & E1 & J1); [apply K; simpl; tauto|].
  destruct (kw_get_some "yup" kw) as (v2 & E2 & J2); [apply K; simpl; tauto|].
  destruct (kw_get_some "xdown" kw) as (v3 & E3 & J3); [apply K; simpl; tauto|].
  destruct (kw_get_some "ydown" kw) as (v4 & E4 & J4); [apply K; simpl; tauto|].
  pose proof (kw_get_in _ _ _ N I) as G. rewrite E1, E2, E3, E4. cbn [bind].
  destruct (A _ _ J1) as [->|[l1 ->]]; [auto|].
  destruct (A _ _ J3) as [->|[l3 ->]]; [auto|].
  destruct (A _ _ J2) as [->|[l2 ->]]; [auto|].
  destruct (A _ _ J4) as [->|[l4 ->]]; [auto|].
  exfalso. simpl in Ik. destruct Ik as [<-|[<-|[<-|[<-|[]]]]]; congruence.
Qed.

Lemma accept_iff : forall kw p, coordinate_call kw p -> uniform p -> xup p <> [] ->
  (consistent p -> custom_profile american kw = (let* q := generate_parameters american "british" p in Ok (p, q))) /\
  (~ consistent p -> custom_profile american kw = Err ValueError).
Proof.
  intros kw p C U N. rewrite (custom_coords kw p C).
  destruct (check_coordinates_spec p U N) as [[X E]|[X E]]; rewrite E; split; intros Y; auto; contradiction.
Qed.

Lemma accept_params : forall kw q, parameter_call kw q ->
  (consistent_params q -> exists p, custom_profile american kw = Ok (p, q)) /\
  (~ consistent_params q -> custom_profile american kw = Err ValueError).
Proof.
  intros kw q C. rewrite (custom_params kw q C). unfold check_parameters, consistent_params.
  destruct (Rlt_dec (camber_max q) 0) as [H|H1]; [split; [lra|auto]|].
  destruct (Rlt_dec (thickness_max q) 0) as [H|H2]; [split; [lra|auto]|].
  destruct (Nat.eqb_spec (List.length (camber_percentage q)) (List.length (chord_percentage q))) as [L1|L1];
    cbn [negb]; [|split; [tauto|auto]].
  destruct (Nat.eqb_spec (List.length (thickness_percentage q)) (List.length (chord_percentage q))) as [L2|L2];
    cbn [negb]; [|split; [tauto|auto]].
  split; [|intros H; exfalso; apply H; repeat split; auto; lra].
  intros _. cbn [bind]. unfold coordinates_british.
  rewrite !vzip_ok by (unfold vscale; rewrite !map_length; lia). cbn [bind]. eauto.
Qed.

Lemma british_symmetric : forall q p, coordinates_british q = Ok p ->
  xup p = xdown p /\ xup p = map (fun c => c * chord_length q) (chord_percentage q) /\
  List.length (yup p) = List.length (ydown p) /\
  (forall i u d, nth_error (yup p) i = Some u -> nth_error (ydown p) i = Some d ->
    exists c t, nth_error (camber_percentage q) i = Some c /\ nth_error (thickness_percentage q) i = Some t /\
      (u + d) / 2 = c * camber_max q /\ u - d = thickness_max q * t).
Proof.
  intros q p H. unfold coordinates_british in H.
  apply bind_ok in H. destruct H as [yu [Eu H]]. apply bind_ok in H. destruct H as [yd [Ed H]].
  injection H as <-. simpl. apply vzip_inv in Eu, Ed. destruct Eu as [L ->]. destruct Ed as [_ ->].
  split; auto. split; auto. split. { rewrite !map2_length; auto. }
  intros i u d Hu Hd. apply map2_nth_inv in Hu, Hd.
  destruct Hu as (c & t & Hc & Ht & ->). destruct Hd as (c' & t' & Hc' & Ht' & ->).
  rewrite Hc in Hc'. rewrite Ht in Ht'. injection Hc' as <-. injection Ht' as <-.
  unfold vscale in Hc. rewrite nth_error_map in Hc, Ht.
  destruct (nth_error (camber_percentage q) i) as [c0|]; [|discriminate].
  destruct (nth_error (thickness_percentage q) i) as [t0|]; [|discriminate].
  simpl in *. injection Hc as <-. injection Ht as <-. exists c0, t0. repeat split; lra.
Qed.
End A.
