(** CustomProfile called with a parameter that is None. *)
From Coq Require Import Reals List ZArith String Lra Lia.
From Verif Require Import Base ProfileModel CustomModel CustomSpec CustomProofs.
Import ListNotations.
Open Scope R_scope.

Lemma params_none : forall american kw k, has_keys kw param_keys -> sorts_or_none kw -> In (k, KNone) kw ->
  custom_profile american kw = Err ValueError.
Proof.
  intros american kw k (N & K) A I. unfold custom_profile.
  assert (Ik : In k param_keys) by (apply K; change k with (fst (k, KNone)); now apply in_map).
  destruct (same_keys kw coord_keys) eqn:SK.
  { pose proof (proj1 (same_keys_iff kw coord_keys) SK) as SK'. exfalso. assert (In "chord_perc"%string coord_keys) as X by (apply SK', K; simpl; tauto).
    simpl in X. destruct X as [X|[X|[X|[X|[]]]]]; discriminate. }
  rewrite (proj2 (same_keys_iff kw param_keys) K).
  destruct (kw_get_some "chord_perc" kw) as (v1 & E1 & J1); [apply K; simpl; tauto|].
  destruct (kw_get_some "camber_perc" kw) as (v2 & E2 & J2); [apply K; simpl; tauto|].
  destruct (kw_get_some "thickness_perc" kw) as (v3 & E3 & J3); [apply K; simpl; tauto|].
  destruct (kw_get_some "camber_max" kw) as (v4 & E4 & J4); [apply K; simpl; tauto|].
  destruct (kw_get_some "thickness_max" kw) as (v5 & E5 & J5); [apply K; simpl; tauto|].
  destruct (kw_get_some "chord_len" kw) as (v6 & E6 & J6); [apply K; simpl; tauto|].
  pose proof (kw_get_in _ _ _ N I) as G. rewrite E1, E2, E3, E4, E5, E6. cbn [bind].
  destruct A as [A B].
  destruct (A _ _ J1) as [->|[l1 ->]]; [simpl; tauto|auto|].
  destruct (A _ _ J2) as [->|[l2 ->]]; [simpl; tauto|auto|].
  destruct (A _ _ J3) as [->|[l3 ->]]; [simpl; tauto|auto|].
  destruct (B _ _ J4) as [->|[x4 ->]]; [simpl; tauto|auto|].
  destruct (B _ _ J5) as [->|[x5 ->]]; [simpl; tauto|auto|].
  destruct (B _ _ J6) as [->|[x6 ->]]; [simpl; tauto|auto|].
  exfalso. simpl in Ik. destruct Ik as [<-|[<-|[<-|[<-|[<-|[<-|[]]]]]]]; congruence.
Qed.
