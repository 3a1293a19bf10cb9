(** reconstruct_sections with too short a list. *)
From Coq Require Import Reals List Bool Lia Lra String.
From Coq Require Import List.
From Verif Require Import Base ProfileModel CustomModel BladeModel BladeProofs6 ReverseModel ReconstructModel ReconstructProofs ReconstructProofs2.
Import ListNotations.
Open Scope R_scope.

Lemma fill_app : forall american js ks o, fill american (js ++ ks) o =
  match fill american js o with (o', Ok _) => fill american ks o' | (o', Err e) => (o', Err e) end.
Proof.
  intros american js ks. induction js as [|j js IH]; intros o; [reflexivity|]. cbn [app fill].
  destruct (row_profile american (values o) j) as [p|]; [|reflexivity]. destruct (recons_sections o) as [l|]; [|reflexivity].
  destruct (assign l j (Some p)); [apply IH|reflexivity].
Qed.
Lemma assign_past : forall {A} (l : list A) j x, (List.length l <= j)%nat -> assign l j x = Err IndexError.
Proof.
  intros A l. induction l as [|a l IH]; intros j x H; [reflexivity|]. destruct j; cbn in *; [lia|]. rewrite IH by lia. reflexivity.
Qed.
Lemma firstn_nth : forall {A} n (l : list A) j x, nth_error (firstn n l) j = Some x -> nth_error l j = Some x.
Proof. intros A n. induction n as [|n IH]; intros [|a l] [|j] x; cbn; try discriminate; auto. Qed.

Lemma sections_short : forall american ps o l,
  num_sections o = Some (List.length ps) -> recons_sections o = Some l -> (List.length l < List.length ps)%nat ->
  (forall j p, nth_error ps j = Some p -> exists xu yu xd yd q,
     nth_error (r_xup (values o)) j = Some xu /\ nth_error (r_yup (values o)) j = Some yu /\
     nth_error (r_xdown (values o)) j = Some xd /\ nth_error (r_ydown (values o)) j = Some yd /\
     custom_profile american [("xup"%string, KArr xu); ("yup"%string, KArr yu); ("xdown"%string, KArr xd); ("ydown"%string, KArr yd)] = Ok (p, q)) ->
  reconstruct_sections american o =
    (mkRObject (values o) (num_sections o) (Some (map Some (firstn (List.length l) ps))) (recons_blade o), Err IndexError).
Proof.
  intros american ps o l EN EL LL HP.
  assert (RP : forall j p, nth_error ps j = Some p -> row_profile american (values o) j = Ok p).
  { intros j p E. destruct (HP j p E) as (xu & yu & xd & yd & q & E1 & E2 & E3 & E4 & EC). unfold row_profile, item. rewrite E1, E2, E3, E4. cbn [bind].
    rewrite EC. reflexivity. }
  assert (LF : List.length (firstn (List.length l) ps) = List.length l) by (rewrite firstn_length; lia).
  unfold reconstruct_sections. rewrite EN.
  replace (List.length ps) with (List.length l + S (List.length ps - S (List.length l)))%nat at 1 by lia.
  rewrite seq_app, fill_app. rewrite <- LF at 1. rewrite (fill_all american (firstn (List.length l) ps) o l EL (eq_sym LF)) by (intros j p E; apply RP; eapply firstn_nth; exact E).
  cbn [seq fill values recons_sections]. destruct (nth_error ps (List.length l)) as [p|] eqn:E; [|apply nth_error_None in E; lia].
  rewrite Nat.add_0_l. rewrite (RP _ _ E). rewrite assign_past; [rewrite EN; reflexivity|]. rewrite map_length, LF. lia.
Qed.

Lemma short_example : forall american, exists o, num_sections o = Some 2%nat /\ recons_sections o = Some [None] /\
  reconstruct_sections american o = (mkRObject (values o) (num_sections o) (Some [Some foil3]) None, Err IndexError).
Proof.
  intros american. destruct foil3_unit as (U & C). destruct (unit_accepted american 3 foil3 ltac:(lia) U C) as (q & EQ).
  set (o := mkRObject (mkReversed [] [] [] [] [] [] [] [xup foil3; xup foil3] [xdown foil3; xdown foil3] [yup foil3; yup foil3] [ydown foil3; ydown foil3])
    (Some 2%nat) (Some [None]) None).
  exists o. split; [reflexivity|]. split; [reflexivity|].
  rewrite (sections_short american [foil3; foil3] o [None] eq_refl eq_refl); [reflexivity|cbn; lia|].
  intros [|[|[|j]]] p E; try discriminate; injection E as <-; exists (xup foil3), (yup foil3), (xdown foil3), (ydown foil3), q; repeat split; exact EQ.
Qed.

(** Only num_sections has been assigned. *)
Lemma no_list : forall american o n xu yu xd yd pq, num_sections o = Some n -> recons_sections o = None ->
  (n = 0%nat \/ nth_error (r_xup (values o)) 0 = Some xu /\ nth_error (r_yup (values o)) 0 = Some yu /\
     nth_error (r_xdown (values o)) 0 = Some xd /\ nth_error (r_ydown (values o)) 0 = Some yd /\
     custom_profile american [("xup"%string, KArr xu); ("yup"%string, KArr yu); ("xdown"%string, KArr xd); ("ydown"%string, KArr yd)] = Ok pq) ->
  reconstruct_sections american o = (o, Err AttributeError) /\ reconstruct_blade american o = (o, Err AttributeError).
Proof.
  intros american o n xu yu xd yd pq EN EL H. unfold reconstruct_sections, reconstruct_blade. rewrite EN.
  destruct n as [|n]; [cbn [seq fill]; rewrite EL; split; reflexivity|].
  destruct H as [H|(E1 & E2 & E3 & E4 & EC)]; [discriminate|]. cbn [seq fill]. unfold row_profile, item. rewrite E1, E2, E3, E4. cbn [bind]. rewrite EC. cbn [bind].
  rewrite EL. split; reflexivity.
Qed.
Lemma no_list_example : forall american, exists o, num_sections o = Some 1%nat /\ recons_sections o = None /\
  reconstruct_sections american o = (o, Err AttributeError) /\ reconstruct_blade american o = (o, Err AttributeError).
Proof.
  intros american. destruct foil3_unit as (U & C). destruct (unit_accepted american 3 foil3 ltac:(lia) U C) as (q & EQ).
  exists (mkRObject (mkReversed [] [] [] [] [] [] [] [xup foil3] [xdown foil3] [yup foil3] [ydown foil3]) (Some 1%nat) None None).
  split; [reflexivity|]. split; [reflexivity|].
  eapply (no_list american _ 1 (xup foil3) (yup foil3) (xdown foil3) (ydown foil3)); [reflexivity|reflexivity|]. right.
  split; [reflexivity|]. split; [reflexivity|]. split; [reflexivity|]. split; [reflexivity|]. exact EQ.
Qed.
