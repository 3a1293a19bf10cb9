(** When construction from coordinates succeeds; example foils. *)
From Coq Require Import Reals List ZArith String Lra Lia.
From Verif Require Import Base SolveProofs ProfileModel ProfileSpec ProfileProofs ProfileProofs2 CustomModel CustomSpec CustomProofs CustomProofs2 CustomProofs3.
Import ListNotations.
Open Scope R_scope.

Section A.
Variable american : profile -> R -> list R -> R -> list R -> res (list R).

Lemma near_edge : forall a b, near a b -> Rabs b <= 9 -> Rabs (b - a) <= 1 / 10000.
Proof. intros a b H B. unfold near in H. rewrite Rabs_minus_sym. lra. Qed.

Lemma construct_ok : forall kw p, coordinate_call kw p -> uniform p -> xup p <> [] -> consistent p ->
  Rabs (hd 0 (xup p)) <= 9 -> Rabs (last (xup p) 0) <= 9 -> hd 0 (xup p) <> last (xup p) 0 ->
  exists q, custom_profile american kw = Ok (p, q).
Proof.
  intros kw p C U N CS B1 B2 D. destruct (accept_iff american kw p C U N) as [A _]. rewrite (A CS).
  destruct CS as (_ & N1 & N2 & _). destruct U as (U1 & U2 & U3).
  assert (LN : forall l : list R, List.length l = List.length (xup p) -> l <> []).
  { intros l E Z. subst l. destruct (xup p); [congruence|discriminate]. }
  assert (E : update_edges p = Ok ((hd 0 (xup p), hd 0 (yup p)), (last (xup p) 0, (last (yup p) 0 + last (ydown p) 0) / 2))).
  { apply update_edges_iff. exists (hd 0 (xup p)), (hd 0 (xdown p)), (last (xup p) 0), (last (xdown p) 0), (hd 0 (yup p)), (last (yup p) 0), (last (ydown p) 0).
    split; [apply hd_first; auto|]. split; [apply hd_first, LN; lia|].
    split; [apply final_last; auto|]. split; [apply final_last, LN; lia|].
    split; [apply hd_first, LN; lia|]. split; [apply final_last, LN; lia|]. split; [apply final_last, LN; lia|].
    split; [apply near_edge; auto|]. split; [apply near_edge; auto|]. auto. }
  destruct (gp_ok american p _ _ E) as [q Eq].
  - intros Z. apply (f_equal fst) in Z. simpl in Z. contradiction.
  - repeat split; auto.
  - rewrite Eq. cbn [bind]. eauto.
Qed.

(** A consistent foil on the scale of 1000 units which is rejected later. *)
Definition big : profile := mkProfile [0; 500; 1000] [0; 500; 1000.005] [0; 1; 0] [0; -1; 0].
Lemma big_rejected : forall kw, coordinate_call kw big -> consistent big /\ custom_profile american kw = Err ValueError.
Proof.
  intros kw C. assert (CS : consistent big).
  { unfold consistent, big, near; simpl. repeat split.
    - intros i u d H1 H2 Hu Hd. destruct i as [|[|i]]; simpl in *; try lia. injection Hu as <-. injection Hd as <-. lra.
    - rewrite Rminus_0_r, Rabs_R0. lra.
    - rewrite !Rabs_right by lra. lra.
    - rewrite Rminus_0_r, Rabs_R0. lra.
    - rewrite Rminus_0_r, Rabs_R0. lra. }
  split; auto. destruct (accept_iff american kw big C) as [A _]; [repeat split| discriminate|]. rewrite (A CS).
  unfold generate_parameters, update_edges, big, edge_tol; simpl.
  destruct (Rlt_dec (1 / 10000) (Rabs (0 - 0))); [auto|]. simpl.
  destruct (Rlt_dec (1 / 10000) (Rabs (1000 - 1000.005))) as [|H]; [auto|]. exfalso. apply H.
  rewrite Rabs_left by lra. lra.
Qed.
End A.

Definition keyed (p : profile) : kwargs :=
  [("xup"%string, KArr (xup p)); ("xdown"%string, KArr (xdown p)); ("yup"%string, KArr (yup p)); ("ydown"%string, KArr (ydown p))].
Lemma keyed_call : forall p, coordinate_call (keyed p) p.
Proof.
  intros p. unfold coordinate_call, has_keys, keyed, coord_keys. simpl. repeat split; try tauto.
  repeat constructor; simpl; intuition discriminate.
Qed.
Definition keyed_params (q : params) : kwargs :=
  [("chord_perc"%string, KArr (chord_percentage q)); ("camber_perc"%string, KArr (camber_percentage q));
   ("thickness_perc"%string, KArr (thickness_percentage q)); ("camber_max"%string, KNum (camber_max q));
   ("thickness_max"%string, KNum (thickness_max q)); ("chord_len"%string, KNum (chord_length q))].
Lemma keyed_params_call : forall q, parameter_call (keyed_params q) q.
Proof.
  intros q. unfold parameter_call, has_keys, keyed_params, param_keys. simpl. repeat split; try tauto.
  repeat constructor; simpl; intuition discriminate.
Qed.

(** A cambered foil. *)
Definition cfoil : profile := mkProfile [0; 1; 2] [0; 1; 2] [0; 1; 0] [0; -(1/2); 0].
(** Hanging camber: zero at the ends, negative in between. *)
Definition hanging : profile := mkProfile [0; 1; 2] [0; 1; 2] [0; 1/2; 0] [0; -1; 0].
Lemma cfoil_consistent : consistent cfoil.
Proof.
  unfold consistent, cfoil, near; simpl. split.
  { intros i u d H1 H2 Hu Hd. destruct i as [|[|i]]; simpl in *; try lia. injection Hu as <-. injection Hd as <-. lra. }
  repeat split; unfold Rminus; rewrite Rplus_opp_r, Rabs_R0; pose proof (Rabs_pos 0); pose proof (Rabs_pos 2); lra.
Qed.
Lemma three_edges : forall yu yd, update_edges (mkProfile [0; 1; 2] [0; 1; 2] [0; yu; 0] [0; yd; 0]) = Ok ((0, 0), (2, 0)).
Proof.
  intros. apply update_edges_iff. exists 0, 0, 2, 2, 0, 0, 0. simpl.
  repeat (split; [reflexivity|]). split; [rewrite Rminus_0_r, Rabs_R0; lra|].
  split; [unfold Rminus; rewrite Rplus_opp_r, Rabs_R0; lra|]. apply f_equal, injective_projections; simpl; lra.
Qed.
Lemma cfoil_round_trip : forall american, exists q, generate_parameters american "british" cfoil = Ok q /\ coordinates_british q = Ok cfoil.
Proof.
  intros. destruct (gp_ok american cfoil (0, 0) (2, 0)) as [q E].
  - apply three_edges. - intros H. injection H as H. lra. - repeat split.
  - exists q. split; auto. apply (round_trip_iff american cfoil q E); [repeat split|]. simpl. split; auto. split.
    + split; auto. intros x [<-|[<-|[<-|[]]]]; lra.
    + split.
      * intros i u d Hu Hd. destruct i as [|[|[|i]]]; simpl in *; try discriminate; [| | |destruct i; discriminate]; injection Hu as <-; injection Hd as <-; lra.
      * intros [_ H]. specialize (H ((1 + - (1/2)) / 2)). assert ((1 + - (1/2)) / 2 <= 0); [apply H; auto|lra].
Qed.
Lemma hanging_lost : forall american, exists q, generate_parameters american "british" hanging = Ok q /\ coordinates_british q <> Ok hanging.
Proof.
  intros. destruct (gp_ok american hanging (0, 0) (2, 0)) as [q E].
  - apply three_edges. - intros H. injection H as H. lra. - repeat split.
  - exists q. split; auto. intros H. apply (round_trip_iff american hanging q E) in H; [|repeat split].
    destruct H as (_ & _ & _ & H). simpl in H. specialize (H ltac:(split; [left; lra|intros c [<-|[<-|[<-|[]]]]; lra])
      ((1/2 + -1) / 2) ltac:(auto)). lra.
Qed.

(** A parameter set meeting all normalisation conditions. *)
Definition nparams : params := mkParams 2 [0; 1/4; 1] (1/10) [0; 1; 0] (1/5) [0; 1; 1/2].
Lemma nparams_normalised : normalised nparams.
Proof.
  unfold normalised, consistent_params, nparams; simpl. repeat split; try lra.
  - intros x [<-|[<-|[<-|[]]]]; lra.
  - left. repeat split; [lra|auto|]. intros x [<-|[<-|[<-|[]]]]; lra.
  - left. repeat split; [lra|auto| |]; destruct H as [<-|[<-|[<-|[]]]]; lra.
Qed.
Lemma nparams_orth : exists o, orth_camber_coordinates nparams = Ok o.
Proof.
  unfold orth_camber_coordinates, slopes, nparams; simpl. unfold fdiv.
  destruct (Req_EM_T (1/4 - 0) 0); [lra|]. simpl. destruct (Req_EM_T 2 0); [lra|]. simpl.
  destruct (Req_EM_T (1 - 1/4) 0); [lra|]. simpl. destruct (Rlt_dec _ 0); eauto.
Qed.
