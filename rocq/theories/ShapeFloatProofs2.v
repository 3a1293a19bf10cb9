(** Thickness in binary64. *)
From Coq Require Import Reals ZArith List Lra Lia Bool.
From Flocq Require Import Core BinarySingleNaN.
From Verif Require Import Base PpgFloatModel PpgFloatProofs ProfileModel ProfileSpec ProfileProofs2 FloatModel FloatSpec FloatProofs FloatProofs2 ShapeFloatModel ShapeFloatSpec ShapeFloatProofs.
Import ListNotations.
Open Scope R_scope.

(** ** Equal abscissae *)
Lemma same_ok : forall p, common_abscissae p -> same_abscissae64 p = Ok tt.
Proof.
  intros [a b c d] (A & B & E). unfold same_abscissae64. cbn [fxup fxdown] in *. unfold vzip.
  assert (L : length a = length b) by (apply (f_equal (@length R)) in E; rewrite !map_length in E; exact E).
  unfold b64 in *. rewrite L, Nat.eqb_refl. cbn [bind].
  replace (forallb (fun t => t) (map2 (fun x y => Beqb x y) a b)) with true; [reflexivity|]. symmetry.
  clear L. revert b B E. induction a as [|x a IH]; intros [|y b] B E; try discriminate E; [reflexivity|].
  inversion A; inversion B; subst. cbn [map] in E. injection E as E1 E2. cbn [map2 forallb]. rewrite IH by auto.
  rewrite Beqb_correct by auto. rewrite Req_bool_true by exact E1. reflexivity.
Qed.
Lemma common_meaning : forall p, common_abscissae p -> xup (meaning p) = xdown (meaning p).
Proof. intros p (_ & _ & E). exact E. Qed.

Lemma thickness_exact : forall p, common_abscissae p -> same_sizes p ->
  max_thickness None (meaning p) = vmax (gap (yup (meaning p)) (ydown (meaning p))).
Proof.
  intros p C (S1 & S2 & S3). unfold max_thickness, resolve_n, arrays_equal. rewrite (common_meaning p C), Nat.eqb_refl. cbn [bind].
  rewrite (proj2 (list_eqb_eq _ _) eq_refl). cbn [truthy]. unfold vzip, meaning. cbn [yup ydown]. rewrite !map_length, S2, S3, Nat.eqb_refl. reflexivity.
Qed.
Lemma thickness_computed : forall p, common_abscissae p -> same_sizes p ->
  max_thickness64 p = vmax64 (map2 (fun a b => fabs64 (fsub a b)) (fyup p) (fydown p)).
Proof.
  intros p C (S1 & S2 & S3). unfold max_thickness64. rewrite same_ok by auto. cbn [bind]. unfold vzip. unfold b64 in *. rewrite S2, S3, Nat.eqb_refl. reflexivity.
Qed.

(** ** Maxima *)
Lemma maximum_finite : forall a b, finite a = true -> finite b = true ->
  finite (maximum64 a b) = true /\ val (maximum64 a b) = Rmax (val a) (val b) /\ (maximum64 a b = a \/ maximum64 a b = b).
Proof.
  intros a b Fa Fb. unfold maximum64. rewrite Bleb_correct by auto. replace (@is_nan 53 1024 a) with false by (destruct a; try discriminate; reflexivity).
  rewrite orb_false_r. case Rle_bool_spec; intros H.
  - rewrite Rmax_left by lra. auto.
  - rewrite Rmax_right by lra. auto.
Qed.
Lemma vmax64_finite : forall l, l <> [] -> Forall is_number l ->
  exists t, vmax64 l = Ok t /\ is_number t /\ In t l /\ vmax (map real l) = Ok (real t).
Proof.
  intros [|x l] N F; [congruence|]. cbn [vmax64 vmax map]. inversion F as [|? ? Fx Fl]; subst. clear N F.
  revert x Fx. induction Fl as [|y l Fy Fl IH]; intros x Fx; cbn [fold_left map].
  - exists x. repeat split; auto. left. reflexivity.
  - destruct (maximum_finite x y Fx Fy) as (F & V & D). destruct (IH (maximum64 x y) F) as (t & E & Ft & I & M).
    exists t. split; [exact E|]. split; [exact Ft|]. split.
    + destruct I as [I|I]; [|right; right; exact I]. destruct D as [D|D]; rewrite D in I; [left|right; left]; exact I.
    + replace (Rmax (real x) (real y)) with (real (maximum64 x y)) by exact V. exact M.
Qed.
Lemma maximum_nan : forall a b, is_nan64 a \/ is_nan64 b -> is_nan64 (maximum64 a b).
Proof.
  intros a b H. unfold maximum64, is_nan64 in *. destruct (@is_nan 53 1024 a) eqn:Na.
  - rewrite orb_true_r. exact Na.
  - destruct H as [H|H]; [discriminate|]. destruct b; try discriminate H. destruct a as [| | |]; try discriminate Na; reflexivity.
Qed.
Lemma vmax64_nan : forall l x, In x l -> is_nan64 x -> exists t, vmax64 l = Ok t /\ is_nan64 t.
Proof.
  intros [|y l] x I N; [destruct I|]. cbn [vmax64]. eexists. split; [reflexivity|].
  assert (K : forall l y, is_nan64 y -> is_nan64 (fold_left maximum64 l y)).
  { clear. induction l as [|z l IH]; intros y H; cbn [fold_left]; auto. apply IH. apply maximum_nan. auto. }
  revert y I. induction l as [|z l IH]; intros y I; cbn [fold_left].
  - destruct I as [<-|[]]. exact N.
  - destruct I as [<-|[<-|I]]; [apply K, maximum_nan; auto|apply K, maximum_nan; auto|]. apply IH. right. exact I.
Qed.
Definition pinf : b64 := @B754_infinity 53 1024 false.
Lemma maximum_inf : forall a b, ~ is_nan64 a -> ~ is_nan64 b -> a = pinf \/ b = pinf -> maximum64 a b = pinf.
Proof.
  intros a b Na Nb [-> | ->]; unfold maximum64, pinf.
  - destruct b as [s|[|]| |s m e H]; try reflexivity. exfalso. apply Nb. reflexivity.
  - destruct a as [s|[|]| |s m e H]; try reflexivity; try (destruct s; reflexivity). exfalso. apply Na. reflexivity.
Qed.
Lemma maximum_not_nan : forall a b, ~ is_nan64 a -> ~ is_nan64 b -> ~ is_nan64 (maximum64 a b).
Proof. intros a b H1 H2. unfold maximum64. destruct (_ || _); auto. Qed.
Lemma vmax64_inf : forall l, Forall (fun x => ~ is_nan64 x) l -> In pinf l -> vmax64 l = Ok pinf.
Proof.
  intros [|y l] F I; [destruct I|]. cbn [vmax64]. f_equal. inversion F as [|? ? Fy Fl]; subst.
  assert (K : forall l, Forall (fun x => ~ is_nan64 x) l -> fold_left maximum64 l pinf = pinf).
  { clear. induction 1 as [|z l H Fl IH]; cbn [fold_left]; auto. rewrite maximum_inf; auto. }
  clear F. revert y Fy I. induction Fl as [|z l Fz Fl IH]; intros y Fy I; cbn [fold_left].
  - destruct I as [<-|[]]. reflexivity.
  - destruct I as [->|[->|I]].
    + rewrite maximum_inf; auto.
    + rewrite maximum_inf; auto.
    + apply IH; [apply maximum_not_nan; auto|]. right. exact I.
Qed.

(** Maxima of lists that agree up to d, or up to a relative error. *)
Lemma vmax_near : forall (r : R -> R -> Prop) (lo hi : R -> R) a b x y,
  (forall s t, r s t -> lo t <= s <= hi t) -> (forall s t, s <= t -> lo s <= lo t) -> (forall s t, s <= t -> hi s <= hi t) ->
  Forall2 r a b -> vmax a = Ok x -> vmax b = Ok y -> lo y <= x <= hi y.
Proof.
  intros r lo hi a b x y H1 H2 H3 F A B. apply vmax_spec in A as (A1 & A2). apply vmax_spec in B as (B1 & B2). split.
  - clear A1. assert (K : exists s, In s a /\ r s y).
    { clear -F B1. induction F as [|s t a b R F IH]; [destruct B1|]. destruct B1 as [<-|I]; [exists s; cbn; auto|]. destruct (IH I) as (q & Q1 & Q2). exists q. cbn. auto. }
    destruct K as (s & I & Q). apply Rle_trans with s; [apply H1; auto|apply A2; auto].
  - assert (K : exists t, In t b /\ r x t).
    { clear -F A1. induction F as [|s t a b R F IH]; [destruct A1|]. destruct A1 as [<-|I]; [exists t; cbn; auto|]. destruct (IH I) as (q & Q1 & Q2). exists q. cbn. auto. }
    destruct K as (t & I & Q). apply Rle_trans with (hi t); [apply H1; auto|apply H3, B2; auto].
Qed.

(** ** Measured thickness *)
Lemma gap_number : forall u d, finite u = true -> finite d = true -> Rabs (val u - val d) <= huge ->
  finite (fabs64 (fsub u d)) = true /\ Rabs (val (fabs64 (fsub u d)) - Rabs (val u - val d)) <= eps * Rabs (val u - val d).
Proof.
  intros u d Fu Fd B. destruct (fsub_ok u d Fu Fd B) as (E & F). rewrite fabs_finite, fabs_val. split; auto. rewrite E.
  eapply Rle_trans; [apply Rabs_triang_inv2|]. apply diff_error.
Qed.
Lemma gaps : forall a b, Forall is_number a -> Forall is_number b -> Forall (fun g => g <= huge) (gap (map real a) (map real b)) ->
  let l := map2 (fun a b => fabs64 (fsub a b)) a b in
  Forall is_number l /\ Forall2 (fun got g => Rabs (got - g) <= eps * g) (map real l) (gap (map real a) (map real b)).
Proof.
  induction a as [|u a IH]; intros [|d b] A B H; cbn in *; try (split; constructor).
  - inversion A; inversion B; inversion H; subst. apply gap_number; auto.
  - inversion A; inversion B; inversion H; subst. apply IH; auto.
  - inversion A; inversion B; inversion H; subst. apply gap_number; auto.
  - inversion A; inversion B; inversion H; subst. apply IH; auto.
Qed.

Lemma sizes_gap : forall p, same_sizes p -> fxup p <> [] -> map2 (fun a b => fabs64 (fsub a b)) (fyup p) (fydown p) <> [] /\
  gap (map real (fyup p)) (map real (fydown p)) <> [].
Proof.
  intros [a b c d] (S1 & S2 & S3) N. cbn [fxup fxdown fyup fydown] in *. destruct a; [congruence|]. destruct c; [discriminate|]. destruct d; [discriminate|].
  cbn. split; discriminate.
Qed.

Lemma thickness_error : forall p, numbers p -> common_abscissae p -> same_sizes p -> fxup p <> [] ->
  Forall (fun g => g <= huge) (gap (yup (meaning p)) (ydown (meaning p))) ->
  exists t e, max_thickness64 p = Ok t /\ max_thickness None (meaning p) = Ok e /\ is_number t /\ Rabs (real t - e) <= eps * e.
Proof.
  intros p (_ & _ & N3 & N4) C S N B. rewrite thickness_computed, thickness_exact by auto. unfold meaning in *. cbn [yup ydown] in *.
  destruct (gaps _ _ N3 N4 B) as (F & G). destruct (sizes_gap p S N) as (NE & NE2).
  destruct (vmax64_finite _ NE F) as (t & E & Ft & _ & M). destruct (vmax_ok _ NE2) as (e & Ee).
  exists t, e. repeat (split; auto). pose proof eps_bounds as [E1 E2].
  pose proof (vmax_near _ (fun x => x - eps * x) (fun x => x + eps * x) _ _ _ _ (fun s t (H : Rabs (s - t) <= eps * t) => ltac:(apply Rabs_le_inv in H; lra)) ltac:(intros; nra) ltac:(intros; nra) G M Ee) as Q.
  apply Rabs_le. lra.
Qed.

Lemma gap_nonneg : forall a b e, vmax (gap a b) = Ok e -> 0 <= e.
Proof.
  intros a b e H. apply vmax_spec in H as (I & _). unfold gap in I. revert b I. induction a as [|x a IH]; intros [|y b] I; try destruct I as [].
  - rewrite <- H. apply Rabs_pos.
  - eapply IH. exact H.
Qed.
