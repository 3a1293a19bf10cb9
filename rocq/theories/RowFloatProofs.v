(** The sections of a blade laid on their cylinders in binary64. *)
From Coq Require Import Reals ZArith List Lra Lia Bool.
From Flocq Require Import Core BinarySingleNaN.
From Verif Require Import Base ProfileModel PpgFloatModel FloatModel FloatSpec FloatProofs2 WrapFloatModel WrapFloatSpec WrapFloatProofs RakeFloatSpec PlaceFloatModel PlaceFloatSpec PlaceFloatProofs LayFloatModel LayFloatSpec LayFloatProofs RowFloatModel RowFloatSpec.
Import ListNotations.
Open Scope R_scope.

Lemma mapM_all : forall A B (f : A -> res B) l l', mapM f l = Ok l' -> Forall2 (fun a b => f a = Ok b) l l'.
Proof.
  intros A B f. induction l as [|a l IH]; intros l' H; cbn [mapM] in H; [injection H as <-; constructor|]. destruct (f a) as [b|] eqn:E; cbn [bind] in H; [|discriminate]. destruct (mapM f l) as [bs|]; cbn [bind] in H; [|discriminate]. injection H as <-. constructor; auto.
Qed.
Lemma mapM_ok : forall A B (f : A -> res B) (P : B -> Prop) l, Forall (fun a => exists b, f a = Ok b /\ P b) l -> exists l', mapM f l = Ok l' /\ Forall P l' /\ length l' = length l.
Proof.
  intros A B f P. induction 1 as [|a l (b & E & Pb) _ (l' & I & F & L)]; cbn [mapM]; [exists []; auto|]. rewrite E. cbn [bind]. rewrite I. cbn [bind]. eexists. split; [reflexivity|]. split; [constructor; assumption|cbn; congruence].
Qed.
Lemma Forall2_same : forall A B (P : A -> B -> Prop) l m, Forall2 P l m -> length l = length m.
Proof. intros A B P. induction 1; cbn [length]; congruence. Qed.
Lemma Forall2_back : forall A B (P : A -> B -> Prop) l m, Forall2 P l m -> Forall2 P (rev l) (rev m).
Proof. intros A B P. induction 1; cbn [rev]; [constructor|apply Forall2_app; auto]. Qed.
Lemma Forall2_find : forall A B (P : A -> B -> Prop) l m, Forall2 P l m -> forall i a, nth_error l i = Some a -> exists b, nth_error m i = Some b /\ P a b.
Proof. intros A B P. induction 1; intros [|i] a H1; cbn [nth_error] in *; try discriminate; [injection H1 as <-; eauto|eauto]. Qed.
Lemma combine_at : forall A B (l : list A) (m : list B) i a b, nth_error l i = Some a -> nth_error m i = Some b -> nth_error (combine l m) i = Some (a, b).
Proof. intros A B. induction l as [|x l IH]; intros [|y m] [|i] a b H1 H2; cbn [combine nth_error] in *; try discriminate; [congruence|auto]. Qed.

Lemma row_laid : forall how at64 tn64 sn cs refl blade up down, accurate at64 atan -> accurate_tangent tn64 -> accurate sn sin -> accurate cs cos -> at_most_one sn -> at_most_one cs ->
  blade64 how at64 tn64 sn cs refl blade = Ok (up, down) -> length up = length blade /\ length down = length blade /\
  forall i s M, nth_error (rev blade) i = Some s -> fits M s -> exists exact U D, true_place refl s = Ok exact /\ nth_error up i = Some U /\ nth_error down i = Some D /\
  wound (real (sradius s)) (laid_error M s) (xup exact) (yup exact) U /\ wound (real (sradius s)) (laid_error M s) (xdown exact) (ydown exact) D.
Proof.
  intros how at64 tn64 sn cs refl blade up down At Tn Sn Cs S1 C1 H. unfold blade64 in H. destruct (mapM _ blade) as [placed|] eqn:MP; cbn [bind] in H; [|discriminate]. apply mapM_all in MP. pose proof (Forall2_same _ _ _ _ _ MP) as LP. unfold cylinder64 in H. destruct (mapM _ (combine _ _)) as [ud|] eqn:MC; cbn [bind] in H; [|discriminate]. destruct (_ && _); [|discriminate]. injection H as <- <-. apply mapM_all in MC. pose proof (Forall2_same _ _ _ _ _ MC) as LC. rewrite combine_length, !rev_length, map_length, <- LP, Nat.min_id in LC.
  rewrite !map_length. split; [congruence|]. split; [congruence|]. intros i s M Hs (Mp & Mr & Ms & Fk & Nq & V4 & BQ & BA & BK & BI & BM).
  destruct (Forall2_find _ _ _ _ _ (Forall2_back _ _ _ _ _ MP) i s Hs) as (q & Hq & Pq). assert (Hr : nth_error (rev (map sradius blade)) i = Some (sradius s)) by (rewrite <- map_rev; apply map_nth_error; exact Hs).
  destruct (Forall2_find _ _ _ _ _ MC i _ (combine_at _ _ _ _ _ _ _ Hq Hr)) as ((U & D) & Hud & Eud). cbn [fst snd] in Eud.
  assert (L : lay64 (how s) at64 tn64 sn cs refl (spitch s) (sradius s) (sskew s) (srake s) (ssection s) = Ok (U, D)) by (unfold lay64; rewrite Pq; cbn [bind]; exact Eud).
  pose proof (laid_section (how s) at64 tn64 sn cs refl _ _ _ _ _ M At Tn Sn Cs S1 C1 Mp Mr Ms Fk Nq V4 BQ BA BK BI BM) as Z. rewrite L in Z. cbv zeta in Z. fold (slope s) in Z. fold (true_place refl s) in Z. destruct (true_place refl s) as [exact|]; [|contradiction]. destruct Z as (Z1 & Z2).
  exists exact, U, D. split; [reflexivity|]. split; [exact (map_nth_error fst _ _ Hud)|]. split; [exact (map_nth_error snd _ _ Hud)|]. split; [exact Z1|exact Z2].
Qed.

Definition sized (n m : nat) (q : fprofile) : Prop := length (fxup q) = n /\ length (fyup q) = n /\ length (fxdown q) = m /\ length (fydown q) = m.
Lemma place_sized : forall how at64 tn64 sn cs refl p r s k q n m, sized n m q -> (n <= m)%nat -> exists q', place64 how at64 tn64 sn cs refl p r s k q = Ok q' /\ sized n m q'.
Proof.
  intros how at64 tn64 sn cs refl p r s k q n m Sq nm. unfold place64. set (q1 := if refl then reflect64 q else q). assert (Q1 : sized n m q1). { unfold q1. destruct refl; [|exact Sq]. destruct Sq as (A & B & C & D). unfold sized, reflect64, scale_coords64. cbn [fxup fxdown fyup fydown]. rewrite ?map_length. repeat split; assumption. }
  destruct Q1 as (A & B & C & D). unfold rotate64. rewrite A, B, C, D, !Nat.eqb_refl. cbn [negb]. destruct (Nat.ltb_spec m n); [lia|]. cbn [bind]. eexists. split; [reflexivity|]. unfold sized, translate64, dots. cbn [fxup fxdown fyup fydown]. rewrite ?map_length, ?app_length, ?map_length, ?seq_length, ?repeat_length. lia.
Qed.
Lemma row_built : forall how at64 tn64 sn cs refl blade n m, blade <> [] -> (n <= m)%nat ->
  Forall (fun s => length (fxup (ssection s)) = n /\ length (fyup (ssection s)) = n /\ length (fxdown (ssection s)) = m /\ length (fydown (ssection s)) = m) blade ->
  exists up down, blade64 how at64 tn64 sn cs refl blade = Ok (up, down).
Proof.
  intros how at64 tn64 sn cs refl blade n m NE nm F. unfold blade64. match goal with |- exists up down, bind (mapM ?g _) _ = _ => destruct (mapM_ok _ _ g (sized n m) blade) as (placed & E & P & L) end.
  { eapply Forall_impl; [|exact F]. intros s Ss. apply place_sized; assumption. } rewrite E. cbn [bind]. apply (cylinders_built _ _ _ _ n m); [intros ->; destruct blade; [auto|discriminate]|intros M; apply map_eq_nil in M; auto|exact P].
Qed.
(** The first section that cannot be turned decides. *)
Lemma row_refused : forall how at64 tn64 sn cs refl before s after n m, Forall (fun s => length (fxup (ssection s)) = n /\ length (fyup (ssection s)) = n /\ length (fxdown (ssection s)) = m /\ length (fydown (ssection s)) = m) before -> (n <= m)%nat ->
  length (fxup (ssection s)) = length (fyup (ssection s)) -> length (fxdown (ssection s)) = length (fydown (ssection s)) -> (length (fxdown (ssection s)) < length (fxup (ssection s)))%nat ->
  blade64 how at64 tn64 sn cs refl (before ++ s :: after) = Err IndexError.
Proof.
  intros how at64 tn64 sn cs refl before s after n m F nm L1 L2 L3. unfold blade64. match goal with |- bind (mapM ?g _) _ = _ => set (f := g) end.
  assert (E : f s = Err IndexError). { unfold f, place64, rotate64. destruct refl; cbn [reflect64 scale_coords64 fxup fxdown fyup fydown]; rewrite ?map_length, L1, L2, !Nat.eqb_refl; cbn [negb]; destruct (Nat.ltb_spec (length (fydown (ssection s))) (length (fyup (ssection s)))); try reflexivity; lia. }
  assert (G : mapM f (before ++ s :: after) = Err IndexError). { induction F as [|b before Fb F IH]; cbn [app mapM]; [rewrite E; reflexivity|]. assert (Q : exists q, f b = Ok q) by (edestruct place_sized as (q & Q & _); [exact Fb|exact nm|exists q; exact Q]). destruct Q as (q & Q). rewrite Q. cbn [bind]. rewrite IH. reflexivity. }
  rewrite G. reflexivity.
Qed.
