(** The lines of a written file. *)
From Coq Require Import String List ZArith Ascii Bool Arith Lia.
From Verif Require Import Base TextModel TextProofs ParamsModel ParamsSpec ParamsProofs ParamsProofs2 ParamsProofs3.
Import ListNotations.
Open Scope nat_scope.

Lemma text_app : forall a b, text_of (a ++ b) = text_of a ++ text_of b.
Proof. intros. unfold text_of. rewrite map_app, concat_app. reflexivity. Qed.
Lemma text_cons : forall l ls, text_of (l :: ls) = l ++ nl :: text_of ls.
Proof. intros. unfold text_of. cbn [map List.concat]. rewrite <- app_assoc. reflexivity. Qed.
Lemma text_flat : forall {A} (f : A -> list (list ascii)) l, text_of (flat_map f l) = List.concat (map (fun x => text_of (f x)) l).
Proof. intros A f. induction l as [|x l IH]; [reflexivity|]. cbn [flat_map map List.concat]. rewrite text_app, IH. reflexivity. Qed.

Ltac flat := repeat (rewrite <- app_assoc || rewrite <- app_comm_cons || rewrite app_nil_l || rewrite app_nil_r).
Section P.
Variable F : Type.
Variable cd : codec F.

Lemma aligned_text : forall (name : list ascii) first column v, v <> [] -> (List.length name + first)%nat = column ->
  text_of (aligned column name (map (c_show cd) v)) = name ++ show_lines F cd first column v.
Proof.
  intros name first column [|x v] NE E; [contradiction|]. cbn [map aligned show_lines]. rewrite text_cons. unfold pad.
  replace (column - List.length name) with first by lia. rewrite <- !app_assoc. do 4 f_equal.
  clear x NE. cbn [List.length]. rewrite Nat.sub_0_r. induction v as [|x v IH]; [reflexivity|]. cbn [map show_lines]. rewrite text_cons, IH, <- app_assoc. reflexivity.
Qed.

Theorem file_text : forall p, consistent p -> populated p -> show_params F cd p = text_of (parameter_lines cd p).
Proof.
  intros p (r & R & C) (P1 & P2). rewrite R in P1. cbn [or_empty] in P1.
  assert (V : forall k, or_empty F (at_key (parameters F p) k) <> []).
  { intros k. destruct (C k) as ((v & -> & E) & _). cbn [or_empty]. intros ->. destruct r; [contradiction|discriminate]. }
  assert (N : forall k, firstn (Z.to_nat (at_key (nbasis F p) k)) (at_key (deformations F p) k) = at_key (deformations F p) k).
  { intros k. destruct (C k) as (_ & ->). rewrite Nat2Z.id. apply firstn_all. }
  assert (D : forall k name, key_name k = name -> (List.length name + gap k)%nat = 6%nat ->
    text_of (distribution_lines cd p (k, name)) = show_distribution F cd k (or_empty F (at_key (parameters F p) k))).
  { intros k name E G. unfold distribution_lines, show_distribution. cbn [fst snd]. rewrite text_cons, (aligned_text _ (gap k)); [|apply V|].
    - rewrite E, <- !app_assoc. reflexivity.
    - rewrite !app_length. cbn [L list_ascii_of_string List.length]. lia. }
  assert (S : forall k a b, section_name k = a ++ L " B-Spline" -> upper_name k = b -> text_of (spline_lines cd p (k, (a, b))) =
    show_section F cd k (at_key (degree F p) k) (at_key (npoints F p) k) (at_key (nbasis F p) k) (at_key (deformations F p) k)).
  { intros k a b E1 E2. unfold spline_lines, show_section. cbn [fst snd]. rewrite text_app, !text_cons, (aligned_text _ 1); [|apply P2|reflexivity].
    rewrite E1, E2, N. change (text_of []) with (@nil ascii). flat. reflexivity. }
  unfold show_params, parameter_lines. rewrite !text_app, !text_flat, (aligned_text _ 1); [|rewrite R; exact P1|reflexivity].
  cbn [map List.concat keys]. rewrite !D by reflexivity. rewrite !S by reflexivity. rewrite !text_cons. change (text_of []) with (@nil ascii). flat. reflexivity.
Qed.

Theorem written_text : forall fs p f fs' p', write_parameters F cd fs p (AStr f) = (fs', (p', Ok tt)) -> populated p' ->
  fs' f = Some (text_of (parameter_lines cd p')).
Proof.
  intros fs p f fs' p' H P. apply write_inv in H as [(H & _)|(_ & -> & _ & C & _)]; [discriminate|].
  rewrite <- file_text by assumption. unfold put. rewrite eqb_str_refl. reflexivity.
Qed.

Lemma read_errors : forall fs q a fs' p o, read_parameters F cd fs q a = (fs', (p, o)) ->
  (a = AOther <-> o = Err TypeError) /\ (a = AOther -> fs' = fs /\ p = q) /\
  (o = Ok tt \/ o = Err TypeError \/ o = Err ConfigError \/ o = Err ValueError).
Proof.
  intros fs q [f|] fs' p o H; cbn [read_parameters] in H; [|injection H as <- <- <-; repeat split; auto].
  assert (LD : forall q' t, load F cd q' t = (p, o) -> o = Ok tt \/ o = Err ConfigError \/ o = Err ValueError).
  { intros q' t E. destruct o as [[]|e]; auto. destruct (proj1 (proj2 (load_inv F cd _ _ _ _ E)) e eq_refl) as [->| ->]; auto. }
  assert (G : o = Ok tt \/ o = Err ConfigError \/ o = Err ValueError).
  { destruct (fs f) as [t|]; [injection H as _ H; eauto|].
    destruct (write_parameters F cd fs (set_radii F q (Some (c_arange cd))) (AStr f)) as (fs1 & p1 & o1) eqn:W. apply write_cases in W.
    destruct o1 as [u|e]; [destruct (fs1 f) as [t|]; [injection H as _ H; eauto|injection H as _ _ <-; auto]|]. injection H as _ _ <-.
    destruct W as [(_ & X & _)|[(X & _)|(g & X & _)]]; [discriminate|injection X as ->; auto|discriminate]. }
  split; [|split; [discriminate|tauto]]. split; [discriminate|]. intros ->. destruct G as [G|[G|G]]; discriminate.
Qed.
End P.
