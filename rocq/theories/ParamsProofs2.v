(** Round trip, validation and failure behaviour of parameter files. *)
From Coq Require Import List ZArith Ascii String Bool Arith Lia.
From Verif Require Import Base TextModel TextProofs ParamsModel ParamsSpec ParamsProofs.
Import ListNotations.
Open Scope nat_scope.

Section P.
Variable F : Type.
Variable cd : codec F.
Notation par := (params F).

Lemma at_set : forall {A} k k' (v : A) d, at_key (set_key k v d) k' = if (match k, k' with
  | Chord, Chord | Pitch, Pitch | Rake, Rake | Skew, Skew | Camber, Camber => true | _, _ => false end) then v else at_key d k'.
Proof. intros A [] [] v []; reflexivity. Qed.
Lemma dict_ext : forall {A} (a b : dict A), (forall k, at_key a k = at_key b k) -> a = b.
Proof.
  intros A [] [] H. pose proof (H Chord). pose proof (H Pitch). pose proof (H Rake). pose proof (H Skew). pose proof (H Camber).
  simpl in *. subst. auto.
Qed.

Lemma consistent_full : forall p : par, consistent p -> populated p -> full F p.
Proof.
  intros p (r & R & K) [N D]. split; auto. intros k. destruct (K k) as [(v & V & L) B]. split; [|split]; auto.
  rewrite V. simpl. rewrite R in N. simpl in N. destruct v; [|discriminate]. destruct r; [congruence|discriminate].
Qed.

Lemma get_dist : forall p k, all_printable cd p -> get (conf_of F cd p) (L "Original parameters") (L "Radial distribution of " ++ key_name k) =
  Ok (join_nl (words_of F cd (or_empty F (at_key (parameters F p) k)))).
Proof.
  intros p k [PR PK].
  assert (exists n, get (conf_of F cd p) (L "Original parameters") (L "Radial distribution of " ++ key_name k) =
    Ok (rstrip (join_nl (words_of F cd (or_empty F (at_key (parameters F p) k)) ++ repeat [] n)))) as [n ->].
  { destruct k; [exists 1|exists 1|exists 1|exists 1|exists 2]; reflexivity. }
  rewrite get_words; auto. apply PK.
Qed.
Lemma get_def : forall p k, all_printable cd p -> get (conf_of F cd p) (section_name k) (L "control points Y-deformations") =
  Ok (join_nl (words_of F cd (at_key (deformations F p) k))).
Proof.
  intros p k [PR PK].
  assert (exists n, get (conf_of F cd p) (section_name k) (L "control points Y-deformations") =
    Ok (rstrip (join_nl (words_of F cd (at_key (deformations F p) k) ++ repeat [] n)))) as [n ->].
  { destruct k; [exists 2|exists 2|exists 2|exists 2|exists 0]; reflexivity. }
  rewrite get_words; auto. apply PK.
Qed.
Lemma get_ints : forall p k, getint (conf_of F cd p) (section_name k) (L "spline degree") = Ok (at_key (degree F p) k) /\
  getint (conf_of F cd p) (section_name k) (L "spline npoints") = Ok (at_key (npoints F p) k) /\
  getint (conf_of F cd p) (section_name k) (L "number of control points") = Ok (at_key (nbasis F p) k).
Proof.
  intros p k.
  assert (G : forall o n, get (conf_of F cd p) (section_name k) o = Ok (rstrip (join_nl [show_int n; []])) ->
    getint (conf_of F cd p) (section_name k) o = Ok n).
  { intros o n H. unfold getint. rewrite H. cbn [bind]. rewrite get_int_line. auto. }
  split; [|split]; apply G; destruct k; reflexivity.
Qed.

Lemma for_each_pure : forall {K} (body : par -> K -> meth F unit) f, (forall q k, body q k = (f q k, Ok tt)) ->
  forall ks q, for_each F body ks q = (fold_left f ks q, Ok tt).
Proof. induction ks; intros q; simpl; auto. rewrite H. simpl. auto. Qed.

Lemma load_written : forall p q, consistent p -> populated p -> all_printable cd p ->
  load F cd q (show_params F cd p) = (p, Ok tt).
Proof.
  intros p q C N PR. pose proof (consistent_full p C N) as FU. unfold load. rewrite parse_written by auto.
  destruct FU as [RN FK]. destruct C as (r & R & K).
  unfold read_radii.
  assert (G : get (conf_of F cd p) (L "Original parameters") (L "Radial sections") = Ok (join_nl (words_of F cd (or_empty F (radii F p))))).
  { change (get (conf_of F cd p) (L "Original parameters") (L "Radial sections")) with
      (Ok (rstrip (join_nl (words_of F cd (or_empty F (radii F p)) ++ repeat [] 1)))).
    rewrite get_words; auto. apply PR. }
  rewrite G. rewrite split_words, read_words; auto; try apply PR. rewrite R. cbn [or_empty andthen].
  assert (RD : forall q k, read_distribution F cd (conf_of F cd p) q k = (set_parameter F q k (or_empty F (at_key (parameters F p) k)), Ok tt)).
  { intros q0 k. unfold read_distribution. rewrite get_dist by auto. rewrite split_words, read_words; auto; try apply PR; try apply FK. }
  assert (RS : forall q k, read_section F cd (conf_of F cd p) q k =
    (set_deformations F (set_nbasis F (set_npoints F (set_degree F q k (at_key (degree F p) k)) k (at_key (npoints F p) k)) k (at_key (nbasis F p) k)) k (at_key (deformations F p) k), Ok tt)).
  { intros q0 k. unfold read_section. destruct (get_ints p k) as (-> & -> & ->). rewrite get_def by auto.
    destruct (FK k) as (_ & DN & DL).
    destruct (join_nl (words_of F cd (at_key (deformations F p) k))) eqn:J.
    - exfalso. pose proof (split_words F cd _ DN (proj2 (proj2 PR k))) as S. rewrite J in S.
      destruct (at_key (deformations F p) k) as [|x l] eqn:E; [congruence|]. cbn [words_of map split_nl] in S. injection S as S1 S2.
      assert (printable cd x) by (pose proof (proj2 (proj2 PR k)) as Z; rewrite E in Z; inversion Z; auto).
      destruct H as (Q & _). congruence.
    - rewrite <- J. rewrite split_words, read_words; auto; try apply PR. rewrite <- DL, Z.eqb_refl. auto. }
  rewrite (for_each_pure _ _ RD). cbn [andthen]. rewrite (for_each_pure _ _ RS).
  match goal with |- context [lengths_agree F ?x] => assert (LA : lengths_agree F x = true) end.
  { unfold lengths_agree. apply forallb_forall. intros k _. apply Nat.eqb_eq. destruct (K k) as [(v & V & VL) _].
    destruct k; cbn [at_key] in V; simpl; rewrite V; simpl; auto. }
  rewrite LA. cbn [negb]. f_equal.
  destruct p as [pr [v1 v2 v3 v4 v5] [b1 b2 b3 b4 b5] [d1 d2 d3 d4 d5] [n1 n2 n3 n4 n5] [f1 f2 f3 f4 f5]]. simpl in *. subst pr.
  destruct (K Chord) as [(w1 & W1 & _) _]. destruct (K Pitch) as [(w2 & W2 & _) _]. destruct (K Rake) as [(w3 & W3 & _) _].
  destruct (K Skew) as [(w4 & W4 & _) _]. destruct (K Camber) as [(w5 & W5 & _) _]. simpl in *. subst. reflexivity.
Qed.

(** ** Checks before writing *)
Definition fill (n : nat) (p : par) (k : key) : par :=
  match at_key (parameters F p) k with
  | None => set_parameter F p k (repeat (c_zero cd) n)
  | Some _ => p
  end.
Lemma fill_other : forall n p k, radii F (fill n p k) = radii F p /\ nbasis F (fill n p k) = nbasis F p /\ degree F (fill n p k) = degree F p /\
  npoints F (fill n p k) = npoints F p /\ deformations F (fill n p k) = deformations F p.
Proof. intros n p k. unfold fill. destruct (at_key (parameters F p) k); auto. Qed.
Lemma fill_at : forall n p k k', at_key (parameters F (fill n p k)) k' = 
  if (match k, k' with Chord, Chord | Pitch, Pitch | Rake, Rake | Skew, Skew | Camber, Camber => true | _, _ => false end)
  then Some (match at_key (parameters F p) k with Some v => v | None => repeat (c_zero cd) n end) else at_key (parameters F p) k'.
Proof.
  intros n p k k'. unfold fill. destruct (at_key (parameters F p) k) eqn:E.
  - destruct k, k'; auto.
  - cbn [set_parameter parameters]. rewrite at_set. auto.
Qed.
Lemma check_param_val : forall n p k, check_param F cd n p k = (fill n p k,
  if Nat.eqb (List.length (match at_key (parameters F p) k with Some v => v | None => repeat (c_zero cd) n end)) n &&
     Z.eqb (at_key (nbasis F p) k) (Z.of_nat (List.length (at_key (deformations F p) k))) then Ok tt else Err ValueError)%bool.
Proof.
  intros n p k. unfold check_param. fold (fill n p k). rewrite fill_at. destruct (fill_other n p k) as (_ & -> & _ & _ & ->).
  replace (match k with Chord => match k with Chord => true | _ => false end | Pitch => match k with Pitch => true | _ => false end
    | Rake => match k with Rake => true | _ => false end | Skew => match k with Skew => true | _ => false end
    | Camber => match k with Camber => true | _ => false end end) with true by (destruct k; auto).
  destruct (Nat.eqb _ n); simpl; auto. destruct (Z.eqb _ _); auto.
Qed.
Lemma check_param_ok : forall n p k, fits_key n p k -> check_param F cd n p k = (fill n p k, Ok tt).
Proof.
  intros n p k [A B]. rewrite check_param_val. rewrite B, Z.eqb_refl, andb_true_r.
  destruct (at_key (parameters F p) k) as [v|]; [rewrite (A v eq_refl)|rewrite repeat_length]; rewrite Nat.eqb_refl; auto.
Qed.
Lemma fits_fill : forall n p k k', fits_key n p k' -> fits_key n (fill n p k) k'.
Proof.
  intros n p k k' [A B]. destruct (fill_other n p k) as (_ & E1 & _ & _ & E2). split; [|rewrite E1, E2; auto].
  intros v. rewrite fill_at. destruct k, k'; auto; destruct (at_key (parameters F p) _) eqn:Q; intros H; injection H as <-; auto using repeat_length.
Qed.
Lemma fold_fill : forall p, fold_left (fill (List.length (or_empty F (radii F p)))) keys p = zero_filled cd p.
Proof.
  intros [r [v1 v2 v3 v4 v5] nb dg np df]. unfold zero_filled. cbn [radii parameters nbasis degree npoints deformations d_chord d_pitch d_rake d_skew d_camber].
  set (n := List.length (or_empty F r)). clearbody n. cbn [fold_left keys].
  unfold fill at 5. cbn [parameters at_key d_chord]. destruct v1; cbn [set_parameter set_key radii parameters nbasis degree npoints deformations d_chord d_pitch d_rake d_skew d_camber].
  all: unfold fill at 4; cbn [parameters at_key d_pitch]; destruct v2; cbn [set_parameter set_key radii parameters nbasis degree npoints deformations d_chord d_pitch d_rake d_skew d_camber].
  all: unfold fill at 3; cbn [parameters at_key d_rake]; destruct v3; cbn [set_parameter set_key radii parameters nbasis degree npoints deformations d_chord d_pitch d_rake d_skew d_camber].
  all: unfold fill at 2; cbn [parameters at_key d_skew]; destruct v4; cbn [set_parameter set_key radii parameters nbasis degree npoints deformations d_chord d_pitch d_rake d_skew d_camber].
  all: unfold fill; cbn [parameters at_key d_camber]; destruct v5; reflexivity.
Qed.
Lemma check_loop : forall ks n p, (forall k, In k ks -> fits_key n p k) -> for_each F (check_param F cd n) ks p = (fold_left (fill n) ks p, Ok tt).
Proof.
  induction ks as [|k ks IH]; intros n p H; simpl; auto. rewrite check_param_ok by (apply H; left; auto). simpl.
  apply IH. intros k' I. apply fits_fill, H. right; auto.
Qed.
Lemma check_params_ok : forall p r, radii F p = Some r -> (forall k, fits_key (List.length r) p k) ->
  check_params F cd p = (zero_filled cd p, Ok tt).
Proof.
  intros p r R H. unfold check_params. rewrite R. rewrite check_loop by auto. rewrite <- fold_fill, R. auto.
Qed.
(** A check that fails: ValueError. *)
Lemma check_loop_inv : forall ks n p p', for_each F (check_param F cd n) ks p = (p', Ok tt) -> forall k, In k ks -> fits_key n p k.
Proof.
  induction ks as [|k0 ks IH]; intros n p p' H k I; [contradiction|]. simpl in H. rewrite check_param_val in H.
  destruct (_ && _)%bool eqn:E; [|discriminate]. cbn [andthen] in H. apply andb_prop in E. destruct E as [E1 E2].
  apply Nat.eqb_eq in E1. apply Z.eqb_eq in E2. destruct I as [->|I].
  - split; auto. intros v V. rewrite V in E1. auto.
  - specialize (IH _ _ _ H k I). destruct IH as [A B]. destruct (fill_other n p k0) as (_ & Q1 & _ & _ & Q2). rewrite Q1, Q2 in B. split; auto.
    intros v V. apply A. rewrite fill_at. destruct k0, k; auto; rewrite V; auto.
Qed.
Lemma check_loop_err : forall ks n p p' e, for_each F (check_param F cd n) ks p = (p', Err e) -> e = ValueError.
Proof.
  induction ks as [|k0 ks IH]; intros n p p' e H; [discriminate|]. simpl in H. rewrite check_param_val in H.
  destruct (_ && _)%bool eqn:E; cbn [andthen] in H; eauto. congruence.
Qed.
Lemma check_params_inv : forall p p' o, check_params F cd p = (p', o) ->
  (o = Err ValueError /\ ~ (exists r, radii F p = Some r /\ forall k, fits_key (List.length r) p k)) \/
  (o = Ok tt /\ p' = zero_filled cd p /\ exists r, radii F p = Some r /\ forall k, fits_key (List.length r) p k).
Proof.
  intros p p' o H. unfold check_params in H. destruct (radii F p) as [r|] eqn:R.
  - destruct o as [[]|e].
    + right. assert (FK : forall k, fits_key (List.length r) p k).
      { intros k. apply (check_loop_inv keys _ _ _ H). destruct k; simpl; tauto. }
      split; auto. split; eauto. rewrite check_loop in H by auto. injection H as <-. rewrite <- fold_fill, R. auto.
    + left. pose proof (check_loop_err _ _ _ _ _ H) as ->. split; auto. intros (r' & E & FK). injection E as <-.
      rewrite check_loop in H by auto. discriminate.
  - left. injection H as <- <-. split; auto. intros (r' & E & _). discriminate.
Qed.
Lemma zero_filled_at : forall p k, at_key (parameters F (zero_filled cd p)) k =
  Some (match at_key (parameters F p) k with Some v => v | None => repeat (c_zero cd) (List.length (or_empty F (radii F p))) end).
Proof. intros p []; reflexivity. Qed.
Lemma zero_filled_consistent : forall p r, radii F p = Some r -> (forall k, fits_key (List.length r) p k) -> consistent (zero_filled cd p).
Proof.
  intros p r R H. exists r. split; auto. intros k. destruct (H k) as [A B]. split; auto. rewrite zero_filled_at, R. simpl.
  destruct (at_key (parameters F p) k) as [v|]; eexists; split; eauto using repeat_length.
Qed.
Lemma zero_filled_id : forall p, consistent p -> zero_filled cd p = p.
Proof.
  intros [r [v1 v2 v3 v4 v5] nb dg np df] (r' & R & K).
  destruct (K Chord) as [(w1 & W1 & _) _]. destruct (K Pitch) as [(w2 & W2 & _) _]. destruct (K Rake) as [(w3 & W3 & _) _].
  destruct (K Skew) as [(w4 & W4 & _) _]. destruct (K Camber) as [(w5 & W5 & _) _]. simpl in *. subst. reflexivity.
Qed.
End P.
