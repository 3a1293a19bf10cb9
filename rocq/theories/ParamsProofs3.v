(** Theorems about whole read / write calls. *)
From Coq Require Import List ZArith Ascii String Bool Arith Lia.
From Verif Require Import Base TextModel TextProofs ParamsModel ParamsSpec ParamsProofs ParamsProofs2.
Import ListNotations.
Open Scope nat_scope.

Section P.
Variable F : Type.
Variable cd : codec F.
Notation par := (params F).

Lemma eqb_str_refl : forall s, eqb_str s s = true.
Proof. intros. unfold eqb_str. destruct (list_eq_dec ascii_dec s s); congruence. Qed.
Lemma eqb_str_neq : forall s t, s <> t -> eqb_str s t = false.
Proof. intros. unfold eqb_str. destruct (list_eq_dec ascii_dec s t); congruence. Qed.

Lemma write_inv : forall fs p f fs' p' o, write_parameters F cd fs p (AStr f) = (fs', (p', o)) ->
  (o = Err ValueError /\ fs' = fs /\ ~ (exists r, radii F p = Some r /\ forall k, fits_key (List.length r) p k)) \/
  (o = Ok tt /\ fs' = put fs f (show_params F cd p') /\ p' = zero_filled cd p /\ consistent p' /\
    exists r, radii F p = Some r /\ forall k, fits_key (List.length r) p k).
Proof.
  intros fs p f fs' p' o H. cbn [write_parameters] in H. destruct (check_params F cd p) as [q [[]|e]] eqn:C;
    destruct (check_params_inv _ _ _ _ _ C) as [(E1 & E2)|(E1 & E2 & r & R & FK)]; try discriminate; injection H as <- <- <-.
  - right. split; auto. split; auto. split; auto. split; eauto. subst. eapply zero_filled_consistent; eauto.
  - left. split; auto.
Qed.
Lemma write_ok : forall fs p f r, radii F p = Some r -> (forall k, fits_key (List.length r) p k) ->
  write_parameters F cd fs p (AStr f) = (put fs f (show_params F cd (zero_filled cd p)), (zero_filled cd p, Ok tt)).
Proof. intros. cbn [write_parameters]. rewrite (check_params_ok F cd p r); auto. Qed.

Lemma round_trip : forall fs p f fs' p' q, write_parameters F cd fs p (AStr f) = (fs', (p', Ok tt)) ->
  populated p' -> all_printable cd p' -> read_parameters F cd fs' q (AStr f) = (fs', (p', Ok tt)).
Proof.
  intros fs p f fs' p' q H N PR. destruct (write_inv _ _ _ _ _ _ H) as [(E & _)|(_ & -> & _ & C & _)]; [discriminate|].
  cbn [read_parameters]. unfold put at 1. rewrite eqb_str_refl. f_equal. apply load_written; auto.
Qed.

(** ** Successful reads *)
Lemma read_array_length : forall ls xs r, read_array F cd ls = (xs, r) -> List.length xs = List.length ls.
Proof.
  induction ls as [|l ls IH]; intros xs r H; cbn [read_array] in H; [injection H as <- <-; auto|].
  destruct (Nat.ltb 1 (count_words false l)); [injection H as <- <-; simpl; rewrite map_length; auto|].
  destruct (c_read cd l); [|injection H as <- <-; simpl; rewrite map_length; auto].
  destruct (read_array F cd ls) as [ys r'] eqn:E. injection H as <- <-. simpl. f_equal. eauto.
Qed.
Lemma read_array_err : forall ls xs e, read_array F cd ls = (xs, Err e) -> e = ValueError.
Proof.
  induction ls as [|l ls IH]; intros xs e H; cbn [read_array] in H; [discriminate|].
  destruct (Nat.ltb 1 (count_words false l)); [congruence|]. destruct (c_read cd l); [|congruence].
  destruct (read_array F cd ls) as [ys r'] eqn:E. injection H as <- ->. eauto.
Qed.
Lemma get_err : forall c s o e, get c s o = Err e -> e = ConfigError.
Proof.
  intros c s o e. unfold get. destruct (lookup s c); [|congruence]. destruct (lookup (lower o) l); [congruence|].
  destruct (lookup default_section c); [|congruence]. destruct (lookup (lower o) l0); congruence.
Qed.
Lemma getint_err : forall c s o e, getint c s o = Err e -> e = ConfigError \/ e = ValueError.
Proof.
  intros c s o e. unfold getint. destruct (get c s o) eqn:G; cbn [bind].
  - destruct (parse_int a); [discriminate|]. intros H; injection H as <-; auto.
  - intros H; injection H as <-. left. eapply get_err; eauto.
Qed.
Lemma parse_config_err : forall t e, parse_config t = Err e -> e = ConfigError.
Proof.
  intros t e. unfold parse_config.
  assert (H : forall st l e, read_line st l = Err e -> e = ConfigError).
  { assert (RH : forall st i v e, read_header st i v = Err e -> e = ConfigError).
    { intros st i v e0. unfold read_header. destruct (header_of v).
      - destruct (lookup _ _); [destruct (eqb_str _ _)|]; congruence.
      - destruct (p_sect st); [|congruence]. destruct (option_of v) as [[? ?]|]; [|congruence].
        destruct (lookup (lower _) _); congruence. }
    intros st l e0. unfold read_line. destruct (is_comment l); [congruence|].
    destruct (strip l); destruct (p_sect st); try destruct (p_opt st) as [[|? ?]|]; try congruence; eauto.
    destruct (Nat.ltb _ _); [congruence|eauto]. }
  assert (HS : forall ls st e, read_lines st ls = Err e -> e = ConfigError).
  { induction ls as [|l ls IH]; intros st e0 E; cbn [read_lines] in E; [discriminate|].
    destruct (read_line st l) eqn:R; cbn [bind] in E; eauto. injection E as <-. eauto. }
  destruct (read_lines _ _) eqn:R; cbn [bind].
  - destruct (p_bad a); congruence.
  - intros E; injection E as <-; eauto.
Qed.

Definition loaded_arrays (p : par) : Prop :=
  or_empty F (radii F p) <> [] /\ radii F p <> None /\ forall k, at_key (parameters F p) k <> None.

Lemma read_radii_inv : forall c q p o, read_radii F cd c q = (p, o) ->
  (exists r, radii F p = r /\ (o = Ok tt -> or_empty F r <> [] /\ r <> None)) /\ parameters F p = parameters F q /\ nbasis F p = nbasis F q /\
  degree F p = degree F q /\ npoints F p = npoints F q /\ deformations F p = deformations F q /\
  (forall e, o = Err e -> e = ConfigError \/ e = ValueError) /\
  (forall q', o = Ok tt -> exists p', read_radii F cd c q' = (p', Ok tt) /\ radii F p' = radii F p).
Proof.
  intros c q p o H. unfold read_radii in *. destruct (get c _ _) as [s|e] eqn:G.
  - destruct (read_array F cd (split_nl s)) as [xs r] eqn:A. injection H as <- <-. cbn [set_radii radii parameters nbasis degree npoints deformations].
    split; [eexists; split; [reflexivity|]|repeat split; auto].
    + intros _. split; [|discriminate]. cbn [or_empty]. pose proof (read_array_length _ _ _ A) as LN. pose proof (split_nl_nonempty s).
      destruct xs; [|discriminate]. destruct (split_nl s); [congruence|discriminate].
    + intros e ->. right. eapply read_array_err; eauto.
    + intros q' ->. eexists. split; reflexivity.
  - injection H as <- <-. split; [eexists; split; [reflexivity|discriminate]|repeat split; auto].
    + intros e' E. injection E as <-. left. eapply get_err; eauto.
    + discriminate.
Qed.
Lemma read_distribution_inv : forall c q k p o, read_distribution F cd c q k = (p, o) ->
  (o = Ok tt -> at_key (parameters F p) k <> None) /\ (forall k', at_key (parameters F q) k' <> None -> at_key (parameters F p) k' <> None) /\
  (forall k', k' <> k -> at_key (parameters F p) k' = at_key (parameters F q) k') /\
  radii F p = radii F q /\ nbasis F p = nbasis F q /\ degree F p = degree F q /\ npoints F p = npoints F q /\ deformations F p = deformations F q /\
  (forall e, o = Err e -> e = ConfigError \/ e = ValueError) /\
  (forall q', o = Ok tt -> exists p', read_distribution F cd c q' k = (p', Ok tt) /\ at_key (parameters F p') k = at_key (parameters F p) k).
Proof.
  intros c q k p o H. unfold read_distribution in *. destruct (get c _ _) as [s|e] eqn:G.
  - destruct (read_array F cd (split_nl s)) as [xs r] eqn:A. injection H as <- <-. cbn [set_parameter radii parameters nbasis degree npoints deformations].
    repeat split; auto.
    + intros _. rewrite at_set. destruct k; discriminate.
    + intros k' H. rewrite at_set. destruct k, k'; auto; discriminate.
    + intros k' N. rewrite at_set. destruct k, k'; auto; congruence.
    + intros e ->. right. eapply read_array_err; eauto.
    + intros q' ->. eexists. split; [reflexivity|]. cbn [set_parameter parameters]. rewrite !at_set. destruct k; auto.
  - injection H as <- <-. repeat split; auto; try discriminate.
    intros e' E. injection E as <-. left. eapply get_err; eauto.
Qed.
Lemma read_section_inv : forall c q k p o, read_section F cd c q k = (p, o) ->
  radii F p = radii F q /\ parameters F p = parameters F q /\
  (o = Ok tt -> at_key (nbasis F p) k = Z.of_nat (List.length (at_key (deformations F p) k)) /\ at_key (deformations F p) k <> []) /\
  (forall k', k' <> k -> at_key (nbasis F p) k' = at_key (nbasis F q) k' /\ at_key (degree F p) k' = at_key (degree F q) k' /\
     at_key (npoints F p) k' = at_key (npoints F q) k' /\ at_key (deformations F p) k' = at_key (deformations F q) k') /\
  (forall e, o = Err e -> e = ConfigError \/ e = ValueError) /\
  (forall q', o = Ok tt -> exists p', read_section F cd c q' k = (p', Ok tt) /\ at_key (nbasis F p') k = at_key (nbasis F p) k /\
     at_key (degree F p') k = at_key (degree F p) k /\ at_key (npoints F p') k = at_key (npoints F p) k /\
     at_key (deformations F p') k = at_key (deformations F p) k).
Proof.
  intros c q k p o H. unfold read_section in *.
  assert (Q : forall {A} (v : A) d k', k' <> k -> at_key (set_key k v d) k' = at_key d k') by (intros A v d k' N; rewrite at_set; destruct k, k'; auto; congruence).
  assert (Q1 : forall {A} (v : A) d, at_key (set_key k v d) k = v) by (intros A v d; rewrite at_set; destruct k; auto).
  destruct (getint c _ (L "spline degree")) as [d|e] eqn:G1.
  2:{ injection H as <- <-. repeat split; auto; try discriminate. intros e' E. injection E as <-. eapply getint_err; eauto. }
  destruct (getint c _ (L "spline npoints")) as [n|e] eqn:G2.
  2:{ injection H as <- <-. repeat split; auto; try discriminate. 2:{ intros e' E. injection E as <-. eapply getint_err; eauto. }
      cbn [set_degree degree]. auto. }
  destruct (getint c _ (L "number of control points")) as [m|e] eqn:G3.
  2:{ injection H as <- <-. repeat split; auto; try discriminate; cbn [set_degree set_npoints degree npoints]; auto.
      intros e' E. injection E as <-. eapply getint_err; eauto. }
  destruct (get c _ (L "control points Y-deformations")) as [s|e] eqn:G4.
  2:{ injection H as <- <-. repeat split; auto; try discriminate; cbn [set_degree set_npoints set_nbasis degree npoints nbasis]; auto.
      intros e' E. injection E as <-. left. eapply get_err; eauto. }
  destruct s as [|a s].
  { injection H as <- <-. repeat split; auto; try discriminate; cbn [set_degree set_npoints set_nbasis degree npoints nbasis]; auto.
    intros e' E. injection E as <-. auto. }
  destruct (read_array F cd (split_nl (a :: s))) as [xs r] eqn:A. pose proof (read_array_length _ _ _ A) as LN.
  destruct r as [[]|e].
  - destruct (Z.eqb_spec (Z.of_nat (List.length xs)) m) as [E|E]; injection H as <- <-;
      repeat split; auto; try discriminate; cbn [set_degree set_npoints set_nbasis set_deformations degree npoints nbasis deformations]; auto; rewrite ?Q1; auto.
    + pose proof (split_nl_nonempty (a :: s)). destruct xs; [|discriminate]. destruct (split_nl (a :: s)); [congruence|discriminate].
    + intros q' _. eexists. split; [reflexivity|]. cbn [set_degree set_npoints set_nbasis set_deformations degree npoints nbasis deformations]. rewrite !Q1. auto.
    + intros e' Z. injection Z as <-. auto.
  - injection H as <- <-. repeat split; auto; try discriminate; cbn [set_degree set_npoints set_nbasis set_deformations degree npoints nbasis deformations]; auto.
    intros e' E. injection E as <-. right. eapply read_array_err; eauto.
Qed.

Lemma key_dec : forall a b : key, {a = b} + {a <> b}.
Proof. decide equality. Qed.
Lemma dist_loop : forall c ks q p o, for_each F (read_distribution F cd c) ks q = (p, o) ->
  (o = Ok tt -> forall k, In k ks -> at_key (parameters F p) k <> None) /\ (forall k', at_key (parameters F q) k' <> None -> at_key (parameters F p) k' <> None) /\
  (forall k', ~ In k' ks -> at_key (parameters F p) k' = at_key (parameters F q) k') /\
  radii F p = radii F q /\ nbasis F p = nbasis F q /\ degree F p = degree F q /\ npoints F p = npoints F q /\ deformations F p = deformations F q /\
  (forall e, o = Err e -> e = ConfigError \/ e = ValueError) /\
  (forall q', o = Ok tt -> exists p', for_each F (read_distribution F cd c) ks q' = (p', Ok tt) /\
     forall k, In k ks -> at_key (parameters F p') k = at_key (parameters F p) k).
Proof.
  intros c. induction ks as [|k ks IH]; intros q p o H; cbn [for_each] in H.
  - injection H as <- <-. repeat split; auto; try discriminate; try (intros; contradiction).
    intros q' _. exists q'. split; auto. intros k [].
  - destruct (read_distribution F cd c q k) as [p1 o1] eqn:E. pose proof (read_distribution_inv _ _ _ _ _ E) as (A1 & A2 & A3 & A4 & A5 & A6 & A7 & A8 & A9 & A10).
    destruct o1 as [[]|e]; cbn [andthen] in H.
    + destruct (IH _ _ _ H) as (B1 & B2 & B3 & B4 & B5 & B6 & B7 & B8 & B9 & B10).
      repeat split; try congruence; auto.
      * intros O k' [<-|I]; auto.
      * intros k' N. rewrite B3 by (intro; apply N; right; auto). apply A3. intro; subst; apply N; left; auto.
      * intros q' O. destruct (A10 q' eq_refl) as (p1' & E1 & E2). destruct (B10 p1' O) as (p' & E3 & E4).
        exists p'. cbn [for_each]. rewrite E1. cbn [andthen]. split; auto. intros k' I.
        destruct (in_dec key_dec k' ks) as [J|J]; auto. destruct I as [<-|I]; [|contradiction].
        destruct (IH _ _ _ E3) as (_ & _ & D3 & _). rewrite (D3 k J), (B3 k J). auto.
    + injection H as <- <-. repeat split; auto; try discriminate.
      intros k' N. apply A3. intro; subst; apply N; left; auto.
Qed.

Lemma sec_loop : forall c ks q p o, for_each F (read_section F cd c) ks q = (p, o) ->
  radii F p = radii F q /\ parameters F p = parameters F q /\
  (o = Ok tt -> forall k, In k ks -> at_key (nbasis F p) k = Z.of_nat (List.length (at_key (deformations F p) k)) /\ at_key (deformations F p) k <> []) /\
  (forall k', ~ In k' ks -> at_key (nbasis F p) k' = at_key (nbasis F q) k' /\ at_key (degree F p) k' = at_key (degree F q) k' /\
     at_key (npoints F p) k' = at_key (npoints F q) k' /\ at_key (deformations F p) k' = at_key (deformations F q) k') /\
  (forall e, o = Err e -> e = ConfigError \/ e = ValueError) /\
  (forall q', o = Ok tt -> exists p', for_each F (read_section F cd c) ks q' = (p', Ok tt) /\ forall k, In k ks ->
     at_key (nbasis F p') k = at_key (nbasis F p) k /\
     at_key (degree F p') k = at_key (degree F p) k /\ at_key (npoints F p') k = at_key (npoints F p) k /\
     at_key (deformations F p') k = at_key (deformations F p) k).
Proof.
  intros c. induction ks as [|k ks IH]; intros q p o H; cbn [for_each] in H.
  - injection H as <- <-. repeat split; auto; try discriminate; try (intros; contradiction).
    intros q' _. exists q'. split; auto. intros k [].
  - destruct (read_section F cd c q k) as [p1 o1] eqn:E. pose proof (read_section_inv _ _ _ _ _ E) as (A1 & A2 & A3 & A4 & A5 & A6).
    destruct o1 as [[]|e]; cbn [andthen] in H.
    + destruct (IH _ _ _ H) as (B1 & B2 & B3 & B4 & B5 & B6).
      split; [congruence|]. split; [congruence|]. split; [|split; [|split]]; auto.
      * intros O k' I. destruct (in_dec key_dec k' ks) as [J|J]; auto. destruct I as [<-|I]; [|contradiction].
        destruct (B4 k J) as (-> & _ & _ & ->). auto.
      * intros k' N. destruct (B4 k') as (-> & -> & -> & ->); [intro; apply N; right; auto|]. apply A4. intro; subst; apply N; left; auto.
      * intros q' O. destruct (A6 q' eq_refl) as (p1' & E1 & E2). destruct (B6 p1' O) as (p' & E3 & E4).
        exists p'. cbn [for_each]. rewrite E1. cbn [andthen]. split; auto. intros k' I.
        destruct (in_dec key_dec k' ks) as [J|J]; auto. destruct I as [<-|I]; [|contradiction].
        destruct (IH _ _ _ E3) as (_ & _ & _ & D4 & _). destruct (D4 k J) as (-> & -> & -> & ->).
        destruct (B4 k J) as (-> & -> & -> & ->). auto.
    + injection H as <- <-. split; auto. split; auto. split; [discriminate|]. split; [|split; auto; discriminate].
      intros k' N. apply A4. intro; subst; apply N; left; auto.
Qed.

Lemma in_keys : forall k, In k keys.
Proof. destruct k; simpl; tauto. Qed.
Lemma params_ext : forall p q : par, radii F p = radii F q -> (forall k, at_key (parameters F p) k = at_key (parameters F q) k) ->
  (forall k, at_key (nbasis F p) k = at_key (nbasis F q) k /\ at_key (degree F p) k = at_key (degree F q) k /\
     at_key (npoints F p) k = at_key (npoints F q) k /\ at_key (deformations F p) k = at_key (deformations F q) k) -> p = q.
Proof.
  intros [] [] R P K. simpl in *. f_equal; auto; apply dict_ext; auto; intros k; apply K.
Qed.

Lemma load_inv : forall q t p o, load F cd q t = (p, o) ->
  (o = Ok tt -> consistent p /\ populated p /\ forall q', load F cd q' t = (p, Ok tt)) /\
  (forall e, o = Err e -> e = ConfigError \/ e = ValueError) /\
  ((nbasis F p = nbasis F q /\ degree F p = degree F q /\ npoints F p = npoints F q /\ deformations F p = deformations F q) \/
   exists r, radii F p = Some r /\ r <> [] /\ forall k, exists v, at_key (parameters F p) k = Some v /\ List.length v = List.length r).
Proof.
  intros q t p o H. unfold load in H. destruct (parse_config t) as [c|e] eqn:PC.
  2:{ injection H as <- <-. split; [discriminate|]. split; auto. intros e' E. injection E as <-. left. eapply parse_config_err; eauto. }
  destruct (read_radii F cd c q) as [p1 o1] eqn:E1. pose proof (read_radii_inv _ _ _ _ E1) as ((r & R1 & R2) & A2 & A3 & A4 & A5 & A6 & A7 & A8).
  destruct o1 as [[]|e]; cbn [andthen] in H; [|injection H as <- <-; split; [discriminate|]; split; auto].
  destruct (R2 eq_refl) as [RN RS].
  destruct (for_each F (read_distribution F cd c) keys p1) as [p2 o2] eqn:E2.
  pose proof (dist_loop _ _ _ _ _ E2) as (B1 & B2 & B3 & B4 & B5 & B6 & B7 & B8 & B9 & B10).
  destruct o2 as [[]|e]; cbn [andthen] in H.
  2:{ injection H as <- <-. split; [discriminate|]. split; auto. left. repeat split; congruence. }
  destruct (lengths_agree F p2) eqn:LA; cbn [negb] in H.
  2:{ injection H as <- <-. split; [discriminate|]. split; [intros e' E; injection E as <-; auto|]. left. repeat split; congruence. }
  pose proof (sec_loop _ _ _ _ _ H) as (C1 & C2 & C3 & C4 & C5 & C6).
  destruct r as [r|]; [|congruence]. cbn [or_empty] in RN.
  assert (ARR : exists r, radii F p = Some r /\ r <> [] /\ forall k, exists v, at_key (parameters F p) k = Some v /\ List.length v = List.length r).
  { exists r. split; [congruence|]. split; auto. intros k. rewrite C2. pose proof (B1 eq_refl k (in_keys k)) as S.
    destruct (at_key (parameters F p2) k) as [v|] eqn:V; [|congruence]. exists v. split; auto.
    unfold lengths_agree in LA. rewrite forallb_forall in LA. specialize (LA k (in_keys k)). rewrite V in LA.
    apply Nat.eqb_eq in LA. cbn [or_empty] in LA. rewrite LA. rewrite B4, R1. auto. }
  split; [|split; auto]. intros O. split; [|split].
  - destruct ARR as (r' & Q1 & Q2 & Q3). exists r'. split; auto. intros k. split; auto. apply (C3 O k (in_keys k)).
  - destruct ARR as (r' & Q1 & Q2 & Q3). split; [rewrite Q1; auto|]. intros k. apply (C3 O k (in_keys k)).
  - intros q'. unfold load. rewrite PC. destruct (A8 q' eq_refl) as (p1' & F1 & F1'). rewrite F1. cbn [andthen].
    destruct (B10 p1' eq_refl) as (p2' & F2 & F2'). rewrite F2. cbn [andthen].
    destruct (dist_loop _ _ _ _ _ F2) as (_ & _ & _ & D4 & _).
    assert (LA' : lengths_agree F p2' = true).
    { rewrite <- LA. unfold lengths_agree. rewrite D4, F1', <- B4. cbn [keys forallb]. rewrite !F2' by apply in_keys. auto. }
    rewrite LA'. cbn [negb]. destruct (C6 p2' O) as (p' & F3 & F3'). rewrite F3. subst o.
    f_equal. destruct (sec_loop _ _ _ _ _ F3) as (S1 & S2 & _). apply params_ext.
    + rewrite S1, D4, F1', <- B4. auto.
    + intros k. rewrite S2, C2. apply F2', in_keys.
    + intros k. apply F3', in_keys.
Qed.

Lemma unpopulated_lost : forall fs p f fs' p' q, write_parameters F cd fs p (AStr f) = (fs', (p', Ok tt)) -> ~ populated p' ->
  read_parameters F cd fs' q (AStr f) <> (fs', (p', Ok tt)).
Proof.
  intros fs p f fs' p' q H N E. destruct (write_inv _ _ _ _ _ _ H) as [(Z & _)|(_ & -> & _ & C & _)]; [discriminate|].
  cbn [read_parameters] in E. unfold put at 1 in E. rewrite eqb_str_refl in E. injection E as E.
  destruct (load_inv _ _ _ _ E) as (A & _). apply N, A. auto.
Qed.

(** ** Reading through the file system *)
Lemma read_existing : forall fs q f t, fs f = Some t -> read_parameters F cd fs q (AStr f) = (fs, load F cd q t).
Proof. intros. cbn [read_parameters]. rewrite H. auto. Qed.
Lemma read_inv : forall fs q f fs' p, read_parameters F cd fs q (AStr f) = (fs', (p, Ok tt)) ->
  consistent p /\ populated p /\ (forall g, g <> f -> fs' g = fs g) /\ (fs f <> None -> fs' f = fs f) /\
  (forall q', read_parameters F cd fs' q' (AStr f) = (fs', (p, Ok tt))) /\
  write_parameters F cd fs' p (AStr f) = (put fs' f (show_params F cd p), (p, Ok tt)).
Proof.
  intros fs q f fs' p H.
  assert (W : consistent p -> write_parameters F cd fs' p (AStr f) = (put fs' f (show_params F cd p), (p, Ok tt))).
  { intros C. pose proof C as (r & R & K). rewrite <- (zero_filled_id F cd p C) at 2 3. apply write_ok with r; auto.
    intros k. destruct (K k) as [(v & V & VL) B]. split; auto. intros w E. congruence. }
  destruct (fs f) as [t|] eqn:E.
  - rewrite (read_existing _ _ _ _ E) in H. injection H as <- H. destruct (load_inv _ _ _ _ H) as (A & _).
    destruct (A eq_refl) as (C & N & D). repeat split; auto; try (apply N).
    intros q'. rewrite (read_existing _ _ _ _ E). rewrite D. auto.
  - cbn [read_parameters] in H. rewrite E in H. destruct (write_parameters _ _ _ _ _) as [fs1 [p1 [[]|e]]] eqn:WR; [|discriminate].
    destruct (write_inv _ _ _ _ _ _ WR) as [(Z & _)|(_ & -> & _ & _)]; [discriminate|].
    destruct (put fs f (show_params F cd p1) f) as [t|] eqn:T; [|discriminate]. injection H as <- H.
    destruct (load_inv _ _ _ _ H) as (A & _). destruct (A eq_refl) as (C & N & D). repeat split; auto; try (apply N); try congruence.
    + intros g G. unfold put. rewrite eqb_str_neq; auto.
    + intros q'. rewrite (read_existing _ _ _ _ T). rewrite D. auto.
Qed.

Lemma read_missing : forall fs q f, fs f = None -> c_arange cd <> [] ->
  let q1 := set_radii F q (Some (c_arange cd)) in
  ((forall k, fits_key (List.length (c_arange cd)) q k) ->
    populated q1 -> all_printable cd (zero_filled cd q1) ->
    read_parameters F cd fs q (AStr f) = (put fs f (show_params F cd (zero_filled cd q1)), (zero_filled cd q1, Ok tt))) /\
  (~ (forall k, fits_key (List.length (c_arange cd)) q k) ->
    exists p, read_parameters F cd fs q (AStr f) = (fs, (p, Err ValueError)) /\ radii F p = Some (c_arange cd)).
Proof.
  intros fs q f E AN q1. cbn [read_parameters]. rewrite E. fold q1. split.
  - intros FK N PR. rewrite (write_ok fs q1 f (c_arange cd)) by (auto; apply FK). unfold put at 1. rewrite eqb_str_refl. f_equal.
    apply load_written; auto.
    apply (zero_filled_consistent F cd q1 (c_arange cd)); auto; apply FK.
  - intros NF. destruct (write_parameters F cd fs q1 (AStr f)) as [fs1 [p1 o]] eqn:WR.
    destruct (write_inv _ _ _ _ _ _ WR) as [(-> & -> & _)|(_ & _ & _ & _ & r & R & FK)].
    + exists p1. split; auto. cbn [write_parameters] in WR. unfold check_params in WR. cbn [radii q1 set_radii] in WR.
      assert (RL : forall ks n p p' o, for_each F (check_param F cd n) ks p = (p', o) -> radii F p' = radii F p).
      { clear. induction ks as [|k ks IH]; intros n p p' o H; cbn [for_each] in H; [congruence|]. rewrite check_param_val in H.
        destruct (_ && _)%bool; cbn [andthen] in H; [rewrite (IH _ _ _ _ H)|injection H as <- _]; apply fill_other. }
      destruct (for_each F (check_param F cd (List.length (c_arange cd))) keys q1) as [p2 [[]|e]] eqn:LP; [discriminate|].
      injection WR as <- _. rewrite (RL _ _ _ _ _ LP). auto.
    + exfalso. apply NF. cbn [radii q1 set_radii] in R. injection R as <-. apply FK.
Qed.

(** ** Where the numbers come from *)
Lemma read_array_ok : forall ls xs, read_array F cd ls = (xs, Ok tt) -> Forall2 (number_line cd) ls xs.
Proof.
  induction ls as [|l ls IH]; intros xs H; cbn [read_array] in H; [injection H as <-; auto|].
  destruct (Nat.ltb 1 (count_words false l)) eqn:W; [discriminate|]. destruct (c_read cd l) eqn:E; [|discriminate].
  destruct (read_array F cd ls) as [ys r'] eqn:A. injection H as <- ->. constructor; auto. split; auto. apply Nat.ltb_ge in W. apply one_word_iff. lia.
Qed.
Lemma load_entries : forall q t p, load F cd q t = (p, Ok tt) -> exists c, parse_config t = Ok c /\
  (exists s, get c (L "Original parameters") (L "Radial sections") = Ok s /\ Forall2 (number_line cd) (split_nl s) (or_empty F (radii F p))) /\
  forall k,
    (exists s, get c (L "Original parameters") (L "Radial distribution of " ++ key_name k) = Ok s /\
       Forall2 (number_line cd) (split_nl s) (or_empty F (at_key (parameters F p) k))) /\
    (exists s, get c (section_name k) (L "control points Y-deformations") = Ok s /\ s <> [] /\
       Forall2 (number_line cd) (split_nl s) (at_key (deformations F p) k)) /\
    getint c (section_name k) (L "spline degree") = Ok (at_key (degree F p) k) /\
    getint c (section_name k) (L "spline npoints") = Ok (at_key (npoints F p) k) /\
    getint c (section_name k) (L "number of control points") = Ok (at_key (nbasis F p) k).
Proof.
  intros q t p H. unfold load in H. destruct (parse_config t) as [c|e] eqn:PC; [|discriminate]. exists c. split; auto.
  destruct (read_radii F cd c q) as [p1 [[]|e]] eqn:E1; cbn [andthen] in H; [|discriminate].
  destruct (for_each F (read_distribution F cd c) keys p1) as [p2 [[]|e]] eqn:E2; cbn [andthen] in H; [|discriminate].
  destruct (lengths_agree F p2); cbn [negb] in H; [|discriminate].
  pose proof (sec_loop _ _ _ _ _ H) as (C1 & C2 & _ & _). pose proof (dist_loop _ _ _ _ _ E2) as (_ & _ & _ & B4 & _).
  split; [|intros k; split; [|]].
  - rewrite C1, B4. unfold read_radii in E1. destruct (get c _ _) as [s|e] eqn:G; [|discriminate].
    destruct (read_array F cd (split_nl s)) as [xs r] eqn:A. injection E1 as <- ->. exists s. split; auto. apply read_array_ok; auto.
  - rewrite C2. assert (D : forall ks q p, for_each F (read_distribution F cd c) ks q = (p, Ok tt) -> In k ks ->
      exists s, get c (L "Original parameters") (L "Radial distribution of " ++ key_name k) = Ok s /\
       Forall2 (number_line cd) (split_nl s) (or_empty F (at_key (parameters F p) k))).
    { clear. induction ks as [|k0 ks IH]; intros q p H I; [contradiction|]. cbn [for_each] in H.
      destruct (read_distribution F cd c q k0) as [p1 [[]|e]] eqn:E; cbn [andthen] in H; [|discriminate].
      destruct (in_dec key_dec k ks) as [J|J]; eauto. destruct I as [->|I]; [|contradiction].
      pose proof (dist_loop _ _ _ _ _ H) as (_ & _ & B3 & _). rewrite (B3 k J). unfold read_distribution in E.
      destruct (get c _ _) as [s|e] eqn:G; [|discriminate]. destruct (read_array F cd (split_nl s)) as [xs r] eqn:A.
      injection E as <- ->. exists s. split; auto. cbn [set_parameter parameters]. rewrite at_set.
      replace (match k with Chord => match k with Chord => true | _ => false end | Pitch => match k with Pitch => true | _ => false end
        | Rake => match k with Rake => true | _ => false end | Skew => match k with Skew => true | _ => false end
        | Camber => match k with Camber => true | _ => false end end) with true by (destruct k; auto).
      apply read_array_ok; auto. }
    eapply D; eauto. apply in_keys.
  - assert (D : forall ks q p, for_each F (read_section F cd c) ks q = (p, Ok tt) -> In k ks ->
      (exists s, get c (section_name k) (L "control points Y-deformations") = Ok s /\ s <> [] /\
       Forall2 (number_line cd) (split_nl s) (at_key (deformations F p) k)) /\
      getint c (section_name k) (L "spline degree") = Ok (at_key (degree F p) k) /\
      getint c (section_name k) (L "spline npoints") = Ok (at_key (npoints F p) k) /\
      getint c (section_name k) (L "number of control points") = Ok (at_key (nbasis F p) k)).
    { clear. induction ks as [|k0 ks IH]; intros q p H I; [contradiction|]. cbn [for_each] in H.
      destruct (read_section F cd c q k0) as [p1 [[]|e]] eqn:E; cbn [andthen] in H; [|discriminate].
      destruct (in_dec key_dec k ks) as [J|J]; eauto. destruct I as [->|I]; [|contradiction].
      pose proof (sec_loop _ _ _ _ _ H) as (_ & _ & _ & B4 & _). destruct (B4 k J) as (-> & -> & -> & ->). unfold read_section in E.
      destruct (getint c _ (L "spline degree")) as [d|e] eqn:G1; [|discriminate].
      destruct (getint c _ (L "spline npoints")) as [n|e] eqn:G2; [|discriminate].
      destruct (getint c _ (L "number of control points")) as [m|e] eqn:G3; [|discriminate].
      destruct (get c _ (L "control points Y-deformations")) as [[|a s]|e] eqn:G4; try discriminate.
      destruct (read_array F cd (split_nl (a :: s))) as [xs [[]|e]] eqn:A; [|discriminate].
      destruct (Z.eqb _ m); [|discriminate]. injection E as <-.
      assert (Q1 : forall {A} (v : A) d, at_key (set_key k v d) k = v) by (intros; rewrite at_set; destruct k; auto).
      cbn [set_degree set_npoints set_nbasis set_deformations degree npoints nbasis deformations]. rewrite !Q1. repeat split; auto.
      exists (a :: s). split; auto. split; [discriminate|]. apply read_array_ok; auto. }
    eapply D; eauto. apply in_keys.
Qed.

(** ** Line ends and comments *)
Lemma newlines_crlf : forall s, no_cr s -> newlines (crlf s) = newlines s.
Proof.
  intros s N. rewrite (newlines_id s) by auto. induction s as [|a s IH]; auto.
  assert (Q : newlines (crlf s) = s) by (apply IH; intro I; apply N; right; auto).
  assert (A : a <> "013"%char) by (intros ->; apply N; left; auto).
  unfold crlf in *. cbn [flat_map]. destruct (Ascii.eqb_spec a nl) as [->|E].
  - cbn [app]. change (nl :: newlines (flat_map (fun a => if Ascii.eqb a nl then ["013"%char; nl] else [a]) s) = nl :: s). rewrite Q. auto.
  - cbn [app]. destruct a as [[] [] [] [] [] [] [] []]; try congruence; cbn [newlines]; rewrite Q; auto.
Qed.
Lemma load_crlf : forall q t, ~ In "013"%char t -> load F cd q (crlf t) = load F cd q t.
Proof. intros q t N. unfold load, parse_config, file_lines. rewrite newlines_crlf by auto. auto. Qed.

Lemma load_comment : forall q a c b, comment_line c -> Forall no_nl (a ++ b) -> Forall no_cr (a ++ b) ->
  load F cd q (text_of (a ++ c :: b)) = load F cd q (text_of (a ++ b)).
Proof.
  intros q a c b [(sp & ch & t & -> & SP & C) [N1 N2]] A1 A2. unfold load, parse_config.
  change text_of with unlines. apply Forall_app in A1. apply Forall_app in A2. destruct A1, A2.
  rewrite !file_lines_unlines; try (apply Forall_app; split; auto).
  rewrite !read_lines_app. cbn [read_lines]. destruct (read_lines _ a); auto. cbn [bind].
  rewrite step_comment; auto. unfold is_comment. rewrite lstrip_ws by auto. destruct C as [->| ->]; reflexivity.
Qed.
End P.

Lemma int_printable : forall n, printable int_codec n.
Proof.
  intros n. destruct (int_value_word n) as [[A B] C]. unfold printable. cbn [c_show c_read int_codec].
  split; auto. split; [apply word_ws; exact B|]. split; [|split; [|apply parse_show_int]]; destruct (show_int n) as [|a t]; simpl; try discriminate; intros E; injection E as ->; discriminate.
Qed.
Lemma int_all_printable : forall p, all_printable int_codec p.
Proof. intros p. split; [|intros k; split]; apply Forall_forall; intros; apply int_printable. Qed.

Lemma load_unparsable : forall F (cd : codec F) q t e, parse_config t = Err e -> load F cd q t = (q, Err ConfigError).
Proof. intros F cd q t e H. unfold load. rewrite H. rewrite (parse_config_err t e H). auto. Qed.
Lemma read_missing_fresh : forall F (cd : codec F) fs f, fs f = None -> c_arange cd <> [] ->
  Forall (printable cd) (c_arange cd) -> printable cd (c_zero cd) ->
  exists fs' p, read_parameters F cd fs (new_params F cd) (AStr f) = (fs', (p, Ok tt)) /\ fs' f <> None /\
    radii F p = Some (c_arange cd) /\ forall k, at_key (parameters F p) k = Some (repeat (c_zero cd) (List.length (c_arange cd))) /\
      at_key (nbasis F p) k = 10%Z /\ at_key (degree F p) k = 3%Z /\ at_key (npoints F p) k = 500%Z /\
      at_key (deformations F p) k = repeat (c_zero cd) 10.
Proof.
  intros F cd fs f E N PA PZ. destruct (read_missing F cd fs (new_params F cd) f E N) as [H _].
  do 2 eexists. split; [apply H|].
  - intros []; split; try reflexivity; discriminate.
  - split; [cbn [or_empty radii set_radii]; auto|]. intros []; discriminate.
  - assert (Z : forall n, Forall (printable cd) (repeat (c_zero cd) n)).
    { intros n. apply Forall_forall. intros x I. apply repeat_spec in I. subst. auto. }
    split; [exact PA|]. intros k. rewrite zero_filled_at. cbn [or_empty].
    split; [destruct k; apply Z|]. destruct k; apply (Z 10).
  - split; [unfold put; rewrite eqb_str_refl; discriminate|]. split; [reflexivity|]. intros []; repeat split.
Qed.
Lemma not_atomic : exists q t p, load Z int_codec q t = (p, Err ConfigError) /\ consistent q /\ ~ consistent p.
Proof.
  exists (Build_params Z (Some [3; 5]%Z) (same_for_all (Some [1; 2]%Z)) (same_for_all 1%Z) (same_for_all 3%Z) (same_for_all 500%Z) (same_for_all [0]%Z)).
  exists (text_of [L "[Original parameters]"; L "Radial sections = 7"]). eexists. split; [vm_compute; reflexivity|]. split.
  - exists [3; 5]%Z. split; auto. intros k. split; [exists [1; 2]%Z; destruct k; auto|destruct k; auto].
  - intros (r & R & K). simpl in R. injection R as <-. destruct (K Chord) as [(v & V & L) _]. simpl in V. injection V as <-. discriminate.
Qed.
Lemma write_cases : forall F (cd : codec F) fs p a fs' p' o, write_parameters F cd fs p a = (fs', (p', o)) ->
  (o = Err TypeError /\ a = AOther /\ fs' = fs /\ p' = p) \/
  (o = Err ValueError /\ fs' = fs /\ ~ (exists r, radii F p = Some r /\ forall k, fits_key (List.length r) p k)) \/
  (exists f, o = Ok tt /\ a = AStr f /\ fs' = put fs f (show_params F cd p') /\ consistent p' /\
    exists r, radii F p = Some r /\ forall k, fits_key (List.length r) p k).
Proof.
  intros F cd fs p [f|] fs' p' o H.
  - right. destruct (write_inv _ _ _ _ _ _ _ _ H) as [A|(A & B & _ & C & D)]; [left; tauto|right]. exists f. tauto.
  - left. injection H as <- <- <-. auto.
Qed.
Lemma write_fills : forall F (cd : codec F) fs p a fs' p' k,
  write_parameters F cd fs p a = (fs', (p', Ok tt)) ->
  radii F p' = radii F p /\ nbasis F p' = nbasis F p /\ degree F p' = degree F p /\ npoints F p' = npoints F p /\
  deformations F p' = deformations F p /\
  at_key (parameters F p') k =
    Some (match at_key (parameters F p) k with Some v => v | None => repeat (c_zero cd) (List.length (or_empty F (radii F p))) end).
Proof.
  intros F cd fs p [f|] fs' p' k H; [|discriminate]. destruct (write_inv _ _ _ _ _ _ _ _ H) as [(A & _)|(_ & _ & -> & _)]; [discriminate|].
  repeat split. apply zero_filled_at.
Qed.
