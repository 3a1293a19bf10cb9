(** Proofs about whole profile objects: plotting and parameters. *)
From Coq Require Import String Reals List ZArith Lra Lia.
From Verif Require Import Base SolveProofs ProfileModel ProfileSpec ProfileProofs ProfileProofs2 CustomModel CustomSpec CustomProofs CustomProofs2 NacaModel AirfoilModel AirfoilSpec AirfoilProofs AirfoilProofs2 AirfoilProofs3.
Import ListNotations.
Open Scope R_scope.

Section Run.
Variable am : profile -> R -> list R -> R -> list R -> res (list R).
Variable cu : list R -> list R -> list R -> res (list R).

(** ** plot *)
Lemma draw_ok : forall s l d, draw s l = Ok d <-> drawable l /\ d = Curve s l.
Proof.
  intros s l d. unfold draw, drawable. destruct (Nat.eqb_spec (List.length (fst l)) (List.length (snd l))); split; intros H; try tauto; try congruence.
  - injection H as <-. auto.
  - destruct H as (_ & ->). reflexivity.
Qed.
Lemma finish_ok : forall f t, finish f = Ok t <-> aimed f t.
Proof.
  intros f t. split.
  - destruct f as [|[|c s]|[]]; cbn; intros H; try discriminate; injection H as <-; constructor. discriminate.
  - destruct 1; try reflexivity. destruct s; [congruence|reflexivity].
Qed.
Lemma finish_err : forall f, (forall t, ~ aimed f t) -> finish f = Err ValueError.
Proof.
  intros f H. destruct f as [|[|c s]|[]]; cbn; auto; exfalso; eapply H; try constructor. discriminate.
Qed.

(** One stage of a plot. *)
Lemma also_ok : forall on m a ds b ds' x, also on m (a, ds, Ok tt) = (b, ds', Ok x) <->
  x = tt /\ ((on = false /\ b = a /\ ds' = ds) \/ (on = true /\ exists d, m a = (b, Ok d) /\ ds' = ds ++ [d])).
Proof.
  intros on m a ds b ds' []. cbn [also]. destruct on.
  - destruct (m a) as [c [d|e]]; split; intros H.
    + injection H as <- <-. split; auto. right. eauto.
    + destruct H as (_ & [(? & _)|(_ & d' & E & ->)]); [discriminate|]. injection E as -> ->. reflexivity.
    + discriminate.
    + destruct H as (_ & [(? & _)|(_ & d' & E & ->)]); discriminate.
  - split; intros H.
    + injection H as <- <-. split; auto.
    + destruct H as (_ & [(_ & -> & ->)|(? & _)]); [reflexivity|discriminate].
Qed.
Lemma also_inv : forall on m r b ds' x, also on m r = (b, ds', Ok x) -> exists a ds, r = (a, ds, Ok tt) /\
  ((on = false /\ b = a /\ ds' = ds) \/ (on = true /\ exists d, m a = (b, Ok d) /\ ds' = ds ++ [d])).
Proof.
  intros on m [[a ds] [[]|e]] b ds' x H; [|discriminate]. exists a, ds. split; auto. apply also_ok in H. tauto.
Qed.
Lemma kept_ok : forall l k, kept_line l = Ok k <-> l = Is k.
Proof. intros [| |l] k; cbn; split; congruence. Qed.

Lemma reference_dot : forall a b d, (do r <- reference_point_; give (Dot r)) a = (b, Ok d) <->
  exists p r, coords a = Ok p /\ reference_point p = Ok r /\ d = Dot r /\ b = fst (reference_point_ a).
Proof.
  intros a b d. unfold step, give. destruct (coords a) as [p|x] eqn:HC.
  - destruct (reference_run a p HC) as (e & E & _). rewrite E. cbn [fst]. destruct (reference_point p) as [r|x] eqn:R; split; intros H.
    + injection H as <- <-. exists p, r. auto.
    + destruct H as (p' & r' & H1 & H2 & -> & ->). injection H1 as <-. rewrite R in H2. injection H2 as ->. reflexivity.
    + discriminate.
    + destruct H as (p' & r' & H1 & H2 & _). injection H1 as <-. congruence.
  - unfold reference_point_, step. rewrite (edges_unmodelled _ _ HC). split; [discriminate|]. intros (p & r & H & _). discriminate.
Qed.

Definition stages (o : plot_options) (p : profile) (a : airfoil) : airfoil * list drawing * res unit :=
  also (o_ref o) (do r <- reference_point_; give (Dot r))
  (also (o_camber o) (look (fun a => let* l := kept_line (camber a) in draw "Camber line" l))
  (also (o_chord o) (look (fun a => let* l := kept_line (chord a) in draw "Chord line" l))
  (also (o_profile o) (evaluate (draw "Lower profile" (xdown p, ydown p)))
  (also (o_profile o) (evaluate (draw "Upper profile" (xup p, yup p))) (a, [], Ok tt))))).
Lemma plot_stages : forall o a p, coords a = Ok p -> plot o a =
  match stages o p a with (a', ds, Ok _) => (a', ds, finish (o_file o)) | (a', ds, Err e) => (a', ds, Err e) end.
Proof. intros o a p HC. destruct (coords_some a p HC) as (E1 & E2 & E3 & E4). unfold plot, stages. rewrite E1, E2, E3, E4. reflexivity. Qed.
Lemma plot_empty : forall o a e, coords a = Err e -> plot o a = (a, [], Err ValueError).
Proof. intros o a e H. unfold plot. unfold coords in H. destruct (a_xup a), (a_yup a), (a_xdown a), (a_ydown a); try reflexivity. discriminate. Qed.

Lemma ev_ok : forall {A} (m : res A) a b d, evaluate m a = (b, Ok d) <-> b = a /\ m = Ok d.
Proof. intros. unfold evaluate. split; [intros H; injection H as -> ->; auto|intros (-> & ->); auto]. Qed.
Lemma lk_ok : forall {A} (m : airfoil -> res A) a b d, look m a = (b, Ok d) <-> b = a /\ m a = Ok d.
Proof. intros. unfold look. split; [intros H; injection H as -> H; auto|intros (-> & ->); auto]. Qed.
Lemma line_ok : forall l s d, (let* k := kept_line l in draw s k) = Ok d <-> exists k, l = Is k /\ drawable k /\ d = Curve s k.
Proof.
  intros l s d. split.
  - intros H. apply bind_ok in H as (k & H1 & H2). apply kept_ok in H1. apply draw_ok in H2. eauto.
  - intros (k & -> & H). cbn [kept_line bind]. apply draw_ok. auto.
Qed.

Lemma stages_ok : forall o a p ds x a', coords a = Ok p ->
  (stages o p a = (a', ds, Ok x) <->
   a' = (if o_ref o then fst (reference_point_ a) else a) /\ exists ch ca r, can_show o a p ch ca r /\ ds = picture o p ch ca r).
Proof.
  intros o a p ds x a' HC. split.
  - intros H. unfold stages in H.
    apply also_inv in H as (a4 & d4 & E4 & H5). apply also_inv in E4 as (a3 & d3 & E3 & H4). apply also_inv in E3 as (a2 & d2 & E2 & H3).
    apply also_inv in E2 as (a1 & d1 & E1 & H2). apply also_inv in E1 as (a0 & d0 & E0 & H1). injection E0 as <- <-.
    assert (P1 : a1 = a /\ (o_profile o = true -> drawable (xup p, yup p)) /\ d1 = if o_profile o then [Curve "Upper profile" (xup p, yup p)] else []).
    { destruct H1 as [(-> & -> & ->)|(-> & d & E & ->)]; [split; auto; split; auto; discriminate|].
      apply ev_ok in E as (-> & E). apply draw_ok in E as (E & ->). auto. }
    destruct P1 as (-> & U & ->).
    assert (P2 : a2 = a /\ (o_profile o = true -> drawable (xdown p, ydown p)) /\
      d2 = if o_profile o then [Curve "Upper profile" (xup p, yup p); Curve "Lower profile" (xdown p, ydown p)] else []).
    { destruct H2 as [(-> & -> & ->)|(-> & d & E & ->)]; [split; auto; split; auto; discriminate|].
      apply ev_ok in E as (-> & E). apply draw_ok in E as (E & ->). auto. }
    destruct P2 as (-> & D & ->).
    assert (P3 : a3 = a /\ exists ch, (o_chord o = true -> chord a = Is ch /\ drawable ch) /\
      d3 = (if o_profile o then [Curve "Upper profile" (xup p, yup p); Curve "Lower profile" (xdown p, ydown p)] else []) ++ if o_chord o then [Curve "Chord line" ch] else []).
    { destruct H3 as [(-> & -> & ->)|(-> & d & E & ->)].
      - split; auto. exists ([], []). split; [discriminate|]. rewrite app_nil_r. reflexivity.
      - apply lk_ok in E as (-> & E). apply line_ok in E as (k & K1 & K2 & ->). split; auto. exists k. auto. }
    destruct P3 as (-> & ch & C & ->).
    assert (P4 : a4 = a /\ exists ca, (o_camber o = true -> camber a = Is ca /\ drawable ca) /\
      d4 = ((if o_profile o then [Curve "Upper profile" (xup p, yup p); Curve "Lower profile" (xdown p, ydown p)] else []) ++ if o_chord o then [Curve "Chord line" ch] else []) ++ if o_camber o then [Curve "Camber line" ca] else []).
    { destruct H4 as [(-> & -> & ->)|(-> & d & E & ->)].
      - split; auto. exists ([], []). split; [discriminate|]. rewrite app_nil_r. reflexivity.
      - apply lk_ok in E as (-> & E). apply line_ok in E as (k & K1 & K2 & ->). split; auto. exists k. auto. }
    destruct P4 as (-> & ca & M & ->).
    destruct H5 as [(HO & -> & ->)|(HO & d & E & ->)].
    + rewrite HO. split; auto. exists ch, ca, (0, 0). unfold can_show, picture. rewrite HO, app_nil_r, <- app_assoc. repeat split; auto; try (apply C; auto); try (apply M; auto); discriminate.
    + rewrite HO. apply reference_dot in E as (p' & r & E1 & E2 & -> & ->). rewrite HC in E1. injection E1 as <-. split; auto.
      exists ch, ca, r. unfold can_show, picture. rewrite HO, <- !app_assoc. repeat split; auto; try (apply C; auto); try (apply M; auto).
  - intros (-> & ch & ca & r & (_ & P & C & M & F) & ->). destruct x. unfold stages, picture.
    assert (E1 : also (o_profile o) (evaluate (draw "Upper profile" (xup p, yup p))) (a, [], Ok tt) =
      (a, if o_profile o then [Curve "Upper profile" (xup p, yup p)] else [], Ok tt)).
    { apply also_ok. split; auto. destruct (o_profile o); [right|left]; auto. split; auto. exists (Curve "Upper profile" (xup p, yup p)). split; auto.
      apply ev_ok. split; auto. apply draw_ok. split; auto. apply P; auto. }
    rewrite E1. clear E1.
    assert (E2 : also (o_profile o) (evaluate (draw "Lower profile" (xdown p, ydown p))) (a, if o_profile o then [Curve "Upper profile" (xup p, yup p)] else [], Ok tt) =
      (a, if o_profile o then [Curve "Upper profile" (xup p, yup p); Curve "Lower profile" (xdown p, ydown p)] else [], Ok tt)).
    { apply also_ok. split; auto. destruct (o_profile o); [right|left]; auto. split; auto. exists (Curve "Lower profile" (xdown p, ydown p)). split; auto.
      apply ev_ok. split; auto. apply draw_ok. split; auto. apply P; auto. }
    rewrite E2. clear E2.
    set (pr := if o_profile o then [Curve "Upper profile" (xup p, yup p); Curve "Lower profile" (xdown p, ydown p)] else []).
    assert (E3 : also (o_chord o) (look (fun a => let* l := kept_line (chord a) in draw "Chord line" l)) (a, pr, Ok tt) =
      (a, pr ++ if o_chord o then [Curve "Chord line" ch] else [], Ok tt)).
    { apply also_ok. split; auto. destruct (o_chord o); [right|left; rewrite app_nil_r; auto]. split; auto. exists (Curve "Chord line" ch). split; auto.
      apply lk_ok. split; auto. apply line_ok. exists ch. destruct (C eq_refl). auto. }
    rewrite E3. clear E3.
    assert (E4 : also (o_camber o) (look (fun a => let* l := kept_line (camber a) in draw "Camber line" l)) (a, pr ++ (if o_chord o then [Curve "Chord line" ch] else []), Ok tt) =
      (a, (pr ++ if o_chord o then [Curve "Chord line" ch] else []) ++ if o_camber o then [Curve "Camber line" ca] else [], Ok tt)).
    { apply also_ok. split; auto. destruct (o_camber o); [right|left; rewrite app_nil_r; auto]. split; auto. exists (Curve "Camber line" ca). split; auto.
      apply lk_ok. split; auto. apply line_ok. exists ca. destruct (M eq_refl). auto. }
    rewrite E4. clear E4. apply also_ok. split; auto. destruct (o_ref o); [right|left; rewrite app_nil_r, <- app_assoc; auto]. split; auto. exists (Dot r).
    split; [|rewrite <- !app_assoc; reflexivity]. apply reference_dot. exists p, r. auto.
Qed.

Lemma plot_iff : forall o a ds t,
  (exists a', perform am cu (Plot o) a = (a', Ok (Picture ds t))) <->
  (exists p ch ca r, can_show o a p ch ca r /\ ds = picture o p ch ca r) /\ aimed (o_file o) t.
Proof.
  intros o a ds t. cbn [perform]. destruct (coords a) as [p|x] eqn:HC.
  - rewrite (plot_stages o a p HC). destruct (stages o p a) as [[b ds'] [u|e]] eqn:S.
    + apply (stages_ok o a p ds' u b HC) in S as (-> & ch & ca & r & S & ->). split.
      * intros (a' & H). destruct (finish (o_file o)) as [t'|] eqn:F; [|discriminate]. cbn [bind] in H. injection H as _ <- <-. apply finish_ok in F. eauto 10.
      * intros ((p' & ch' & ca' & r' & K & ->) & T). apply finish_ok in T. rewrite T. cbn [bind]. eexists. do 3 f_equal.
        destruct S as (_ & _ & C1 & C2 & C3), K as (K0 & _ & K1 & K2 & K3). rewrite HC in K0. injection K0 as <-.
        unfold picture. f_equal. destruct (o_chord o), (o_camber o), (o_ref o); repeat f_equal;
          try (destruct (C1 eq_refl), (K1 eq_refl); congruence); try (destruct (C2 eq_refl), (K2 eq_refl); congruence);
          try (specialize (C3 eq_refl); specialize (K3 eq_refl); congruence).
    + split; [intros (a' & H); discriminate|]. intros ((p' & ch & ca & r & K & ->) & T). exfalso.
      assert (p' = p) as -> by (destruct K as (K & _); congruence).
      assert (G : stages o p a = (if o_ref o then fst (reference_point_ a) else a, picture o p ch ca r, Ok tt)) by (apply stages_ok; eauto 10). congruence.
  - rewrite (plot_empty o a x HC). split; [intros (a' & H); discriminate|]. intros ((p & ch & ca & r & (K & _) & _) & _). congruence.
Qed.

(** A true object that is no string is refused after everything was drawn. *)
Lemma plot_late : forall o a p ch ca r, can_show o a p ch ca r -> (forall t, ~ aimed (o_file o) t) ->
  exists a', plot o a = (a', picture o p ch ca r, Err ValueError).
Proof.
  intros o a p ch ca r K T. destruct K as (HC & K). rewrite (plot_stages o a p HC).
  assert (G : stages o p a = (if o_ref o then fst (reference_point_ a) else a, picture o p ch ca r, Ok tt)).
  { apply stages_ok; auto. split; auto. exists ch, ca, r. split; [split; auto|auto]. }
  rewrite G. rewrite (finish_err _ T). eauto.
Qed.

(** A line that was never computed. *)
Lemma plot_absent : forall o a p, coords a = Ok p -> chord a = Absent -> o_chord o = true ->
  (o_profile o = true -> drawable (xup p, yup p) /\ drawable (xdown p, ydown p)) ->
  perform am cu (Plot o) a = (a, Err AttributeError).
Proof.
  intros o a p HC HA HO P. cbn [perform]. rewrite (plot_stages o a p HC). unfold stages. rewrite HO.
  assert (E : exists ds, also (o_profile o) (evaluate (draw "Lower profile" (xdown p, ydown p)))
    (also (o_profile o) (evaluate (draw "Upper profile" (xup p, yup p))) (a, [], Ok tt)) = (a, ds, Ok tt)).
  { destruct (o_profile o); [|eexists; reflexivity]. destruct (P eq_refl) as (P1 & P2). cbn [also]. unfold evaluate.
    rewrite (proj2 (draw_ok "Upper profile" (xup p, yup p) _) (conj P1 eq_refl)).
    rewrite (proj2 (draw_ok "Lower profile" (xdown p, ydown p) _) (conj P2 eq_refl)). eexists. reflexivity. }
  destruct E as (ds & ->). cbn [also]. unfold look at 2. rewrite HA. cbn [kept_line bind]. unfold also.
  destruct (o_camber o), (o_ref o); reflexivity.
Qed.
Lemma plot_none : forall o a p, coords a = Ok p -> chord a = IsNone -> o_chord o = true ->
  perform am cu (Plot o) a = (a, Err ValueError).
Proof.
  intros o a p HC HA HO. cbn [perform]. rewrite (plot_stages o a p HC). unfold stages. rewrite HO.
  assert (E : exists ds r, also (o_profile o) (evaluate (draw "Lower profile" (xdown p, ydown p)))
    (also (o_profile o) (evaluate (draw "Upper profile" (xup p, yup p))) (a, [], Ok tt)) = (a, ds, r) /\ (r = Ok tt \/ r = Err ValueError)).
  { destruct (o_profile o); [|do 2 eexists; split; [reflexivity|auto]]. cbn [also]. unfold evaluate, draw.
    destruct (Nat.eqb (List.length (fst (xup p, yup p))) (List.length (snd (xup p, yup p)))); [|do 2 eexists; split; [reflexivity|auto]].
    destruct (Nat.eqb (List.length (fst (xdown p, ydown p))) (List.length (snd (xdown p, ydown p)))); do 2 eexists; (split; [reflexivity|auto]). }
  destruct E as (ds & r & -> & [->| ->]); cbn [also]; [unfold look at 2; rewrite HA; cbn [kept_line bind]|]; unfold also;
  destruct (o_camber o), (o_ref o); reflexivity.
Qed.

Lemma fresh_lines : (forall kw a, new_custom am kw = Ok a -> chord a = Absent /\ camber a = Absent) /\
  (forall d n c a, new_naca am d n c = Ok a -> chord a = Absent /\ camber a = Absent).
Proof.
  split.
  - intros kw a H. unfold new_custom in H. apply bind_ok in H as (pq & _ & H). destruct (same_keys kw coord_keys).
    + apply bind_ok in H as (e & _ & H). injection H as <-. auto.
    + injection H as <-. auto.
  - intros d n c a H. unfold new_naca in H. apply bind_ok in H as (x & _ & H). apply bind_ok in H as (pq & _ & H). apply bind_ok in H as (e & _ & H). injection H as <-. auto.
Qed.

(** Motions do not move the kept line. *)
Lemma plot_stale : forall cs a a' o a'' ds t l, chord a = Is l -> runs am cu a cs a' -> Forall moves cs -> o_chord o = true ->
  perform am cu (Plot o) a' = (a'', Ok (Picture ds t)) -> forall l', In (Curve "Chord line" l') ds <-> l' = l.
Proof.
  intros cs a a' o a'' ds t l HL R F HO P l'. destruct (motions_keep am cu _ _ _ R F) as (K & _ & _).
  assert (G : exists a'', perform am cu (Plot o) a' = (a'', Ok (Picture ds t))) by eauto.
  apply plot_iff in G as ((p & ch & ca & r & (_ & _ & C & _ & _) & ->) & _). specialize (C HO). destruct C as (C & _).
  assert (ch = l) as -> by congruence. unfold picture. rewrite HO. split.
  - intros H. rewrite !in_app_iff in H. destruct H as [H|[H|[H|H]]].
    + destruct (o_profile o); cbn in H; [|contradiction]. destruct H as [H|[H|[]]]; discriminate.
    + destruct H as [H|[]]. congruence.
    + destruct (o_camber o); [|contradiction]. destruct H as [H|[]]. discriminate.
    + destruct (o_ref o); [|contradiction]. destruct H as [H|[]]. discriminate.
  - intros ->. rewrite !in_app_iff. right. left. left. reflexivity.
Qed.

(** ** Parameters *)
Lemma parameters_kept : forall cs a a', runs am cu a cs a' -> Forall (fun c => ~ sets_parameters c) cs -> stored a' = stored a /\ sort a' = sort a.
Proof.
  intros cs a a' H. induction H as [a|a c a1 r cs a2 E D H IH]; intros F; auto.
  inversion F; subst. destruct (who_changes am cu _ _ _ _ E) as (T & [W|W] & _ & _); [|contradiction]. destruct (IH H3). split; congruence.
Qed.

Lemma runs_sort : forall cs a a', runs am cu a cs a' -> sort a' = sort a.
Proof. induction 1 as [|a c a1 r cs a2 P D R IH]; auto. rewrite IH. apply (proj1 (who_changes am cu _ _ _ _ P)). Qed.
Lemma naca_convention : forall d n c a cs a' cv, new_naca am d n c = Ok a -> runs am cu a cs a' ->
  perform am cu (GenerateCoordinates (Some cv)) a' = (a', Err TypeError).
Proof.
  intros d n c a cs a' cv N R. apply runs_sort in R. unfold new_naca in N. destruct (naca_check d n) as [x|]; [|discriminate]. cbn [bind] in N.
  destruct (naca_profile am d n c) as [pq|]; [|discriminate]. cbn [bind] in N. destruct (update_edges (fst pq)); [|discriminate]. injection N as <-.
  cbn [perform]. unfold quiet, step, generate_coordinates_. rewrite R. reflexivity.
Qed.
Lemma generate_same : forall cv a b, stored a = stored b -> sort a = sort b -> known cv ->
  snd (perform am cu (GenerateCoordinates cv) a) = snd (perform am cu (GenerateCoordinates cv) b) /\
  (forall x, snd (perform am cu (GenerateCoordinates cv) a) = Ok x ->
     coords (fst (perform am cu (GenerateCoordinates cv) a)) = coords (fst (perform am cu (GenerateCoordinates cv) b))).
Proof.
  intros cv a b Q S K. cbn [perform]. unfold quiet, step, give, generate_coordinates_. rewrite <- S, <- Q. destruct (sort a) eqn:SA.
  - assert (H : (match cv with Some c => c | None => "british"%string end = "british"%string) \/ (match cv with Some c => c | None => "british"%string end = "american"%string))
      by (destruct K as [->|[->| ->]]; auto). cbn zeta.
    destruct H as [-> | ->].
    + change (String.eqb "british" "british") with true. cbv iota. destruct (coordinates_british (stored a)); cbn [fst snd]; split; auto; discriminate.
    + change (String.eqb "american" "british") with false. change (String.eqb "american" "american") with true. cbv iota.
      unfold step, evaluate, change. cbn beta iota. destruct (orth_camber_coordinates (stored a)) as [o|]; [|cbn; split; [auto|discriminate]].
      match goal with |- context [cu ?x ?y ?z] => destruct (cu x y z) as [yd|] end; [|cbn; split; [auto|]; intros ? H; discriminate H].
      destruct (vzip _ (camber_percentage (stored a)) yd); cbn; split; auto; discriminate.
  - destruct cv as [cv|]; [cbn; split; [auto|discriminate]|].
    destruct (naca_coordinates digits cosine n); cbn; split; auto; discriminate.
Qed.

Lemma regenerate : forall cs a a' cv, runs am cu a cs a' -> Forall (fun c => ~ sets_parameters c) cs -> known cv ->
  forall b x, perform am cu (GenerateCoordinates cv) a = (b, Ok x) ->
  exists b', perform am cu (GenerateCoordinates cv) a' = (b', Ok x) /\ coords b' = coords b.
Proof.
  intros cs a a' cv R F K b x H. destruct (parameters_kept _ _ _ R F) as (Q & S). destruct (generate_same cv a a' (eq_sym Q) (eq_sym S) K) as (E & C).
  rewrite H in E, C. cbn [fst snd] in *. destruct (perform am cu (GenerateCoordinates cv) a') as [b' r]. cbn [fst snd] in *. exists b'. subst r. split; auto.
  symmetry. eapply C. reflexivity.
Qed.

(** What the constructors made comes back. *)
Lemma restore_custom : forall kw a, has_keys kw param_keys -> new_custom am kw = Ok a ->
  exists b, perform am cu (GenerateCoordinates None) a = (b, Ok Nothing) /\ coords b = coords a.
Proof.
  intros kw a K H. unfold new_custom in H. apply bind_ok in H as ([p q] & H1 & H). rewrite (coord_not_param kw K) in H. injection H as <-.
  unfold custom_profile in H1. rewrite (coord_not_param kw K) in H1. destruct (same_keys kw param_keys); [|discriminate].
  repeat match goal with H : bind _ _ = Ok _ |- _ => apply bind_ok in H as (? & ? & H) end. injection H1 as -> <-.
  cbn [perform]. unfold quiet, step, give, generate_coordinates_. cbn [sort fresh stored fst snd]. change (String.eqb "british" "british") with true. cbv iota zeta.
  match goal with H : coordinates_british _ = Ok p |- _ => rewrite H end. eexists. split; [reflexivity|]. destruct p; reflexivity.
Qed.
Lemma restore_naca : forall d n c a, new_naca am d n c = Ok a ->
  exists b, perform am cu (GenerateCoordinates None) a = (b, Ok Nothing) /\ coords b = coords a.
Proof.
  intros d n c a H. unfold new_naca in H. apply bind_ok in H as (x & Hx & H). apply bind_ok in H as (pq & H1 & H). apply bind_ok in H as (e & _ & H). injection H as <-.
  unfold naca_profile in H1. rewrite Hx in H1. cbn [bind] in H1. apply bind_ok in H1 as (p & H2 & H1). apply bind_ok in H1 as (q & _ & H1). injection H1 as <-.
  cbn [perform]. unfold quiet, step, give, generate_coordinates_. cbn [sort fresh fst snd]. rewrite H2. eexists. split; [reflexivity|]. destruct p; reflexivity.
Qed.

(** Parameters of a scaled profile. *)
Notation gp := (generate_parameters am "british").
Lemma vmin_map : forall f l m, (forall x y, x <= y -> f x <= f y) -> vmin l = Ok m -> vmin (map f l) = Ok (f m).
Proof.
  intros f l m Hf H. apply vmin_spec in H as (I & M). apply vmin_spec. split; [apply in_map; auto|].
  intros x Hx. apply in_map_iff in Hx as (y & <- & Hy). auto.
Qed.
Lemma mean_scale : forall k a b, mean (vscale k a) (vscale k b) = map (fun x => k * x) (mean a b).
Proof. intros. unfold mean, vscale. rewrite map2_map_l, map2_map_r, map_map2. apply map2_ext. intros. field. Qed.
Lemma zeros_vscale : forall k (l : list R), zeros (List.length (vscale k l)) = zeros (List.length l).
Proof. intros. unfold vscale. rewrite map_length. reflexivity. Qed.

Lemma parameters_scaled : forall k p q e, 0 < k -> gp p = Ok q -> update_edges (scale_coords k p) = Ok e -> gp (scale_coords k p) = Ok (enlarged k q).
Proof.
  intros k p q e HK HG HE. unfold generate_parameters in HG. apply bind_ok in HG as ([[lx ly] [tx ty]] & E0 & HG).
  assert (HA : scale_coords k p = affine k (0, 0) p).
  { apply profile_eq; cbn; unfold vscale; apply map_ext; intros; ring. }
  destruct (affine_edges k (0, 0) p _ _ E0) as (K & _). rewrite <- HA in K. specialize (K e HE). unfold padd, pscale in K. cbn [fst snd] in K. subst e.
  unfold generate_parameters. rewrite HE. cbn [bind].
  assert (HN : norm2 (k * lx + 0 - (k * tx + 0)) (k * ly + 0 - (k * ty + 0)) = k * norm2 (lx - tx) (ly - ty)).
  { unfold norm2. replace ((k * lx + 0 - (k * tx + 0)) * (k * lx + 0 - (k * tx + 0)) + (k * ly + 0 - (k * ty + 0)) * (k * ly + 0 - (k * ty + 0)))
      with (k * k * ((lx - tx) * (lx - tx) + (ly - ty) * (ly - ty))) by ring.
    rewrite sqrt_mult; [|pose proof (Rle_0_sqr k); unfold Rsqr in *; lra|pose proof (Rle_0_sqr (lx - tx)); pose proof (Rle_0_sqr (ly - ty)); unfold Rsqr in *; lra]. rewrite sqrt_square by lra. reflexivity. }
  rewrite HN. set (ch := norm2 (lx - tx) (ly - ty)) in *.
  apply bind_ok in HG as (mn & H1 & HG). apply bind_ok in HG as (cp & H2 & HG).
  apply bind_ok in HG as (cam & H3 & HG). apply bind_ok in HG as (cm & H4 & HG).
  apply bind_ok in HG as (camp & H5 & HG). change (String.eqb "british" "british") with true in *. cbv iota in HG |- *.
  apply bind_ok in HG as (th & H6 & HG). apply bind_ok in HG as (tm & H7 & HG). apply bind_ok in HG as (tp & H8 & HG).
  injection HG as <-.
  assert (NX : xup p <> []) by (intros Z; rewrite Z in H1; discriminate).
  cbn [xup xdown yup ydown scale_coords].
  assert (G1 : vmin (vscale k (xup p)) = Ok (mn * k)).
  { unfold vscale. apply (vmin_map (fun x => x * k)); auto. intros. apply Rmult_le_compat_r; lra. }
  rewrite G1. cbn [bind].
  apply vdiv_inv in H2 as (NC & ->); [|destruct (xup p); [congruence|discriminate]].
  rewrite vdiv_ok by (apply Rmult_integral_contrapositive; split; [lra|exact NC]). cbn [bind].
  apply vzip_inv in H3 as (L3 & ->). rewrite vzip_ok by (unfold vscale; rewrite !map_length; auto). cbn [bind].
  change (map2 (fun a b => (a + b) / 2) (vscale k (yup p)) (vscale k (ydown p))) with (mean (vscale k (yup p)) (vscale k (ydown p))).
  change (map2 (fun a b => (a + b) / 2) (yup p) (ydown p)) with (mean (yup p) (ydown p)) in *. rewrite mean_scale.
  rewrite (vmax_map_scale k _ cm) by (auto; lra). cbn [bind].
  assert (AB : Rabs (k * cm) = k * Rabs cm) by (rewrite Rabs_mult, (Rabs_right k) by lra; reflexivity). rewrite AB.
  assert (G5 : (if Req_EM_T (k * Rabs cm) 0 then Ok (zeros (List.length (vscale k (xup p)))) else vdiv (map (fun x => k * x) (mean (yup p) (ydown p))) (k * Rabs cm)) = Ok camp).
  { destruct (Req_EM_T (Rabs cm) 0) as [Z|Z].
    - rewrite Z, Rmult_0_r. destruct (Req_EM_T 0 0); [|congruence]. rewrite zeros_vscale. exact H5.
    - destruct (Req_EM_T (k * Rabs cm) 0) as [Z'|Z']; [exfalso; apply Rmult_integral in Z' as [?|?]; lra|].
      rewrite vdiv_ok by auto. apply vdiv_inv in H5 as (_ & ->); [|intros Z0; rewrite Z0 in H4; discriminate]. f_equal. rewrite map_map. apply map_ext. intros x. field. split; lra. }
  rewrite G5. cbn [bind].
  apply vzip_inv in H6 as (_ & ->). rewrite vzip_ok by (unfold vscale; rewrite !map_length; auto). cbn [bind].
  rewrite abs_scale_zip, (Rabs_right k) by lra. rewrite (vmax_map_scale k _ tm) by (auto; lra). cbn [bind].
  assert (G8 : (if Req_EM_T (k * tm) 0 then Ok (zeros (List.length (vscale k (xup p)))) else vdiv (map (fun x => k * x) (map2 (fun a b => Rabs (a - b)) (yup p) (ydown p))) (k * tm)) = Ok tp).
  { destruct (Req_EM_T tm 0) as [Z|Z].
    - rewrite Z, Rmult_0_r. destruct (Req_EM_T 0 0); [|congruence]. rewrite zeros_vscale. exact H8.
    - destruct (Req_EM_T (k * tm) 0) as [Z'|Z']; [exfalso; apply Rmult_integral in Z' as [?|?]; lra|].
      rewrite vdiv_ok by auto. apply vdiv_inv in H8 as (_ & ->); [|intros Z0; rewrite Z0 in H7; discriminate]. f_equal. rewrite map_map. apply map_ext. intros x. field. split; lra. }
  rewrite G8. cbn [bind]. unfold enlarged. cbn. do 2 f_equal. unfold vscale. rewrite !map_map. apply map_ext. intros x. field. split; lra.
Qed.

(** A horizontal shift changes no parameter. *)
Lemma parameters_shifted : forall dx p q, gp p = Ok q -> gp (translate (dx, 0) p) = Ok q.
Proof.
  intros dx p q HG. unfold generate_parameters in *. apply bind_ok in HG as ([[lx ly] [tx ty]] & E0 & HG).
  rewrite (translate_edges _ _ _ _ E0). unfold padd. cbn [fst snd bind].
  apply bind_ok in HG as (mn & H1 & HG). cbn [xup xdown yup ydown translate fst snd].
  replace (lx + dx - (tx + dx)) with (lx - tx) by ring. replace (ly + 0 - (ty + 0)) with (ly - ty) by ring.
  assert (Z : forall l, vshift 0 l = l) by (intros l; unfold vshift; rewrite <- (map_id l) at 2; apply map_ext; intros; ring).
  rewrite !Z. assert (G1 : vmin (vshift dx (xup p)) = Ok (mn + dx)).
  { unfold vshift. apply (vmin_map (fun x => x + dx)); auto. intros; lra. }
  rewrite G1. cbn [bind].
  replace (map (fun x => x - (mn + dx)) (vshift dx (xup p))) with (map (fun x => x - mn) (xup p)) by (unfold vshift; rewrite map_map; apply map_ext; intros; ring).
  rewrite vshift_length. exact HG.
Qed.
End Run.
