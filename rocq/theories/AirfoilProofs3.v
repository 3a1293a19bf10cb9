(** Proofs about whole profile objects: histories, what the kept attributes can
    influence, edges after scaling. *)
From Coq Require Import String Reals List ZArith Lra Lia.
From Verif Require Import Base SolveProofs ProfileModel ProfileSpec ProfileProofs ProfileProofs2 ProfileProofs3 CustomModel NacaModel AirfoilModel AirfoilSpec AirfoilProofs AirfoilProofs2.
Import ListNotations.
Open Scope R_scope.

(** ** What a step may use *)
Definition takes {A} (P Q : airfoil -> airfoil -> Prop) (m : act A) : Prop :=
  forall a b, P a b -> snd (m a) = snd (m b) /\ alike (fst (m a)) (fst (m b)) /\
    (forall x, snd (m a) = Ok x -> Q (fst (m a)) (fst (m b))).
Definition close (a b : airfoil) : Prop := alike a b /\ edges a = edges b.

Lemma takes_step : forall {A B} P Q S (m : act A) (k : A -> act B),
  takes P Q m -> (forall x, takes Q S (k x)) -> takes P S (step m k).
Proof.
  intros A B P Q S m k Hm Hk a b H. destruct (Hm a b H) as (E & L & G). unfold step.
  destruct (m a) as [a' [x|e]], (m b) as [b' [y|e']]; cbn [fst snd] in *; try congruence.
  - assert (y = x) as -> by congruence. apply Hk. eapply G. reflexivity.
  - split; [congruence|]. split; auto. discriminate.
Qed.
Lemma takes_evaluate : forall {A} (P : airfoil -> airfoil -> Prop) (r : res A), (forall a b, P a b -> alike a b) -> takes P P (evaluate r).
Proof. intros A P r H a b G. unfold evaluate. cbn. auto. Qed.
Lemma takes_give : forall {A} (P : airfoil -> airfoil -> Prop) (r : A), (forall a b, P a b -> alike a b) -> takes P P (give r).
Proof. intros A P r H a b G. unfold give. cbn. auto. Qed.
Lemma takes_change : forall (P Q : airfoil -> airfoil -> Prop) f, (forall a b, P a b -> Q (f a) (f b)) -> (forall a b, Q a b -> alike a b) -> takes P Q (change f).
Proof. intros P Q f H K a b G. unfold change. cbn. auto. Qed.
Lemma coords_alike : forall a b, alike a b -> coords a = coords b.
Proof. intros a b (_ & E1 & E2 & E3 & E4 & _). unfold coords. rewrite E1, E2, E3, E4. reflexivity. Qed.
Lemma takes_coords : forall (P : airfoil -> airfoil -> Prop), (forall a b, P a b -> alike a b) -> takes P P (look coords).
Proof. intros P H a b G. unfold look. cbn. rewrite (coords_alike a b) by auto. auto. Qed.
Lemma takes_weaken : forall {A} (P P' Q Q' : airfoil -> airfoil -> Prop) (m : act A), (forall a b, P' a b -> P a b) -> (forall a b, Q a b -> Q' a b) -> takes P Q m -> takes P' Q' m.
Proof. intros A P P' Q Q' m H K T a b G. destruct (T a b (H _ _ G)) as (E & L & F). split; auto. split; auto. intros x Hx. eauto. Qed.

Lemma alike_id : forall a b, alike a b -> alike a b.
Proof. auto. Qed.
Lemma close_alike : forall a b, close a b -> alike a b.
Proof. intros a b [H _]. exact H. Qed.
Lemma alike_coords : forall p a b, alike a b -> alike (with_coords p a) (with_coords p b).
Proof. intros p a b (H & _ & _ & _ & _ & K). unfold alike. cbn. auto 10. Qed.
Lemma alike_chord : forall l a b, alike a b -> alike (with_chord l a) (with_chord l b).
Proof. intros l a b H. exact H. Qed.
Lemma alike_camber : forall l a b, alike a b -> alike (with_camber l a) (with_camber l b).
Proof. intros l a b H. exact H. Qed.
Lemma alike_edges : forall l a b, alike a b -> alike (with_edges l a) (with_edges l b).
Proof. intros l a b H. exact H. Qed.
Lemma alike_refl : forall a, alike a a.
Proof. intros a. repeat split. Qed.

Ltac tk := first
  [ apply takes_evaluate; solve [apply alike_id | apply close_alike]
  | apply takes_give; solve [apply alike_id | apply close_alike]
  | apply takes_coords; solve [apply alike_id | apply close_alike]
  | apply takes_change; [solve [apply alike_coords | apply alike_chord | apply alike_camber | apply alike_edges]|solve [apply alike_id | apply close_alike]]
  | eapply takes_step; [tk|intros]].

Lemma takes_edges : takes alike close update_edges_.
Proof.
  intros a b H. pose proof (coords_alike a b H) as C. destruct (coords a) as [p|x] eqn:HC.
  - destruct (edges_run a p HC) as (e & E & K). destruct (edges_run b p (eq_sym C)) as (e' & E' & K').
    rewrite E, E'. cbn [fst snd]. split; auto. split; auto. intros y Hy. split; auto. cbn [edges with_edges]. f_equal.
    destruct (update_edges p) as [e0|]; [|discriminate]. rewrite (K e0), (K' e0); auto.
  - rewrite (edges_unmodelled _ _ HC), (edges_unmodelled b x (eq_sym C)). cbn. split; auto. split; auto. discriminate.
Qed.

Lemma takes_look_edges : takes close close (look (fun a => match edges a with Some e => Ok e | None => Err AttributeError end)).
Proof. intros a b [H E]. unfold look. cbn [fst snd]. rewrite E. split; auto. split; auto. intros. split; auto. Qed.

Lemma takes_alike : forall {A} (m : act A), takes alike close m -> takes alike alike m.
Proof. intros A m. apply takes_weaken; auto. apply close_alike. Qed.
Lemma takes_close : forall {A} (m : act A), takes alike alike m -> takes close alike m.
Proof. intros A m. apply takes_weaken; auto. apply close_alike. Qed.

Lemma takes_reference : takes alike close reference_point_.
Proof.
  unfold reference_point_. eapply takes_step; [apply takes_edges|]. intros _. eapply takes_step; [apply takes_look_edges|]. intros e.
  apply takes_give, close_alike.
Qed.

Lemma takes_chord_line : forall n, takes alike alike (compute_chord_line_ n).
Proof.
  intros n. unfold compute_chord_line_. eapply takes_step; [apply takes_alike, takes_edges|]. intros _.
  eapply takes_step; [tk|]. intros p. eapply takes_step; [tk|]. intros l. tk.
Qed.
Lemma takes_camber_line : forall n, takes alike alike (compute_camber_line_ n).
Proof. intros n. unfold compute_camber_line_. eapply takes_step; [tk|]. intros p. eapply takes_step; [tk|]. intros l. tk. Qed.
Lemma alike_scale_camber : forall s a b, alike a b -> alike (scale_camber s a) (scale_camber s b).
Proof. intros s a b H. unfold scale_camber. destruct (camber a), (camber b); exact H. Qed.
Lemma takes_deform : forall pc n, takes alike alike (deform_camber_line_ pc n).
Proof.
  intros pc n. unfold deform_camber_line_. eapply takes_step; [apply takes_camber_line|]. intros _.
  eapply takes_step; [apply takes_change; [apply alike_scale_camber|apply alike_id]|]. intros _.
  eapply takes_step; [tk|]. intros p. eapply takes_step; [tk|]. intros p'. tk.
Qed.
Lemma takes_max_camber : forall n, takes alike alike (max_camber_ n).
Proof.
  intros n. unfold max_camber_. eapply takes_step; [apply takes_chord_line|]. intros _. eapply takes_step; [apply takes_camber_line|]. intros _.
  eapply takes_step; [tk|]. intros p. tk.
Qed.
Lemma takes_set_camber : forall m, takes alike alike (set_camber_line_max_ m).
Proof.
  intros m. unfold set_camber_line_max_. eapply takes_step; [apply takes_max_camber|]. intros old. eapply takes_step; [tk|]. intros pc. apply takes_deform.
Qed.
Lemma takes_translate : forall v, takes alike alike (translate_ v).
Proof. intros v. unfold translate_. eapply takes_step; [tk|]. intros p. tk. Qed.
Lemma takes_scale : forall k b, takes alike alike (scale_ k b).
Proof.
  intros k b. unfold scale_. destruct b.
  - eapply takes_step; [apply takes_alike, takes_reference|]. intros r. eapply takes_step; [apply takes_translate|]. intros _.
    eapply takes_step; [tk|]. intros p. eapply takes_step; [tk|]. intros _. apply takes_translate.
  - eapply takes_step; [tk|]. intros p. tk.
Qed.
Lemma takes_update : forall f, takes close close (update f).
Proof.
  intros f. unfold update. apply takes_change; [|apply close_alike]. intros a b [(H1 & H2 & H3 & H4 & H5 & H6) E].
  split; [|exact E]. unfold alike. cbn. rewrite H6. auto 10.
Qed.

Section Run.
Variable am : profile -> R -> list R -> R -> list R -> res (list R).
Variable cu : list R -> list R -> list R -> res (list R).

Ltac ce := eapply takes_step; [apply takes_evaluate, close_alike|intros].
Ltac cu_ := eapply takes_step; [apply takes_update|intros].
Lemma takes_parameters : forall cv, takes alike alike (generate_parameters_ am cv).
Proof.
  intros cv. unfold generate_parameters_. apply takes_alike. eapply takes_step; [apply takes_edges|]. intros _.
  eapply takes_step; [apply takes_coords, close_alike|]. intros p. eapply takes_step; [apply takes_look_edges|]. intros e. cbn zeta.
  cu_. ce. ce. cu_. ce. ce. cu_. ce. cu_. ce. ce. cu_. ce. apply takes_update.
Qed.
Lemma takes_generate : forall cv, takes alike alike (generate_coordinates_ cu cv).
Proof.
  intros cv a b H. pose proof H as (S & H1 & H2 & H3 & H4 & Q). unfold generate_coordinates_. rewrite <- S, <- Q. destruct (sort a) eqn:SA.
  - destruct (String.eqb _ "british").
    + destruct (coordinates_british (stored a)); cbn [fst snd]; split; auto.
      * split; [apply alike_coords|intros; apply alike_coords]; exact H.
      * split; [|discriminate]. unfold alike. cbn. auto 10.
    + destruct (String.eqb _ "american").
      * assert (T : takes alike alike
          (do o <- evaluate (orth_camber_coordinates (stored a));
           do _ <- change (with_coords o);
           do yd <- evaluate (cu (xdown o) (ydown o) (vscale (chord_length (stored a)) (chord_percentage (stored a))));
           do _ <- change (with_coords (mkProfile (xup o) (xdown o) (yup o) yd));
           do yu <- evaluate (vzip (fun c y => 2 * camber_max (stored a) * c - y) (camber_percentage (stored a)) yd);
           change (with_coords (mkProfile (xup o) (xdown o) yu yd)))).
        { eapply takes_step; [tk|]. intros o. eapply takes_step; [tk|]. intros _. eapply takes_step; [tk|]. intros yd.
          eapply takes_step; [tk|]. intros _. eapply takes_step; [tk|]. intros yu. tk. }
        apply T. exact H.
      * cbn. auto.
  - destruct cv as [cv|]; [cbn; auto|]. destruct (naca_coordinates digits cosine n); cbn [fst snd]; split; auto.
    split; [apply alike_coords|intros; apply alike_coords]; exact H.
Qed.
Lemma takes_also : forall on (m : act drawing) a b ds (r : res unit), takes alike alike m -> alike a b -> exists a' b' ds' r',
  also on m (a, ds, r) = (a', ds', r') /\ also on m (b, ds, r) = (b', ds', r') /\ alike a' b'.
Proof.
  intros on m a b ds r T H. destruct r as [u|e]; cbn [also]; [|do 4 eexists; auto]. destruct on; [|do 4 eexists; auto].
  destruct (T a b H) as (E & L & _). destruct (m a) as [a' [d|e]], (m b) as [b' [d'|e']]; cbn [fst snd] in *; try congruence.
  - assert (d' = d) as -> by congruence. do 4 eexists. split; [reflexivity|]. split; [reflexivity|auto].
  - assert (e' = e) as -> by congruence. do 4 eexists. split; [reflexivity|]. split; [reflexivity|auto].
Qed.
Lemma also_off : forall m r, also false m r = r.
Proof. intros m [[a ds] [[]|e]]; reflexivity. Qed.
Lemma takes_plot : forall o, o_chord o = false -> o_camber o = false -> forall a b, alike a b -> exists a' b' ds r,
  plot o a = (a', ds, r) /\ plot o b = (b', ds, r) /\ alike a' b'.
Proof.
  intros o O1 O2 a b H. pose proof H as (_ & H1 & H2 & H3 & H4 & _). unfold plot. rewrite <- H1, <- H2, <- H3, <- H4, O1, O2.
  assert (G : exists a' b' (ds : list drawing) (r : res target), (a, [], Err ValueError) = (a', ds, r) /\ (b, [], Err ValueError) = (b', ds, r) /\ alike a' b')
    by (do 4 eexists; split; [reflexivity|]; split; [reflexivity|exact H]).
  destruct (a_xup a) as [xu|]; auto. destruct (a_yup a) as [yu|]; auto. destruct (a_xdown a) as [xd|]; auto. destruct (a_ydown a) as [yd|]; auto.
  clear G. cbn zeta. rewrite !also_off.
  destruct (takes_also (o_profile o) (evaluate (draw "Upper profile" (xu, yu))) a b [] (Ok tt)) as (a1 & b1 & d1 & r1 & E1 & F1 & L1); [tk|exact H|]. rewrite E1, F1.
  destruct (takes_also (o_profile o) (evaluate (draw "Lower profile" (xd, yd))) a1 b1 d1 r1) as (a2 & b2 & d2 & r2 & E2 & F2 & L2); [tk|exact L1|]. rewrite E2, F2.
  destruct (takes_also (o_ref o) (do r <- reference_point_; give (Dot r)) a2 b2 d2 r2) as (a3 & b3 & d3 & r3 & E3 & F3 & L3);
    [eapply takes_step; [apply takes_alike, takes_reference|intros; tk]|exact L2|]. rewrite E3, F3.
  destruct r3; do 4 eexists; auto.
Qed.

Lemma takes_quiet : forall m, takes alike alike m -> takes alike alike (quiet m).
Proof. intros m H. unfold quiet. eapply takes_step; [exact H|]. intros _. tk. Qed.

(** The kept lines and edges influence nothing but the drawing of the lines. *)
Lemma takes_perform : forall c, ~ shows_lines c -> takes alike alike (perform am cu c).
Proof.
  intros c N. destruct c; cbn [perform]; try (apply takes_quiet).
  - apply takes_translate.
  - unfold reflect_. eapply takes_step; [tk|]. intros p. tk.
  - apply takes_scale.
  - unfold rotate_. eapply takes_step; [tk|]. intros p. eapply takes_step; [tk|]. intros p'. tk.
  - unfold set_thickness_max_. eapply takes_step; [tk|]. intros p. eapply takes_step; [tk|]. intros p'. tk.
  - apply takes_set_camber.
  - apply takes_deform.
  - apply takes_chord_line.
  - apply takes_camber_line.
  - unfold max_thickness_. eapply takes_step; [|intros; tk]. eapply takes_step; [tk|]. intros p. tk.
  - eapply takes_step; [apply takes_max_camber|intros; tk].
  - eapply takes_step; [apply takes_alike, takes_reference|intros; tk].
  - apply takes_parameters.
  - apply takes_generate.
  - cbn in N. intros a b H. destruct (takes_plot o) with (a := a) (b := b) as (a' & b' & ds & r & E & F & L); auto.
    + destruct (o_chord o); tauto.
    + destruct (o_camber o); tauto.
    + rewrite E, F. cbn. auto.
  - intros a b (H0 & H1 & H2 & H3 & H4 & H5). destruct f; cbn; unfold alike; cbn; auto 10.
  - intros a b (H0 & H1 & H2 & H3 & H4 & H5). cbn; unfold alike; cbn; auto 10.
  - intros a b H. cbn. split; auto.
  - intros a b H. cbn. split; auto.
Qed.

Lemma influence : forall c a b, alike a b -> ~ shows_lines c ->
  exists a' b' r, perform am cu c a = (a', r) /\ perform am cu c b = (b', r) /\ alike a' b'.
Proof.
  intros c a b H N. destruct (takes_perform c N a b H) as (E & L & _).
  destruct (perform am cu c a) as [a' r], (perform am cu c b) as [b' r']. cbn [fst snd] in *. subst. eauto 10.
Qed.
Lemma influence_runs : forall cs a a' b, runs am cu a cs a' -> alike a b -> Forall (fun c => ~ shows_lines c) cs ->
  exists b', runs am cu b cs b' /\ alike a' b'.
Proof.
  intros cs a a' b H. revert b. induction H as [a|a c a1 r cs a2 E D H IH]; intros b L F.
  - exists b. split; [constructor|auto].
  - inversion F; subst. destruct (influence c a b L) as (x & y & r' & E1 & E2 & L'); auto.
    rewrite E in E1. injection E1 as <- <-. destruct (IH y L') as (b' & R & L2); auto. exists b'. split; auto. econstructor; eauto.
Qed.

(** ** Where the kept chord line comes from *)
Lemma chord_history : forall cs a a', runs am cu a cs a' ->
  chord a' = chord a \/
  exists pre c post a1 a2 r, cs = pre ++ c :: post /\ runs am cu a pre a1 /\ perform am cu c a1 = (a2, r) /\ runs am cu a2 post a' /\
    chord a2 = chord a' /\
    ((exists l, c = AssignChordLine l) \/
     exists n p l, chord_with c n /\ coords a1 = Ok p /\ compute_chord_line n p = Ok l /\ chord a' = Is l).
Proof.
  intros cs a a' H. induction H as [a|a c a1 r cs a2 E D H IH]; auto.
  destruct IH as [IH|(pre & c' & post & b1 & b2 & r' & -> & R1 & P & R2 & C & K)].
  - destruct (who_changes am cu _ _ _ _ E) as (_ & _ & [W|W] & _).
    + left. congruence.
    + right. exists [], c, cs, a, a1, r. split; auto. split; [constructor|]. split; auto. split; auto. split; [congruence|].
      rewrite IH. exact W.
  - right. exists (c :: pre), c', post, b1, b2, r'. split; auto. split; [econstructor; eauto|]. auto 10.
Qed.

(** Motions leave kept lines and parameters alone. *)
Lemma motions_keep : forall cs a a', runs am cu a cs a' -> Forall moves cs -> chord a' = chord a /\ camber a' = camber a /\ stored a' = stored a.
Proof.
  intros cs a a' H. induction H as [a|a c a1 r cs a2 E D H IH]; intros F; auto.
  inversion F; subst. destruct (who_changes am cu _ _ _ _ E) as (_ & _ & _ & W). destruct (W H2) as (W1 & W2 & W3). destruct (IH H3) as (I1 & I2 & I3).
  repeat split; congruence.
Qed.

(** ** Edges after scaling *)
Lemma padd_inj : forall v u w, padd u v = padd w v -> u = w.
Proof. intros [a b] [c d] [e f] H. unfold padd in H. cbn in H. injection H as H1 H2. f_equal; lra. Qed.
Lemma scaled_edges : forall k a p le te, coords a = Ok p -> update_edges p = Ok (le, te) ->
  exists a' p', perform am cu (Scale k true) a = (a', Ok Nothing) /\ scale k true p = Ok p' /\ coords a' = Ok p' /\ edges a' = Some (le, te) /\
    (forall e, update_edges p' = Ok e -> (edges a' = Some e <-> k = 1 \/ le = te)).
Proof.
  intros k a p le te HC HE. destruct (scale_run k true a p HC) as (a' & E & C & _ & _ & _ & _ & G & _).
  assert (HR : reference_point p = Ok (0.5 * (fst le + fst te), 0.5 * (snd le + snd te))).
  { unfold reference_point. rewrite HE. destruct le, te. reflexivity. }
  pose proof (scale_affine k p _ HR) as HS. rewrite HS in C, E. exists a', (affine k (psub (0.5 * (fst le + fst te), 0.5 * (snd le + snd te)) (pscale k (0.5 * (fst le + fst te), 0.5 * (snd le + snd te)))) p).
  split; [cbn [perform]; unfold quiet, step, give; rewrite E; reflexivity|]. split; auto. split; auto. split; [apply G; auto|].
  intros e He. destruct (affine_edges k (psub (0.5 * (fst le + fst te), 0.5 * (snd le + snd te)) (pscale k (0.5 * (fst le + fst te), 0.5 * (snd le + snd te)))) p le te HE) as (K & _).
  rewrite (G eq_refl _ HE). apply K in He. rewrite He. destruct le as [lx ly], te as [tx ty]. unfold padd, psub, pscale. cbn [fst snd].
  split.
  - intros H. injection H as H1 H2 H3 H4. destruct (Req_dec k 1); auto. right.
    assert (lx = tx). { apply Rmult_eq_reg_l with (k - 1); [nra|lra]. }
    assert (ly = ty). { apply Rmult_eq_reg_l with (k - 1); [nra|lra]. } congruence.
  - intros [->|H]; [|injection H as -> ->]; repeat f_equal; lra.
Qed.

(** Changing the camber without resampling keeps the line up to date. *)
Lemma deformed_line : forall pc a p p', coords a = Ok p -> xup p = xdown p -> deform_camber_line pc None p = Ok p' ->
  exists a' l, perform am cu (DeformCamberLine pc None) a = (a', Ok Nothing) /\ coords a' = Ok p' /\ camber a' = Is l /\ compute_camber_line None p' = Ok l.
Proof.
  intros pc a p p' HC HX HD. destruct (deform_run pc None a p HC) as (a' & E & C & _ & _ & _ & _ & _ & G). rewrite HD in C, E.
  unfold deform_camber_line in HD. apply bind_ok in HD as ([xs ys] & H1 & HD). cbn [snd] in HD. specialize (G _ H1). cbn [fst snd] in G.
  apply bind_ok in HD as (n' & H2 & HD). rewrite resolve_n_eq in H2 by auto. injection H2 as <-. cbn [truthy bind] in HD.
  apply bind_ok in HD as (half & H3 & HD). apply bind_ok in HD as (yu & H4 & HD). apply bind_ok in HD as (yd & H5 & HD). injection HD as <-.
  exists a', (xs, vscale (pc / 100 + 1) ys). split; [cbn [perform]; unfold quiet, step, give; rewrite E; reflexivity|]. split; auto. split; auto.
  apply camber_line_inv in H1 as (n' & Hn & H1). rewrite resolve_n_eq in Hn by auto. injection Hn as <-. destruct H1 as [(z & b & c & d & Hz & _)|(_ & -> & L1 & L2 & ->)]; [discriminate|].
  apply vzip_inv in H3 as (_ & ->). apply vzip_inv in H4 as (L4 & ->). apply vzip_inv in H5 as (L5 & ->).
  rewrite camber_line_direct.
  - cbn [xup yup ydown]. destruct (mean_deformed (pc / 100 + 1) (yup p) (ydown p) L2) as (-> & _). reflexivity.
  - exact HX.
  - unfold uniform. cbn [xup xdown yup ydown].
    assert (M : List.length (vscale (pc / 100 + 1) (mean (yup p) (ydown p))) = List.length (yup p)) by (unfold vscale, mean; rewrite map_length, map2_length by exact L2; reflexivity).
    rewrite !map2_length by (rewrite M, ?map2_length by exact L2; auto). rewrite M. rewrite <- HX. auto.
Qed.
End Run.
