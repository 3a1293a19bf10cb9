(** Proofs about whole profile objects: what every call does. *)
From Coq Require Import String Reals List ZArith Lra Lia.
From Verif Require Import Base ProfileModel ProfileProofs CustomModel NacaModel AirfoilModel AirfoilSpec.
Import ListNotations.
Open Scope R_scope.

Ltac steps := repeat (unfold step, look, evaluate, change, give, quiet, update; cbn beta iota).

Lemma coords_some : forall a p, coords a = Ok p ->
  a_xup a = Some (xup p) /\ a_xdown a = Some (xdown p) /\ a_yup a = Some (yup p) /\ a_ydown a = Some (ydown p).
Proof.
  intros a p. unfold coords. destruct (a_xup a), (a_xdown a), (a_yup a), (a_ydown a); try discriminate. intros H. injection H as <-. auto.
Qed.
Lemma coords_err : forall a e, coords a = Err e -> e = Unmodelled.
Proof. intros a e. unfold coords. destruct (a_xup a), (a_xdown a), (a_yup a), (a_ydown a); congruence. Qed.

Lemma coords_with_coords : forall p a, coords (with_coords p a) = Ok p.
Proof. intros [] a. reflexivity. Qed.
Lemma coords_with_edges : forall e a, coords (with_edges e a) = coords a.
Proof. reflexivity. Qed.
Lemma coords_with_chord : forall l a, coords (with_chord l a) = coords a.
Proof. reflexivity. Qed.
Lemma coords_with_camber : forall l a, coords (with_camber l a) = coords a.
Proof. reflexivity. Qed.

(** [update_edges_] changes the edges only, raises what [update_edges] raises. *)
Lemma edges_run : forall a p, coords a = Ok p -> exists e,
  update_edges_ a = (with_edges e a, let* _ := update_edges p in Ok tt) /\ (forall e', update_edges p = Ok e' -> e = e').
Proof.
  intros a p HC. unfold update_edges_, update_edges. steps. rewrite HC.
  destruct (first (xup p)) as [xu0|]; cbn [bind]; [|eexists; split; [reflexivity|discriminate]].
  destruct (first (xdown p)) as [xd0|]; cbn [bind]; [|eexists; split; [reflexivity|discriminate]].
  destruct (Rlt_dec edge_tol (Rabs (xu0 - xd0))); [eexists; split; [reflexivity|discriminate]|].
  destruct (final (xup p)) as [xun|]; cbn [bind]; [|eexists; split; [reflexivity|discriminate]].
  destruct (final (xdown p)) as [xdn|]; cbn [bind]; [|eexists; split; [reflexivity|discriminate]].
  destruct (Rlt_dec edge_tol (Rabs (xun - xdn))); [eexists; split; [reflexivity|discriminate]|].
  destruct (first (yup p)) as [yu0|]; cbn [bind]; [|eexists; split; [reflexivity|discriminate]].
  destruct (final (yup p)) as [yun|]; cbn [bind]; [|eexists; split; [reflexivity|discriminate]].
  destruct (final (ydown p)) as [ydn|]; cbn [bind]; [|eexists; split; [reflexivity|discriminate]].
  eexists. split; [reflexivity|]. intros e' H. injection H as <-. reflexivity.
Qed.

Lemma edges_unmodelled : forall a e, coords a = Err e -> update_edges_ a = (a, Err Unmodelled).
Proof. intros a e H. unfold update_edges_. steps. rewrite H. rewrite (coords_err _ _ H). reflexivity. Qed.

Lemma reference_run : forall a p, coords a = Ok p -> exists e,
  reference_point_ a = (with_edges e a, reference_point p) /\ (forall e', update_edges p = Ok e' -> e = e').
Proof.
  intros a p HC. unfold reference_point_, reference_point. destruct (edges_run a p HC) as (e & E & K). steps. rewrite E.
  exists e. split; auto. destruct (update_edges p) as [e'|]; cbn [bind]; auto. rewrite (K e' eq_refl). reflexivity.
Qed.

Lemma chord_run : forall n a p, coords a = Ok p -> exists e,
  compute_chord_line_ n a =
    (match compute_chord_line n p with Ok l => with_chord (Is l) (with_edges e a) | Err _ => with_edges e a end,
     let* _ := compute_chord_line n p in Ok tt) /\ (forall e', update_edges p = Ok e' -> e = e').
Proof.
  intros n a p HC. unfold compute_chord_line_. destruct (edges_run a p HC) as (e & E & K). steps. rewrite E. exists e. split; auto.
  destruct (update_edges p) as [e'|x] eqn:U; cbn [bind].
  - rewrite coords_with_edges, HC. destruct (compute_chord_line n p); reflexivity.
  - unfold compute_chord_line. rewrite U. reflexivity.
Qed.

Lemma camber_run : forall n a p, coords a = Ok p ->
  compute_camber_line_ n a =
    (match compute_camber_line n p with Ok l => with_camber (Is l) a | Err _ => a end, let* _ := compute_camber_line n p in Ok tt).
Proof. intros n a p HC. unfold compute_camber_line_. steps. rewrite HC. destruct (compute_camber_line n p); reflexivity. Qed.

Lemma max_camber_run : forall n a p, coords a = Ok p -> exists a',
  max_camber_ n a = (a', max_camber n p) /\ coords a' = Ok p /\ stored a' = stored a /\ sort a' = sort a /\
  (chord a' = chord a \/ exists l, chord a' = Is l /\ compute_chord_line n p = Ok l) /\
  (camber a' = camber a \/ exists l, camber a' = Is l /\ compute_camber_line n p = Ok l) /\
  (forall l, compute_chord_line n p = Ok l -> chord a' = Is l) /\
  (forall l l', compute_chord_line n p = Ok l -> compute_camber_line n p = Ok l' -> camber a' = Is l') /\
  (forall e, update_edges p = Ok e -> edges a' = Some e).
Proof.
  intros n a p HC. unfold max_camber_. destruct (chord_run n a p HC) as (e & E & K). steps. rewrite E. unfold max_camber.
  destruct (compute_chord_line n p) as [l|x] eqn:C; cbn [bind].
  - assert (HC' : coords (with_chord (Is l) (with_edges e a)) = Ok p) by exact HC.
    rewrite (camber_run _ _ _ HC'). destruct (compute_camber_line n p) as [l'|x] eqn:C'; cbn [bind].
    + rewrite coords_with_camber, HC', C, C'. cbn [bind]. eexists. split; [reflexivity|].
      cbn. split; [exact HC|]. split; [reflexivity|]. split; [reflexivity|]. split; [right; exists l; auto|]. split; [right; exists l'; auto|].
      split; [congruence|]. split; [congruence|]. intros e' H. f_equal. apply K; auto.
    + eexists. split; [reflexivity|]. cbn. split; [exact HC|]. split; [reflexivity|]. split; [reflexivity|]. split; [right; exists l; auto|]. split; [left; reflexivity|].
      split; [congruence|]. split; [congruence|]. intros e' H. f_equal. apply K; auto.
  - eexists. split; [reflexivity|]. cbn. split; [exact HC|]. split; [reflexivity|]. split; [reflexivity|]. split; [left; reflexivity|]. split; [left; reflexivity|].
    split; [congruence|]. split; [congruence|]. intros e' H. f_equal. apply K; auto.
Qed.

(** The three parts of [deform_camber_line_]. *)
Lemma deform_run : forall pc n a p, coords a = Ok p -> exists a',
  deform_camber_line_ pc n a = (a', let* _ := deform_camber_line pc n p in Ok tt) /\
  (coords a' = match deform_camber_line pc n p with Ok p' => Ok p' | Err _ => coords a end) /\
  stored a' = stored a /\ sort a' = sort a /\ chord a' = chord a /\ edges a' = edges a /\
  (camber a' = camber a \/ exists l, compute_camber_line n p = Ok l /\ camber a' = Is (fst l, vscale (pc / 100 + 1) (snd l))) /\
  (forall l, compute_camber_line n p = Ok l -> camber a' = Is (fst l, vscale (pc / 100 + 1) (snd l))).
Proof.
  intros pc n a p HC. unfold deform_camber_line_. steps. rewrite (camber_run _ _ _ HC).
  destruct (compute_camber_line n p) as [l|x] eqn:C; cbn [bind].
  - unfold scale_camber. cbn [camber with_camber]. rewrite !coords_with_camber, HC.
    destruct (deform_camber_line pc n p) as [p'|x] eqn:D; eexists; (split; [reflexivity|]); rewrite ?coords_with_coords; cbn;
      repeat split; auto; try (right; exists l; split; reflexivity); intros l' H; injection H as <-; reflexivity.
  - assert (D : deform_camber_line pc n p = Err x) by (unfold deform_camber_line; rewrite C; reflexivity). rewrite D. cbn [bind].
    exists a. repeat split; auto; discriminate.
Qed.

Lemma set_camber_run : forall m a p, coords a = Ok p -> exists a',
  set_camber_line_max_ m a = (a', let* _ := set_camber_line_max m p in Ok tt) /\
  (coords a' = match set_camber_line_max m p with Ok p' => Ok p' | Err _ => coords a end) /\
  stored a' = stored a /\ sort a' = sort a /\
  (chord a' = chord a \/ exists l, chord a' = Is l /\ compute_chord_line (Some 500%Z) p = Ok l) /\
  (forall e, update_edges p = Ok e -> edges a' = Some e).
Proof.
  intros m a p HC. unfold set_camber_line_max_, set_camber_line_max. destruct (max_camber_run (Some 500%Z) a p HC) as (a1 & E & C1 & S1 & T1 & H1 & _ & _ & _ & G1).
  steps. rewrite E. destruct (max_camber (Some 500%Z) p) as [old|x]; cbn [bind].
  - destruct (fdiv (100 * (m - old)) old) as [pc|x]; cbn [bind].
    + destruct (deform_run pc None a1 p C1) as (a' & E' & C' & S' & T' & K' & G' & _). exists a'. rewrite E', C'. rewrite C1, HC.
      repeat split; auto; try congruence. { rewrite K'. auto. } intros e He. rewrite G'. auto.
    + exists a1. repeat split; auto. congruence.
  - exists a1. repeat split; auto. congruence.
Qed.

Lemma scale_run : forall k b a p, coords a = Ok p -> exists a',
  scale_ k b a = (a', let* _ := scale k b p in Ok tt) /\
  (coords a' = match scale k b p with Ok p' => Ok p' | Err _ => coords a end) /\
  stored a' = stored a /\ sort a' = sort a /\ chord a' = chord a /\ camber a' = camber a /\
  (b = true -> forall e, update_edges p = Ok e -> edges a' = Some e) /\ (b = false -> edges a' = edges a).
Proof.
  intros k [] a p HC; unfold scale_, scale.
  - destruct (reference_run a p HC) as (e & E & K). steps. rewrite E. destruct (reference_point p) as [r|x]; cbn [bind].
    + unfold translate_. steps. rewrite coords_with_edges, HC, coords_with_coords. rewrite coords_with_coords.
      eexists. split; [reflexivity|]. rewrite coords_with_coords. cbn. repeat split; auto; try discriminate. intros _ e' H. f_equal. apply K; auto.
    + exists (with_edges e a). repeat split; auto; try discriminate. intros _ e' H. cbn. f_equal. apply K; auto.
  - steps. rewrite HC. cbn [bind]. eexists. split; [reflexivity|]. rewrite coords_with_coords. cbn. repeat split; auto; discriminate.
Qed.

(** ** Refinement *)
Section Run.
Variable am : profile -> R -> list R -> R -> list R -> res (list R).
Variable cu : list R -> list R -> list R -> res (list R).

Lemma refinement : forall a p, coords a = Ok p ->
  (forall v, does am cu (Translate v) a (Ok (translate v p))) /\
  does am cu Reflect a (Ok (reflect p)) /\
  (forall k b, does am cu (Scale k b) a (scale k b p)) /\
  (forall rad deg, does am cu (Rotate rad deg) a (rotate rad deg p)) /\
  (forall t, does am cu (SetThicknessMax t) a (set_thickness_max t p)) /\
  (forall m, does am cu (SetCamberLineMax m) a (set_camber_line_max m p)) /\
  (forall pc n, does am cu (DeformCamberLine pc n) a (deform_camber_line pc n p)) /\
  (forall n, answers am cu (MaxThickness n) a Number (max_thickness n p)) /\
  (forall n, answers am cu (MaxCamber n) a Number (max_camber n p)) /\
  answers am cu ReferencePoint a Point (reference_point p).
Proof.
  intros a p HC. repeat split; intros; unfold does, answers; cbn [perform]; unfold quiet; steps.
  - unfold translate_. steps. rewrite HC. eexists. split; [reflexivity|]. apply coords_with_coords.
  - unfold reflect_. steps. rewrite HC. eexists. split; [reflexivity|]. apply coords_with_coords.
  - destruct (scale_run k b a p HC) as (a' & E & C & _). rewrite E. destruct (scale k b p); cbn [bind]; eauto.
  - unfold rotate_. steps. rewrite HC. destruct (rotate rad deg p); eexists; (split; [reflexivity|]); auto using coords_with_coords.
  - unfold set_thickness_max_. steps. rewrite HC. destruct (set_thickness_max t p); eexists; (split; [reflexivity|]); auto using coords_with_coords.
  - destruct (set_camber_run m a p HC) as (a' & E & C & _). rewrite E. destruct (set_camber_line_max m p); cbn [bind]; eauto.
  - destruct (deform_run pc n a p HC) as (a' & E & C & _). rewrite E. destruct (deform_camber_line pc n p); cbn [bind]; eauto.
  - unfold max_thickness_. steps. rewrite HC. destruct (max_thickness n p); eauto.
  - destruct (max_camber_run n a p HC) as (a' & E & C & _). rewrite E. exists a'. rewrite C, HC. destruct (max_camber n p); eauto.
  - destruct (reference_run a p HC) as (e & E & _). rewrite E. exists (with_edges e a). destruct (reference_point p); eauto.
Qed.
End Run.
