(** Proofs: winding, rotations, scalings, mirroring (C44, C50 - C52). *)
From Coq Require Import Reals List ZArith String Lra Lia Bool.
From Verif Require Import Base ProfileModel ProfileSpec ProfileProofs BladeModel BladeSpec BladeProofs BladeProofs2 BladeProofs3 BladeProofs4.
Import ListNotations.
Open Scope R_scope.

Lemma pt3_eq : forall x y z x' y' z' : R, x = x' -> y = y' -> z = z' -> (x, y, z) = (x', y', z').
Proof. intros; subst; reflexivity. Qed.

(** ** Winding *)
Lemma wrap_turn : forall r x1 y1 x2 y2, r <> 0 -> let d := (y2 - y1) / r in
  wrap r (x2, y2) = (x2, cos d * snd (fst (wrap r (x1, y1))) + sin d * snd (wrap r (x1, y1)),
                         cos d * snd (wrap r (x1, y1)) - sin d * snd (fst (wrap r (x1, y1)))) /\
  Rabs r * Rabs d = Rabs (y2 - y1).
Proof.
  intros r x1 y1 x2 y2 Hr d. unfold wrap; cbn [fst snd]. split.
  - replace (y2 / r) with (y1 / r + d) by (unfold d; field; auto).
    rewrite sin_plus, cos_plus. apply pt3_eq; ring.
  - rewrite <- Rabs_mult. f_equal. unfold d. field; auto.
Qed.

Lemma wrap_dist : forall r x1 y1 x2 y2, r <> 0 ->
  dist3 (wrap r (x1, y1)) (wrap r (x2, y2)) =
  sqrt ((x1 - x2) * (x1 - x2) + (2 * r * sin ((y1 - y2) / (2 * r))) * (2 * r * sin ((y1 - y2) / (2 * r)))).
Proof.
  intros r x1 y1 x2 y2 Hr. unfold dist3, norm3, wrap, sub3, dot3; cbn [fst snd]. f_equal.
  set (u := y1 / r). set (v := y2 / r).
  replace ((y1 - y2) / (2 * r)) with ((u - v) / 2) by (unfold u, v; field; auto).
  assert (K : 1 - cos (u - v) = 2 * (sin ((u - v) / 2) * sin ((u - v) / 2))).
  { replace (u - v) with (2 * ((u - v) / 2)) at 1 by field. rewrite cos_2a_sin. ring. }
  rewrite cos_minus in K. pose proof (sin2_cos2 u) as Su. pose proof (sin2_cos2 v) as Sv. unfold Rsqr in *.
  set (w := sin ((u - v) / 2)) in *. clearbody w u v.
  transitivity ((x1 - x2) * (x1 - x2) + r * r * ((sin u * sin u + cos u * cos u) + (sin v * sin v + cos v * cos v) - 2 * (cos u * cos v + sin u * sin v))); [ring|].
  rewrite Su, Sv. replace (cos u * cos v + sin u * sin v) with (1 - 2 * (w * w)) by lra. ring.
Qed.

Lemma wrap_dist_le : forall r a b, r <> 0 -> dist3 (wrap r a) (wrap r b) <= pdist a b.
Proof.
  intros r [x1 y1] [x2 y2] Hr. rewrite wrap_dist by auto. unfold pdist, pnorm, psub; cbn [fst snd].
  apply sqrt_le_1_alt. apply Rplus_le_compat_l.
  set (h := (y1 - y2) / (2 * r)). replace (y1 - y2) with (2 * r * h) by (unfold h; field; auto). clearbody h.
  replace (2 * r * sin h * (2 * r * sin h)) with (4 * (r * r) * (sin h * sin h)) by ring.
  replace (2 * r * h * (2 * r * h)) with (4 * (r * r) * (h * h)) by ring.
  apply Rmult_le_compat_l; [pose proof (Rle_0_sqr r); unfold Rsqr in *; lra|].
  assert (B : Rabs (sin h) <= Rabs h).
  { assert (P : forall x, 0 <= x -> Rabs (sin x) <= x).
    { intros x Hx. destruct (Req_dec x 0) as [->|N]; [rewrite sin_0, Rabs_R0; lra|].
      pose proof (sin_lt_x x ltac:(lra)) as S1.
      destruct (Rle_lt_dec 1 x) as [H1|H1].
      - pose proof (SIN_bound x). apply Rabs_le. lra.
      - pose proof PI2_1. pose proof (sin_ge_0 x ltac:(lra) ltac:(lra)). rewrite Rabs_right; lra. }
    destruct (Rle_lt_dec 0 h) as [H|H].
    - rewrite (Rabs_right h) by lra. apply P; auto.
    - rewrite (Rabs_left h) by auto. rewrite <- Rabs_Ropp, <- sin_neg. apply P. lra. }
  pose proof (Rsqr_le_abs_1 _ _ B) as Q. unfold Rsqr in Q. exact Q.
Qed.

Lemma wrap_speed : forall r (x y : R -> R) t dx dy, r <> 0 ->
  derivable_pt_lim x t dx -> derivable_pt_lim y t dy ->
  exists vx vy vz, derivable_pt_lim (fun s => fst (fst (wrap r (x s, y s)))) t vx /\
    derivable_pt_lim (fun s => snd (fst (wrap r (x s, y s)))) t vy /\
    derivable_pt_lim (fun s => snd (wrap r (x s, y s))) t vz /\
    norm3 (vx, vy, vz) = pnorm (dx, dy).
Proof.
  intros r x y t dx dy Hr Hx Hy. unfold wrap; cbn [fst snd].
  assert (Hq : derivable_pt_lim (fun s => y s / r) t (dy / r)).
  { replace (dy / r) with (/ r * dy) by (field; auto).
    apply (derivable_pt_lim_ext (mult_real_fct (/ r) y)); [|apply derivable_pt_lim_scal; auto].
    intros s. unfold mult_real_fct. field; auto. }
  exists dx, (r * (cos (y t / r) * (dy / r))), (r * (- sin (y t / r) * (dy / r))).
  split; [exact Hx|]. split; [|split].
  - apply (derivable_pt_lim_scal (fun s => sin (y s / r))).
    apply (derivable_pt_lim_comp (fun s => y s / r) sin); [exact Hq|apply derivable_pt_lim_sin].
  - apply (derivable_pt_lim_scal (fun s => cos (y s / r))).
    apply (derivable_pt_lim_comp (fun s => y s / r) cos); [exact Hq|apply derivable_pt_lim_cos].
  - unfold norm3, pnorm, dot3; cbn [fst snd]. f_equal.
    pose proof (sin2_cos2 (y t / r)) as Q. unfold Rsqr in Q.
    transitivity (dx * dx + (sin (y t / r) * sin (y t / r) + cos (y t / r) * cos (y t / r)) * (dy * dy)); [field; auto|].
    rewrite Q. ring.
Qed.

(** ** Images *)
Lemma face_eq_refl : forall f, face_eq f f. Proof. intros f q. tauto. Qed.
Lemma image_compose : forall S T f, face_eq (image S (image T f)) (image (fun p => S (T p)) f).
Proof.
  intros S T f q. split.
  - intros (p & (p0 & Hp & ->) & ->). exists p0. auto.
  - intros (p & Hp & ->). exists (T p). split; auto. exists p; auto.
Qed.
Lemma image_ext : forall S T f, (forall p, S p = T p) -> face_eq (image S f) (image T f).
Proof. intros S T f E q. split; intros (p & Hp & ->); exists p; auto. Qed.
Lemma image_id : forall T f, (forall p, T p = p) -> face_eq (image T f) f.
Proof. intros T f E q. split; [intros (p & Hp & ->); rewrite E; auto|intros H; exists q; auto]. Qed.
Lemma face_eq_trans : forall f g h, face_eq f g -> face_eq g h -> face_eq f h.
Proof. intros f g h A B q. rewrite (A q). apply B. Qed.
Lemma face_eq_sym : forall f g, face_eq f g -> face_eq g f.
Proof. intros f g A q. symmetry. apply A. Qed.
Lemma image_face_eq : forall T f g, face_eq f g -> face_eq (image T f) (image T g).
Proof. intros T f g E q. split; intros (p & Hp & ->); exists p; split; auto; apply E; auto. Qed.

Lemma oimage_ext : forall S T f g, (forall p, S p = T p) -> oface_eq (option_map (image S) f) g -> oface_eq (option_map (image T) f) g.
Proof.
  intros S T [f|] [g|] E; cbn; auto. intros H. eapply face_eq_trans; [|exact H]. apply image_ext. auto.
Qed.
Lemma oimage_compose : forall S T f g h, oface_eq (option_map (image T) f) g -> oface_eq (option_map (image S) g) h ->
  oface_eq (option_map (image (fun p => S (T p))) f) h.
Proof.
  intros S T [f|] [g|] [h|]; cbn; auto; try contradiction. intros A B.
  eapply face_eq_trans; [apply face_eq_sym, image_compose|]. eapply face_eq_trans; [apply image_face_eq, A|exact B].
Qed.

Lemma faces_moved_ext : forall S T b c, (forall p, S p = T p) -> faces_moved S b c -> faces_moved T b c.
Proof. intros S T b c E (A & B & C & D). repeat split; eapply oimage_ext; eauto. Qed.
Lemma faces_moved_compose : forall S T a b c, faces_moved T a b -> faces_moved S b c -> faces_moved (fun p => S (T p)) a c.
Proof. intros S T a b c (A & B & C & D) (A' & B' & C' & D'). repeat split; eapply oimage_compose; eauto. Qed.
Lemma faces_moved_id : forall b, faces_moved (fun p => p) b b.
Proof.
  intros b. assert (K : forall f : option face, oface_eq (option_map (image (fun p => p)) f) f).
  { intros [f|]; cbn; auto. apply image_id. auto. }
  repeat split; apply K.
Qed.
Lemma coords_moved_ext : forall S T b c, (forall p, S p = T p) -> coords_moved S b c -> coords_moved T b c.
Proof.
  intros S T b c E (up & down & A & B). exists up, down. split; auto. rewrite B.
  f_equal; apply map_ext; intros l; apply map_ext; auto.
Qed.
Lemma coords_moved_compose : forall S T a b c, coords_moved T a b -> coords_moved S b c -> coords_moved (fun p => S (T p)) a c.
Proof.
  intros S T a b c (up & down & A & B) (up' & down' & A' & B'). rewrite B in A'. injection A' as <- <-.
  exists up, down. split; auto. rewrite B', !map_map.
  f_equal; apply map_ext; intros l; apply map_map.
Qed.
Lemma coords_moved_id : forall b up down, coordinates b = Built up down -> coords_moved (fun p => p) b b.
Proof.
  intros b up down E. exists up, down. split; auto. rewrite E.
  assert (K : forall g : list (list pt3), map (map (fun p => p)) g = g).
  { intros g. rewrite <- (map_id g) at 2. apply map_ext. intros l. apply map_id. }
  rewrite !K. reflexivity.
Qed.

Lemma oface_refl : forall f, oface_eq f f.
Proof. intros [f|]; cbn; auto. apply face_eq_refl. Qed.

Lemma transform_faces_ok : forall T b, has_faces b -> exists b', transform_faces T b = (b', Ok tt) /\
  faces_moved T b b' /\ coordinates b' = coordinates b /\ same_parameters b b' /\ has_faces b'.
Proof.
  intros T b (A & B & C & D). unfold transform_faces.
  destruct (upper_face b) as [u|] eqn:E1; [|contradiction]. destruct (lower_face b) as [l|] eqn:E2; [|contradiction].
  destruct (tip_face b) as [t|] eqn:E3; [|contradiction]. destruct (root_face b) as [r|] eqn:E4; [|contradiction].
  eexists. split; [reflexivity|]. split; [|split; [reflexivity|split; [repeat split|]]].
  - unfold faces_moved. rewrite E1, E2, E3, E4. cbn. repeat split; intros H; exact H.
  - repeat split; discriminate.
Qed.

Lemma transform_faces_none : forall T b, upper_face b = None -> transform_faces T b = (b, Err TypeError).
Proof. intros T b H. unfold transform_faces. rewrite H. reflexivity. Qed.

(** ** Rotation *)
Lemma axis_matrix_turn : forall ax a, is_axis ax -> exists m d, axis_matrix (cos a) (sin a) ax = Ok m /\
  axis_direction ax = Ok d /\ (forall p, mul3 m p = turn ax a p) /\
  (forall p, occ_rotation d a p = turn ax (if String.eqb ax "y" then - a else a) p).
Proof.
  intros ax a [->|[->| ->]]; unfold axis_matrix, axis_direction; cbn [String.eqb Ascii.eqb Bool.eqb];
    eexists _, _; (split; [reflexivity|]); (split; [reflexivity|]); split; intros [[x y] z];
    unfold mul3, dot3, turn, occ_rotation, add3, scale3, cross3, dot3; cbn [String.eqb Ascii.eqb Bool.eqb];
    rewrite ?cos_neg, ?sin_neg; apply pt3_eq; ring.
Qed.

Lemma blade_rotate_deg : forall d ax b, blade_rotate (Some d) None ax b = blade_rotate None (Some (d * (PI / 180))) ax b.
Proof. reflexivity. Qed.

Lemma blade_rotate_ok : forall a ax b, generated b -> is_axis ax ->
  exists b', blade_rotate None (Some a) ax b = (b', Ok tt) /\ coords_moved (turn ax a) b b' /\
    faces_moved (turn ax (if String.eqb ax "y" then - a else a)) b b' /\ same_parameters b b' /\ generated b'.
Proof.
  intros a ax b ((up & down & E) & HF) HA. unfold blade_rotate. rewrite E. cbn [blade_angle bind].
  destruct (axis_matrix_turn ax a HA) as (m & d & -> & -> & Hm & Hd). cbn [bind].
  destruct (transform_faces_ok (occ_rotation d a) (set_coords (Built (grid_map (mul3 m) up) (grid_map (mul3 m) down)) b)) as (b' & E' & FM & CE & SP & HF'); [exact HF|].
  exists b'. split; [exact E'|]. split; [|split; [|split]].
  - exists up, down. split; auto. rewrite CE. cbn. unfold grid_map. f_equal; apply map_ext; intros l; apply map_ext; auto.
  - eapply faces_moved_ext; [exact Hd|exact FM].
  - exact SP.
  - split; auto. rewrite CE. cbn. eauto.
Qed.

Lemma blade_rotate_err : forall deg rad ax b, coordinates b <> Failed ->
  (coordinates b = NoCoords \/ (deg <> None /\ rad <> None) \/ (deg = None /\ rad = None) \/ ~ is_axis ax) ->
  blade_rotate deg rad ax b = (b, Err ValueError).
Proof.
  intros deg rad ax b HB H. unfold blade_rotate. destruct (coordinates b) as [| |up down] eqn:E; [reflexivity|contradiction|].
  destruct deg as [d|], rad as [a|]; cbn [blade_angle bind]; try reflexivity.
  - assert (A : axis_matrix (cos (radians d)) (sin (radians d)) ax = Err ValueError); [|rewrite A; reflexivity].
    destruct H as [H|[[_ H]|[[H _]|H]]]; try discriminate; [contradiction|].
    unfold axis_matrix. destruct (String.eqb_spec ax "x"); [exfalso; apply H; left; auto|].
    destruct (String.eqb_spec ax "y"); [exfalso; apply H; right; left; auto|].
    destruct (String.eqb_spec ax "z"); [exfalso; apply H; right; right; auto|reflexivity].
  - assert (A : axis_matrix (cos a) (sin a) ax = Err ValueError); [|rewrite A; reflexivity].
    destruct H as [H|[[H _]|[[_ H]|H]]]; try discriminate; [contradiction|].
    unfold axis_matrix. destruct (String.eqb_spec ax "x"); [exfalso; apply H; left; auto|].
    destruct (String.eqb_spec ax "y"); [exfalso; apply H; right; left; auto|].
    destruct (String.eqb_spec ax "z"); [exfalso; apply H; right; right; auto|reflexivity].
Qed.

Lemma blade_rotate_nonatomic : forall a ax b up down, coordinates b = Built up down -> upper_face b = None -> is_axis ax ->
  exists b', blade_rotate None (Some a) ax b = (b', Err TypeError) /\ coords_moved (turn ax a) b b' /\ same_faces b b'.
Proof.
  intros a ax b up down E N HA. unfold blade_rotate. rewrite E. cbn [blade_angle bind].
  destruct (axis_matrix_turn ax a HA) as (m & d & -> & -> & Hm & Hd). cbn [bind].
  rewrite transform_faces_none by exact N. eexists. split; [reflexivity|]. split; [|repeat split].
  exists up, down. split; auto. cbn. unfold grid_map. f_equal; apply map_ext; intros l; apply map_ext; auto.
Qed.

Lemma turn_dist : forall ax a p q, dist3 (turn ax a p) (turn ax a q) = dist3 p q.
Proof.
  intros ax a [[x y] z] [[u v] w]. unfold dist3, norm3. f_equal. unfold turn.
  pose proof (sin2_cos2 a) as Q. unfold Rsqr in Q.
  assert (K : forall s t, (cos a * s - sin a * t) * (cos a * s - sin a * t) + (sin a * s + cos a * t) * (sin a * s + cos a * t) = s * s + t * t).
  { intros s t. transitivity ((sin a * sin a + cos a * cos a) * (s * s + t * t)); [ring|rewrite Q; ring]. }
  destruct (String.eqb ax "x"); [|destruct (String.eqb ax "y")]; unfold sub3, dot3.
  - rewrite <- (Rplus_assoc) || idtac. specialize (K (y - v) (z - w)). lra.
  - specialize (K (x - u) (z - w)). lra.
  - specialize (K (x - u) (y - v)). lra.
Qed.

Lemma turn_turn : forall ax a b p, turn ax b (turn ax a p) = turn ax (a + b) p.
Proof.
  intros ax a b [[x y] z]. unfold turn. rewrite cos_plus, sin_plus.
  destruct (String.eqb ax "x"); [|destruct (String.eqb ax "y")]; apply pt3_eq; ring.
Qed.

Lemma turn_full : forall ax p, turn ax (2 * PI) p = p.
Proof.
  intros ax [[x y] z]. unfold turn. rewrite cos_2PI, sin_2PI.
  destruct (String.eqb ax "x"); [|destruct (String.eqb ax "y")]; apply pt3_eq; ring.
Qed.

Lemma turn_x_radius : forall a x y z, exists y' z', turn "x" a (x, y, z) = (x, y', z') /\ y' * y' + z' * z' = y * y + z * z.
Proof.
  intros a x y z. unfold turn; cbn [String.eqb Ascii.eqb Bool.eqb]. eexists _, _. split; [reflexivity|].
  pose proof (sin2_cos2 a) as Q. unfold Rsqr in Q.
  transitivity ((sin a * sin a + cos a * cos a) * (y * y + z * z)); [ring|rewrite Q; ring].
Qed.

Lemma turn_linear : forall ax a, similarity 1 (turn ax a).
Proof.
  intros ax a. split; [|split].
  - intros [[x y] z] [[u v] w]. unfold turn, add3. destruct (String.eqb ax "x"); [|destruct (String.eqb ax "y")]; apply pt3_eq; ring.
  - intros k [[x y] z]. unfold turn, scale3. destruct (String.eqb ax "x"); [|destruct (String.eqb ax "y")]; apply pt3_eq; ring.
  - intros. rewrite turn_dist. ring.
Qed.

(** Two rotations about one axis. *)
Lemma blade_rotate_add : forall ax a c b b1 b2 b3, generated b -> is_axis ax ->
  blade_rotate None (Some a) ax b = (b1, Ok tt) -> blade_rotate None (Some c) ax b1 = (b2, Ok tt) ->
  blade_rotate None (Some (a + c)) ax b = (b3, Ok tt) ->
  coordinates b2 = coordinates b3 /\ faces_moved (fun p => p) b3 b2.
Proof.
  intros ax a c b b1 b2 b3 G HA H1 H2 H3.
  destruct (blade_rotate_ok a ax b G HA) as (x & E1 & C1 & F1 & _ & G1). rewrite H1 in E1. injection E1 as <-.
  destruct (blade_rotate_ok c ax b1 G1 HA) as (x & E2 & C2 & F2 & _ & _). rewrite H2 in E2. injection E2 as <-.
  destruct (blade_rotate_ok (a + c) ax b G HA) as (x & E3 & C3 & F3 & _ & _). rewrite H3 in E3. injection E3 as <-.
  split.
  - pose proof (coords_moved_compose _ _ _ _ _ C1 C2) as C12.
    apply (coords_moved_ext _ (turn ax (a + c))) in C12; [|intros p; apply turn_turn].
    destruct C12 as (up & down & X & Y), C3 as (up' & down' & X' & Y'). rewrite X in X'. injection X' as <- <-. congruence.
  - set (s := if String.eqb ax "y" then -1 else 1).
    assert (S : forall t, (if String.eqb ax "y" then - t else t) = s * t) by (intros t; unfold s; destruct (String.eqb ax "y"); ring).
    rewrite S in F1, F2, F3.
    pose proof (faces_moved_compose _ _ _ _ _ F1 F2) as F12.
    apply (faces_moved_ext _ (turn ax (s * (a + c)))) in F12; [|intros p; rewrite turn_turn; f_equal; ring].
    clear - F12 F3.
    assert (K : forall f g h : option face, forall T, oface_eq (option_map (image T) f) g -> oface_eq (option_map (image T) f) h ->
       oface_eq (option_map (image (fun p => p)) g) h).
    { intros [f|] [g|] [h|] T; cbn; auto; try contradiction. intros A B.
      eapply face_eq_trans; [apply image_id; auto|]. eapply face_eq_trans; [apply face_eq_sym, A|exact B]. }
    destruct F12 as (A & B & C & D), F3 as (A' & B' & C' & D'). repeat split; eapply K; eauto.
Qed.

(** ** Scaling *)
Lemma blade_scale_ok : forall k b, generated b -> k <> 0 ->
  exists b', blade_scale k b = (b', Ok tt) /\ coords_moved (scale3 k) b b' /\ faces_moved (scale3 k) b b' /\
    same_parameters b b' /\ generated b'.
Proof.
  intros k b ((up & down & E) & HF) Hk. unfold blade_scale. rewrite E. destruct (Req_EM_T k 0); [contradiction|].
  destruct (transform_faces_ok (scale3 k) (set_coords (Built (grid_map (scale3 k) up) (grid_map (scale3 k) down)) b)) as (b' & E' & FM & CE & SP & HF'); [exact HF|].
  exists b'. split; [exact E'|]. split; [|split; [exact FM|split; [exact SP|]]].
  - exists up, down. split; auto.
  - split; auto. rewrite CE. cbn. eauto.
Qed.

Lemma scale3_similarity : forall k, similarity (Rabs k) (scale3 k).
Proof.
  intros k. split; [|split].
  - intros [[x y] z] [[u v] w]. unfold scale3, add3. apply pt3_eq; ring.
  - intros m [[x y] z]. unfold scale3. apply pt3_eq; ring.
  - intros [[x y] z] [[u v] w]. unfold dist3, norm3, scale3, sub3, dot3.
    rewrite <- sqrt_Rsqr_abs. rewrite <- sqrt_mult_alt by apply Rle_0_sqr. f_equal. unfold Rsqr. ring.
Qed.

Lemma similarity_compose : forall k m S T, similarity k S -> similarity m T -> similarity (k * m) (fun p => S (T p)).
Proof.
  intros k m S T (A & B & C) (A' & B' & C'). split; [|split].
  - intros. rewrite A', A. reflexivity.
  - intros. rewrite B', B. reflexivity.
  - intros. rewrite C, C'. ring.
Qed.

Lemma similarity_id : similarity 1 (fun p => p).
Proof. repeat split. intros. ring. Qed.

Lemma similarity_ext : forall k m S, k = m -> similarity k S -> similarity m S.
Proof. intros; subst; auto. Qed.

Lemma do_motion_ok : forall m b, generated b -> agreeing m -> exists b' T, do_motion m b = (b', Ok tt) /\
  similarity (ratio m) T /\ coords_moved T b b' /\ faces_moved T b b' /\ generated b'.
Proof.
  intros [ax a|ax d|k] b G HM; cbn [do_motion ratio agreeing] in *.
  - assert (HA : is_axis ax) by (unfold is_axis; tauto).
    destruct (blade_rotate_ok a ax b G HA) as (b' & E & C & F & _ & G'). exists b', (turn ax a).
    split; auto. split; [apply turn_linear|]. split; auto. split; auto.
    destruct HM as [->| ->]; exact F.
  - assert (HA : is_axis ax) by (unfold is_axis; tauto). rewrite blade_rotate_deg.
    destruct (blade_rotate_ok (d * (PI / 180)) ax b G HA) as (b' & E & C & F & _ & G'). exists b', (turn ax (d * (PI / 180))).
    split; auto. split; [apply turn_linear|]. split; auto. split; auto.
    destruct HM as [->| ->]; exact F.
  - destruct (blade_scale_ok k b G HM) as (b' & E & C & F & _ & G'). exists b', (scale3 k).
    split; auto. split; [apply scale3_similarity|]. auto.
Qed.

Lemma do_motions_ok : forall ms b, generated b -> Forall agreeing ms -> exists b' T, do_motions ms b = (b', Ok tt) /\
  similarity (ratios ms) T /\ coords_moved T b b' /\ faces_moved T b b' /\ generated b'.
Proof.
  induction ms as [|m ms IH]; intros b G H; cbn [do_motions].
  - exists b, (fun p => p). split; auto. split; [apply similarity_id|].
    destruct G as ((up & down & E) & G). split; [eapply coords_moved_id; eauto|]. split; [apply faces_moved_id|]. split; eauto.
  - inversion H as [|? ? H1 H2]; subst.
    destruct (do_motion_ok m b G H1) as (b1 & T1 & E1 & S1 & C1 & F1 & G1). rewrite E1.
    destruct (IH b1 G1 H2) as (b2 & T2 & E2 & S2 & C2 & F2 & G2).
    exists b2, (fun p => T2 (T1 p)). split; auto. split.
    + eapply similarity_ext; [|apply similarity_compose; eauto]. unfold ratios; cbn. ring.
    + split; [eapply coords_moved_compose; eauto|]. split; [eapply faces_moved_compose; eauto|auto].
Qed.

Lemma ratios_nonzero : forall ms, Forall agreeing ms -> ratios ms <> 0.
Proof.
  induction 1 as [|m ms Hm _ IH]; unfold ratios in *; cbn; [lra|].
  apply Rmult_integral_contrapositive. split; auto. destruct m; cbn in *; try lra. apply Rabs_no_R0. auto.
Qed.

Lemma map_map_linear : forall k T g, similarity k T ->
  map (map (scale3 1000)) (map (map T) g) = map (map T) (map (map (scale3 1000)) g).
Proof.
  intros k T g (_ & L & _). rewrite !map_map. apply map_ext. intros l. rewrite !map_map. apply map_ext. intros p. symmetry. apply L.
Qed.

Lemma agree_moved : forall surface k T b c, equivariant surface -> k <> 0 -> similarity k T ->
  coords_moved T b c -> faces_moved T b c -> faces_agree surface b -> faces_agree surface c.
Proof.
  intros surface k T b c EQ Hk S (up & down & C0 & C1) (F1 & F2 & F3 & F4)
    (up' & down' & fu & fl & ft & fr & lu & ld & su & sd & gu & gl & gt & gr &
     HC & U1 & U2 & U3 & U4 & L1 & L2 & L3 & L4 & S1 & S2 & S3 & S4 & Q1 & Q2 & Q3 & Q4).
  rewrite C0 in HC. injection HC as <- <-.
  destruct (EQ k T _ _ Hk S S1) as (gu' & S1' & R1). destruct (EQ k T _ _ Hk S S2) as (gl' & S2' & R2).
  destruct (EQ k T _ _ Hk S S3) as (gt' & S3' & R3). destruct (EQ k T _ _ Hk S S4) as (gr' & S4' & R4).
  rewrite <- (map_map_linear k T _ S) in S1'.
  rewrite <- (map_map_linear k T _ S) in S2'.
  rewrite <- (map_map_linear k T _ S) in S3'.
  rewrite <- (map_map_linear k T _ S) in S4'.
  rewrite U1, U2, U3, U4 in *. cbn [option_map] in *.
  destruct (upper_face c) as [fu'|] eqn:V1; [|contradiction]. destruct (lower_face c) as [fl'|] eqn:V2; [|contradiction].
  destruct (tip_face c) as [ft'|] eqn:V3; [|contradiction]. destruct (root_face c) as [fr'|] eqn:V4; [|contradiction].
  cbn [oface_eq] in *.
  assert (K : forall f f' g g', face_eq (image T f) f' -> face_eq f g -> face_eq g' (image T g) -> face_eq f' g').
  { intros f f' g g' A B C. eapply face_eq_trans; [apply face_eq_sym, A|].
    eapply face_eq_trans; [apply image_face_eq, B|apply face_eq_sym, C]. }
  exists (map (map T) up), (map (map T) down), fu', fl', ft', fr', (map T lu), (map T ld), (map T su), (map T sd), gu', gl', gt', gr'.
  split; [exact C1|]. split; [exact V1|]. split; [exact V2|]. split; [exact V3|]. split; [exact V4|].
  rewrite !final_map, !first_map, L1, L2, L3, L4. cbn [bind].
  split; [reflexivity|]. split; [reflexivity|]. split; [reflexivity|]. split; [reflexivity|].
  split; [exact S1'|]. split; [exact S2'|]. split; [exact S3'|]. split; [exact S4'|].
  split; [exact (K _ _ _ _ F1 Q1 R1)|]. split; [exact (K _ _ _ _ F2 Q2 R2)|].
  split; [exact (K _ _ _ _ F3 Q3 R3)|exact (K _ _ _ _ F4 Q4 R4)].
Qed.

Lemma build_agrees : forall surface refl st b st' b', build surface refl st b = (st', b', Ok tt) ->
  faces_agree surface b' /\ generated b' /\ same_parameters b b'.
Proof.
  intros surface refl st b st' b' H. apply build_inv in H as (b1 & up & down & HA & Hc & HM).
  apply make_faces_inv in HM as (fu & fl & ft & fr & lu & ld & su & sd & -> & E1 & E2 & E3 & E4 & _ & _ & G1 & G2 & G3 & G4).
  split; [|split].
  - exists up, down, fu, fl, ft, fr, lu, ld, su, sd, fu, fl, ft, fr. cbn.
    repeat (split; [first [assumption|reflexivity|apply face_eq_refl]|]). apply face_eq_refl.
  - split; [cbn; eauto|]. repeat split; discriminate.
  - apply apply_inv in HA as (u & d & _ & _ & ->). repeat split.
Qed.

(** After build, along any sequence of agreeing motions. *)
Lemma build_motions : forall surface refl st b st' b0 ms, equivariant surface ->
  build surface refl st b = (st', b0, Ok tt) -> Forall agreeing ms ->
  exists b', do_motions ms b0 = (b', Ok tt) /\ faces_agree surface b'.
Proof.
  intros surface refl st b st' b0 ms EQ H F. destruct (build_agrees _ _ _ _ _ _ H) as (A & G & _).
  destruct (do_motions_ok ms b0 G F) as (b' & T & E & S & C & FM & _). exists b'. split; auto.
  exact (agree_moved surface _ T b0 b' EQ (ratios_nonzero _ F) S C FM A).
Qed.

(** ** Mirror *)
Lemma dot3_comm : forall a b, dot3 a b = dot3 b a.
Proof. intros [[x y] z] [[u v] w]. unfold dot3. ring. Qed.

Lemma dot3_self_zero : forall n, dot3 n n = 0 <-> n = zero3.
Proof.
  intros [[x y] z]. unfold dot3, zero3. split.
  - intros H. pose proof (Rle_0_sqr x) as A. pose proof (Rle_0_sqr y) as B. pose proof (Rle_0_sqr z) as C. unfold Rsqr in *.
    assert (X : x * x = 0) by lra. assert (Y : y * y = 0) by lra. assert (Z : z * z = 0) by lra.
    apply Rsqr_0_uniq in X, Y, Z. subst. reflexivity.
  - intros H. injection H as -> -> ->. ring.
Qed.

Lemma gp_dir_ok : forall v, v <> zero3 -> exists n, gp_dir v = Ok n /\ forall o p, occ_mirror o n p = reflection o v p.
Proof.
  intros v N. unfold gp_dir. assert (D : dot3 v v <> 0) by (intros D; apply N, dot3_self_zero, D).
  destruct (Req_EM_T (dot3 v v) 0) as [E|_]; [contradiction|]. eexists. split; [reflexivity|]. intros o p.
  unfold occ_mirror, reflection. f_equal.
  set (q := sub3 p o). clearbody q.
  assert (P : 0 < dot3 v v).
  { destruct v as [[x y] z]. unfold dot3 in *. pose proof (Rle_0_sqr x). pose proof (Rle_0_sqr y). pose proof (Rle_0_sqr z). unfold Rsqr in *. lra. }
  pose proof (sqrt_sqrt (dot3 v v) (Rlt_le _ _ P)) as SS. pose proof (sqrt_lt_R0 _ P) as SP.
  set (m := sqrt (dot3 v v)) in *.
  assert (E : dot3 q (scale3 (/ m) v) = / m * dot3 q v) by (destruct q as [[a b] c], v as [[x y] z]; unfold dot3, scale3; ring).
  rewrite E, <- SS. generalize (dot3 q v). intros e.
  destruct v as [[x y] z]; unfold scale3. apply pt3_eq; field; lra.
Qed.

Lemma gp_dir_zero : gp_dir zero3 = Err RuntimeError.
Proof.
  unfold gp_dir. assert (D : dot3 zero3 zero3 = 0) by (unfold dot3, zero3; ring).
  destruct (Req_EM_T (dot3 zero3 zero3) 0); [reflexivity|contradiction].
Qed.

Lemma gp_pnt_list : forall p, gp_pnt (as_list p) = Ok p.
Proof. intros [[x y] z]. reflexivity. Qed.

Definition vec_dec (v : pt3) : v = zero3 \/ v <> zero3.
Proof.
  destruct (Req_dec (dot3 v v) 0) as [E|E]; [left; apply dot3_self_zero; auto|right; intros ->; apply E, dot3_self_zero; auto].
Qed.

Lemma plane_normal_ok : forall o v, v <> zero3 -> exists n, plane_of_normal (as_list o) (as_list v) = Ok (o, n) /\
  forall p, occ_mirror o n p = reflection o v p.
Proof.
  intros o v N. unfold plane_of_normal. rewrite !gp_pnt_list. cbn [bind].
  destruct (gp_dir_ok v N) as (n & -> & H). cbn. eauto.
Qed.
Lemma plane_points_ok : forall a b c, cross3 (sub3 b a) (sub3 c b) <> zero3 ->
  exists n, plane_of_points (as_list a) (as_list b) (as_list c) = Ok (a, n) /\
  forall p, occ_mirror a n p = reflection a (cross3 (sub3 b a) (sub3 c b)) p.
Proof.
  intros a b c N. unfold plane_of_points. rewrite !gp_pnt_list. cbn [bind].
  destruct (gp_dir_ok _ N) as (n & -> & H). cbn. eauto.
Qed.

Lemma mirror_faces : forall args kw o n v b, generated b -> mirror_plane args kw = Ok (o, n) ->
  (forall p, occ_mirror o n p = reflection o v p) ->
  exists b', blade_mirror args kw b = (b', Ok tt) /\ faces_moved (reflection o v) b b' /\
    coordinates b' = coordinates b /\ same_parameters b b' /\ generated b'.
Proof.
  intros args kw o n v b ((up & down & E) & HF) HP HR. unfold blade_mirror. rewrite E, HP.
  destruct (transform_faces_ok (occ_mirror o n) b HF) as (b' & E' & FM & CE & SP & HF').
  exists b'. split; auto. split; [eapply faces_moved_ext; eauto|]. split; [rewrite CE; auto|]. split; auto.
  split; auto. rewrite CE. eauto.
Qed.

Lemma blade_mirror_normal : forall o v b, generated b -> v <> zero3 ->
  exists b', blade_mirror [as_list o; as_list v] [] b = (b', Ok tt) /\ faces_moved (reflection o v) b b' /\
    coordinates b' = coordinates b /\ same_parameters b b' /\ generated b'.
Proof.
  intros o v b G N. destruct (plane_normal_ok o v N) as (n & E & H).
  eapply mirror_faces; eauto.
Qed.

Lemma blade_mirror_points : forall p1 p2 p3 b, generated b -> cross3 (sub3 p2 p1) (sub3 p3 p2) <> zero3 ->
  exists b', blade_mirror [as_list p1; as_list p2; as_list p3] [] b = (b', Ok tt) /\
    faces_moved (reflection p1 (cross3 (sub3 p2 p1) (sub3 p3 p2))) b b' /\
    coordinates b' = coordinates b /\ same_parameters b b' /\ generated b'.
Proof.
  intros p1 p2 p3 b G N. destruct (plane_points_ok p1 p2 p3 N) as (n & E & H).
  eapply mirror_faces; eauto.
Qed.

(** Keyword forms. *)
Lemma mirror_kw_normal : forall o v b,
  blade_mirror [] [("point", as_list o); ("normal", as_list v)]%string b = blade_mirror [as_list o; as_list v] [] b /\
  blade_mirror [] [("normal", as_list v); ("point", as_list o)]%string b = blade_mirror [as_list o; as_list v] [] b.
Proof. intros. split; reflexivity. Qed.
Lemma mirror_kw_points : forall p1 p2 p3 b,
  blade_mirror [] [("point1", as_list p1); ("point2", as_list p2); ("point3", as_list p3)]%string b =
  blade_mirror [as_list p1; as_list p2; as_list p3] [] b.
Proof. intros. reflexivity. Qed.
Lemma mirror_kw_order : forall p1 p2 p3 b, generated b ->
  blade_mirror [] [("point2", as_list p2); ("point1", as_list p1); ("point3", as_list p3)]%string b = (b, Err ValueError).
Proof. intros p1 p2 p3 b ((up & down & E) & _). unfold blade_mirror. rewrite E. reflexivity. Qed.
Lemma mirror_extra_ignored : forall o v x b,
  blade_mirror [as_list o; as_list v] [("point3", x)]%string b = blade_mirror [as_list o; as_list v] [] b.
Proof. intros. reflexivity. Qed.
Lemma gp_pnt_short : forall l, l <> [] -> List.length l <> 3%nat -> gp_pnt l = Err TypeError.
Proof. intros [|x [|y [|z [|w l]]]] N L; try reflexivity; exfalso; [apply N|apply L]; reflexivity. Qed.
Lemma mirror_coordinates : forall a b, generated b -> a <> [] -> List.length a <> 3%nat ->
  (forall v, blade_mirror [a; v] [] b = (b, Err TypeError)) /\ (forall o, blade_mirror [as_list o; a] [] b = (b, Err TypeError)) /\
  (forall v w, blade_mirror [a; v; w] [] b = (b, Err TypeError)) /\ (forall o w, blade_mirror [as_list o; a; w] [] b = (b, Err TypeError)) /\
  forall o q, blade_mirror [as_list o; as_list q; a] [] b = (b, Err TypeError).
Proof.
  intros a b ((up & down & E) & _) N L. pose proof (gp_pnt_short a N L) as G. unfold blade_mirror. rewrite E.
  unfold mirror_plane. cbn [List.length Nat.add Nat.eqb orb negb existsb]. unfold plane_of_normal, plane_of_points.
  split; [intros v; rewrite G; reflexivity|]. split; [intros o; rewrite gp_pnt_list; cbn [bind]; rewrite G; reflexivity|].
  split; [intros v w; rewrite G; reflexivity|]. split; [intros o w; rewrite gp_pnt_list; cbn [bind]; rewrite G; reflexivity|].
  intros o q; rewrite !gp_pnt_list; cbn [bind]; rewrite G; reflexivity.
Qed.
Lemma mirror_count : forall args kw b, coordinates b <> Failed ->
  (coordinates b = NoCoords \/ (List.length args + List.length kw <> 2 /\ List.length args + List.length kw <> 3)%nat) ->
  blade_mirror args kw b = (b, Err ValueError).
Proof.
  intros args kw b HB H. unfold blade_mirror. destruct (coordinates b) as [| |up down]; [reflexivity|contradiction|].
  destruct H as [H|(H1 & H2)]; [discriminate|]. unfold mirror_plane.
  destruct (Nat.eqb_spec (List.length args + List.length kw) 2); [contradiction|].
  destruct (Nat.eqb_spec (List.length args + List.length kw) 3); [contradiction|]. reflexivity.
Qed.
Lemma mirror_degenerate : forall o b, generated b ->
  blade_mirror [as_list o; as_list zero3] [] b = (b, Err RuntimeError) /\
  blade_mirror [as_list o; as_list o; as_list o] [] b = (b, Err RuntimeError).
Proof.
  intros o b ((up & down & E) & _). unfold blade_mirror. rewrite E.
  cbn [mirror_plane List.length Nat.add Nat.eqb orb negb existsb].
  split.
  - cbn [map]. destruct (list_eq_dec _ _ _) as [Q|_]; [discriminate|]. unfold plane_of_normal. rewrite !gp_pnt_list. cbn [bind].
    rewrite gp_dir_zero. reflexivity.
  - unfold plane_of_points. rewrite !gp_pnt_list. cbn [bind].
    replace (cross3 (sub3 o o) (sub3 o o)) with zero3; [rewrite gp_dir_zero; reflexivity|].
    destruct o as [[x y] z]. unfold cross3, sub3, zero3. apply pt3_eq; ring.
Qed.

Lemma reflection_involutive : forall o n p, n <> zero3 -> reflection o n (reflection o n p) = p.
Proof.
  intros o n p N. assert (D : dot3 n n <> 0) by (intros D; apply N, dot3_self_zero, D). clear N.
  unfold reflection. set (e := dot3 (sub3 p o) n).
  assert (E : dot3 (sub3 (sub3 p (scale3 (2 * e / dot3 n n) n)) o) n = - e).
  { transitivity (dot3 (sub3 p o) n - 2 * e / dot3 n n * dot3 n n).
    - destruct o as [[a b] c], n as [[x y] z], p as [[u v] w]; unfold dot3, sub3, scale3. ring.
    - fold e. field. exact D. }
  rewrite E. destruct n as [[x y] z], p as [[u v] w]. unfold sub3, scale3. set (d := dot3 (x, y, z) (x, y, z)) in *.
  apply pt3_eq; field; exact D.
Qed.

Lemma reflection_fixes : forall o n p, on_plane o n p -> reflection o n p = p.
Proof.
  intros o n p H. unfold reflection, on_plane in *. rewrite H. destruct n as [[x y] z], p as [[u v] w]. unfold sub3, scale3, Rdiv.
  apply pt3_eq; ring.
Qed.

Lemma reflection_flips : forall o n t, n <> zero3 -> reflection o n (add3 o (scale3 t n)) = add3 o (scale3 (- t) n).
Proof.
  intros o n t N. assert (D : dot3 n n <> 0) by (intros D; apply N, dot3_self_zero, D). clear N. unfold reflection.
  assert (E : dot3 (sub3 (add3 o (scale3 t n)) o) n = t * dot3 n n).
  { destruct o as [[a b] c], n as [[x y] z]; unfold dot3, sub3, add3, scale3. ring. }
  rewrite E. set (d := dot3 n n) in *. destruct o as [[a b] c], n as [[x y] z]; unfold sub3, add3, scale3. apply pt3_eq; field; exact D.
Qed.

Lemma reflection_dist : forall o n p q, n <> zero3 -> dist3 (reflection o n p) (reflection o n q) = dist3 p q.
Proof.
  intros o n p q N. assert (D : dot3 n n <> 0) by (intros D; apply N, dot3_self_zero, D). clear N. unfold dist3, norm3. f_equal.
  unfold reflection. set (e := dot3 (sub3 p o) n). set (f := dot3 (sub3 q o) n).
  assert (K : dot3 (sub3 p q) n = e - f).
  { unfold e, f. destruct o as [[a b] c], n as [[x y] z], p as [[u v] w], q as [[i j] k]; unfold dot3, sub3. ring. }
  set (d := dot3 n n) in *.
  assert (X : sub3 (sub3 p (scale3 (2 * e / d) n)) (sub3 q (scale3 (2 * f / d) n)) = sub3 (sub3 p q) (scale3 (2 * (e - f) / d) n)).
  { destruct n as [[x y] z], p as [[u v] w], q as [[i j] k]; unfold sub3, scale3. apply pt3_eq; field; exact D. }
  rewrite X. set (g := e - f) in *.
  transitivity (dot3 (sub3 p q) (sub3 p q) - 2 * (2 * g / d) * dot3 (sub3 p q) n + (2 * g / d) * (2 * g / d) * d).
  - unfold d. generalize (2 * g / dot3 n n). intros m. destruct n as [[x y] z], p as [[u v] w], q as [[i j] k]; unfold dot3, sub3, scale3. ring.
  - rewrite K. field. exact D.
Qed.

Lemma points_on_plane : forall a b c, let n := cross3 (sub3 b a) (sub3 c b) in
  on_plane a n a /\ on_plane a n b /\ on_plane a n c.
Proof.
  intros [[x y] z] [[u v] w] [[i j] k] n. unfold n, on_plane, dot3, cross3, sub3. repeat split; ring.
Qed.

Lemma mirror_twice : forall o v b b1 b2, generated b -> v <> zero3 ->
  blade_mirror [as_list o; as_list v] [] b = (b1, Ok tt) -> blade_mirror [as_list o; as_list v] [] b1 = (b2, Ok tt) ->
  faces_moved (fun p => p) b b2 /\ coordinates b2 = coordinates b.
Proof.
  intros o v b b1 b2 G N H1 H2.
  destruct (blade_mirror_normal o v b G N) as (x & E1 & F1 & C1 & _ & G1). rewrite H1 in E1. injection E1 as <-.
  destruct (blade_mirror_normal o v b1 G1 N) as (x & E2 & F2 & C2 & _ & _). rewrite H2 in E2. injection E2 as <-.
  split; [|congruence].
  eapply faces_moved_ext; [|eapply faces_moved_compose; eauto]. intros p. cbn. apply reflection_involutive. auto.
Qed.
