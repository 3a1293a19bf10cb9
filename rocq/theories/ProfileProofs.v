(** Proofs about translate, rotate, reflect, scale and the edges. *)
From Coq Require Import Reals List ZArith Lia Lra Bool.
From Verif Require Import Base ProfileModel ProfileSpec RbfModel RbfProofs SolveProofs.
Import ListNotations.
Open Scope R_scope.

Lemma bind_ok : forall {A B} (m : res A) (k : A -> res B) b,
  bind m k = Ok b -> exists a, m = Ok a /\ k a = Ok b.
Proof. intros A B [a|e] k b H; simpl in H; [eauto|discriminate]. Qed.

Lemma combine_map2 : forall {A B C D} (f : A -> C) (g : B -> D) (x : list A) (y : list B),
  combine (map f x) (map g y) = map (fun q => (f (fst q), g (snd q))) (combine x y).
Proof. induction x; destruct y; simpl; auto. f_equal. auto. Qed.

Lemma combine_map2_both : forall {A B C D} (f : A -> B -> C) (g : A -> B -> D) x y,
  combine (map2 f x y) (map2 g x y) = map (fun q => (f (fst q) (snd q), g (fst q) (snd q))) (combine x y).
Proof. induction x; destruct y; simpl; auto. f_equal. auto. Qed.

Lemma profile_eq : forall p q, xup p = xup q -> xdown p = xdown q -> yup p = yup q -> ydown p = ydown q -> p = q.
Proof. intros [a b c d] [a' b' c' d']; simpl; intros; subst; auto. Qed.

Lemma vshift_shift : forall a b v, vshift a (vshift b v) = vshift (b + a) v.
Proof. intros. unfold vshift. rewrite map_map. apply map_ext. intros; ring. Qed.
Lemma vshift_zero : forall v, vshift 0 v = v.
Proof. intros. unfold vshift. rewrite <- (map_id v) at 2. apply map_ext. intros; ring. Qed.
Lemma vscale_vscale : forall a b v, vscale a (vscale b v) = vscale (b * a) v.
Proof. intros. unfold vscale. rewrite map_map. apply map_ext. intros; ring. Qed.
Lemma vscale_one : forall v, vscale 1 v = v.
Proof. intros. unfold vscale. rewrite <- (map_id v) at 2. apply map_ext. intros; ring. Qed.
Lemma vshift_length : forall c v, List.length (vshift c v) = List.length v.
Proof. intros; apply map_length. Qed.

(** ** translate *)
Lemma translate_points : forall v p,
  upper (translate v p) = map (padd v) (upper p) /\ lower (translate v p) = map (padd v) (lower p).
Proof.
  intros v p. unfold upper, lower, translate, vshift; simpl.
  rewrite !combine_map2. split; apply map_ext; intros [a b]; unfold padd; simpl; f_equal; ring.
Qed.

Lemma translate_uniform : forall v p, uniform p -> uniform (translate v p).
Proof. intros v p H. unfold uniform, translate in *; simpl. rewrite !vshift_length. auto. Qed.

Lemma translate_compose : forall v w p, translate w (translate v p) = translate (padd v w) p.
Proof. intros. unfold translate; simpl. rewrite !vshift_shift. auto. Qed.

Lemma translate_zero : forall p, translate (0, 0) p = p.
Proof. intros p. apply profile_eq; simpl; apply vshift_zero. Qed.

Lemma translate_inverse : forall v p, translate (pneg v) (translate v p) = p.
Proof.
  intros. rewrite translate_compose.
  replace (padd v (pneg v)) with (0, 0) by (unfold padd, pneg; simpl; f_equal; ring).
  apply translate_zero.
Qed.

Lemma translate_fold : forall vs p,
  fold_left (fun q v => translate v q) vs p = translate (fold_right padd (0, 0) vs) p.
Proof.
  induction vs as [|v vs IH]; intros p; simpl.
  - rewrite translate_zero; auto.
  - rewrite IH, translate_compose. auto.
Qed.

(** ** reflect *)
Lemma reflect_points : forall p,
  upper (reflect p) = map pneg (upper p) /\ lower (reflect p) = map pneg (lower p).
Proof.
  intros p. unfold upper, lower, reflect, vscale; simpl.
  rewrite !combine_map2. split; apply map_ext; intros [a b]; unfold pneg; simpl; f_equal; ring.
Qed.
Lemma reflect_twice : forall p, reflect (reflect p) = p.
Proof.
  intros p. apply profile_eq; simpl; rewrite vscale_vscale; replace (-1 * -1) with 1 by ring; apply vscale_one.
Qed.
Lemma reflect_uniform : forall p, uniform p -> uniform (reflect p).
Proof. intros p H. unfold uniform, reflect in *; simpl. rewrite !vscale_length. auto. Qed.

(** ** rotate *)
Lemma rotate_cs : forall c s p,
  uniform p ->
  (let n := List.length (xup p) in
   let pad := zeros (List.length (xdown p) - n) in
   mkProfile
        (map2 (rot_x c s) (xup p) (yup p))
        (map2 (rot_x c s) (firstn n (xdown p)) (firstn n (ydown p)) ++ pad)
        (map2 (rot_y c s) (xup p) (yup p))
        (map2 (rot_y c s) (firstn n (xdown p)) (firstn n (ydown p)) ++ pad)) =
   mkProfile (map2 (rot_x c s) (xup p) (yup p)) (map2 (rot_x c s) (xdown p) (ydown p))
             (map2 (rot_y c s) (xup p) (yup p)) (map2 (rot_y c s) (xdown p) (ydown p)).
Proof.
  intros c s p (H1 & H2 & H3). cbv zeta. rewrite H3, Nat.sub_diag, firstn_all.
  rewrite H2, firstn_all. simpl zeros. rewrite !app_nil_r. auto.
Qed.

Definition rotated (c s : R) (p : profile) : profile :=
   mkProfile (map2 (rot_x c s) (xup p) (yup p)) (map2 (rot_x c s) (xdown p) (ydown p))
             (map2 (rot_y c s) (xup p) (yup p)) (map2 (rot_y c s) (xdown p) (ydown p)).

Lemma rotate_ok : forall rad deg c s p, uniform p -> rotation_angle rad deg = Ok (c, s) ->
  rotate rad deg p = Ok (rotated c s p).
Proof.
  intros rad deg c s p U E. unfold rotate. rewrite E. simpl bind.
  destruct U as (H1 & H2 & H3).
  replace (Nat.eqb (List.length (xup p)) (List.length (yup p))) with true by (symmetry; apply Nat.eqb_eq; auto).
  replace (Nat.eqb (List.length (xdown p)) (List.length (ydown p))) with true by (symmetry; apply Nat.eqb_eq; auto).
  replace (Nat.ltb (List.length (xdown p)) (List.length (xup p))) with false by (symmetry; apply Nat.ltb_ge; lia).
  simpl. f_equal. apply (rotate_cs c s p). repeat split; auto.
Qed.

Lemma rotated_points : forall t p,
  upper (rotated (cos t) (sin t) p) = map (prot t) (upper p) /\
  lower (rotated (cos t) (sin t) p) = map (prot t) (lower p).
Proof.
  intros t p. unfold upper, lower, rotated; simpl. rewrite !combine_map2_both.
  split; apply map_ext; intros [a b]; unfold prot, rot_x, rot_y; simpl; f_equal; ring.
Qed.

Lemma rotated_uniform : forall c s p, uniform p -> uniform (rotated c s p).
Proof.
  intros c s p (H1 & H2 & H3). unfold uniform, rotated; simpl.
  rewrite !map2_length by lia. lia.
Qed.

Lemma uniform_points_eq : forall p q, uniform p -> uniform q -> upper p = upper q -> lower p = lower q -> p = q.
Proof.
  intros p q (H1 & H2 & _) (G1 & G2 & _) U L. unfold upper, lower in *.
  assert (K : forall (a b c d : list R), List.length a = List.length b -> List.length c = List.length d ->
    combine a b = combine c d -> a = c /\ b = d).
  { induction a as [|x a IH]; intros b c d E1 E2 E; destruct b, c, d; simpl in *; try discriminate; auto.
    injection E as -> -> E. destruct (IH b c d) as [-> ->]; try lia; auto. }
  apply K in U; auto. apply K in L; auto. destruct U, L. apply profile_eq; auto.
Qed.

Lemma rotate_full : forall t p, uniform p ->
  exists q, rotate (Some t) None p = Ok q /\ uniform q /\
    upper q = map (prot t) (upper p) /\ lower q = map (prot t) (lower p).
Proof.
  intros t p U. exists (rotated (cos t) (sin t) p).
  split; [apply rotate_ok; auto|]. split; [apply rotated_uniform; auto|apply rotated_points].
Qed.

Lemma rotate_deg : forall d p, rotate None (Some d) p = rotate (Some (d * (PI / 180))) None p.
Proof. reflexivity. Qed.

Lemma rotate_err : forall rad deg p, uniform p ->
  (rotate rad deg p = Err ValueError <-> (rad <> None /\ deg <> None) \/ (rad = None /\ deg = None)) /\
  ((exists q, rotate rad deg p = Ok q) <-> (rad <> None /\ deg = None) \/ (rad = None /\ deg <> None)).
Proof.
  intros rad deg p U.
  destruct rad as [a|], deg as [d|].
  - unfold rotate; simpl. split; split; intros H.
    + left; split; discriminate.
    + auto.
    + destruct H as [q H]; discriminate.
    + destruct H as [[_ H]|[H _]]; discriminate.
  - rewrite (rotate_ok (Some a) None (cos a) (sin a)) by auto. split; split; intros H; try discriminate.
    + destruct H as [[_ H]|[H _]]; congruence.
    + left; split; congruence.
    + eauto.
  - rewrite (rotate_ok None (Some d) (cos (radians d)) (sin (radians d))) by auto. split; split; intros H; try discriminate.
    + destruct H as [[H _]|[_ H]]; congruence.
    + right; split; congruence.
    + eauto.
  - unfold rotate; simpl. split; split; intros H.
    + right; auto.
    + auto.
    + destruct H as [q H]; discriminate.
    + destruct H as [[H _]|[_ H]]; congruence.
Qed.

(** Non-uniform profiles: exactly what happens. *)
Lemma rotate_shapes : forall t p, paired p ->
  ((List.length (xdown p) < List.length (xup p))%nat -> rotate (Some t) None p = Err IndexError) /\
  ((List.length (xup p) <= List.length (xdown p))%nat -> exists q, rotate (Some t) None p = Ok q /\
     upper q = map (prot t) (upper p) /\
     lower q = map (prot t) (firstn (List.length (xup p)) (lower p)) ++
               repeat (0, 0) (List.length (xdown p) - List.length (xup p))).
Proof.
  intros t p (H1 & H2). unfold rotate. simpl.
  replace (Nat.eqb (List.length (xup p)) (List.length (yup p))) with true by (symmetry; apply Nat.eqb_eq; auto).
  replace (Nat.eqb (List.length (xdown p)) (List.length (ydown p))) with true by (symmetry; apply Nat.eqb_eq; auto).
  simpl. split; intros L.
  - apply Nat.ltb_lt in L. rewrite L. auto.
  - assert (L' := L). apply Nat.ltb_ge in L'. rewrite L'.
    eexists. split; [reflexivity|]. unfold upper, lower; simpl. split.
    + rewrite combine_map2_both. apply map_ext. intros [a b]; unfold prot, rot_x, rot_y; simpl; f_equal; ring.
    + set (n := List.length (xup p)) in *.
      assert (K : forall (a b c d : list R), List.length a = List.length b ->
        combine (a ++ c) (b ++ d) = combine a b ++ combine c d).
      { induction a; destruct b; simpl; intros; auto; try discriminate. f_equal. auto. }
      rewrite K by (rewrite !map2_length by (rewrite !firstn_length; lia); auto).
      apply (f_equal2 (@app (R * R))).
      * rewrite combine_map2_both.
        transitivity (map (prot t) (combine (firstn n (xdown p)) (firstn n (ydown p)))).
        -- apply map_ext. intros [a b]; unfold prot, rot_x, rot_y; simpl; f_equal; ring.
        -- f_equal. symmetry. apply (combine_firstn (xdown p) (ydown p) n).
      * unfold zeros. generalize (List.length (xdown p) - n)%nat. induction n0; simpl; f_equal; auto.
Qed.

(** ** Plane geometry *)
Lemma prot_norm : forall t a, pnorm (prot t a) = pnorm a.
Proof.
  intros t [x y]. unfold pnorm, prot; simpl. f_equal.
  pose proof (sin2_cos2 t) as H. unfold Rsqr in H.
  replace (x * x + y * y) with ((sin t * sin t + cos t * cos t) * (x * x + y * y)) by (rewrite H; ring). ring.
Qed.
Lemma prot_dist : forall t a b, pdist (prot t a) (prot t b) = pdist a b.
Proof.
  intros t a b. unfold pdist. rewrite <- (prot_norm t (psub a b)). f_equal.
  unfold psub, prot; simpl. f_equal; ring.
Qed.
Lemma prot_add : forall s t a, prot s (prot t a) = prot (s + t) a.
Proof. intros. unfold prot; simpl. rewrite cos_plus, sin_plus. f_equal; ring. Qed.
Lemma prot_0 : forall a, prot 0 a = a.
Proof. intros [x y]. unfold prot; simpl. rewrite cos_0, sin_0. f_equal; ring. Qed.
Lemma prot_pi : forall a, prot PI a = pneg a.
Proof. intros [x y]. unfold prot, pneg; simpl. rewrite cos_PI, sin_PI. f_equal; ring. Qed.
Lemma pdist_padd : forall v a b, pdist (padd v a) (padd v b) = pdist a b.
Proof. intros. unfold pdist. f_equal. unfold psub, padd; simpl. f_equal; ring. Qed.
Lemma pdist_pneg : forall a b, pdist (pneg a) (pneg b) = pdist a b.
Proof. intros. unfold pdist, pnorm, psub, pneg; simpl. f_equal. ring. Qed.

Lemma rotate_compose : forall s t p q, uniform p -> rotate (Some t) None p = Ok q ->
  rotate (Some s) None q = rotate (Some (t + s)) None p.
Proof.
  intros s t p q U H. destruct (rotate_full t p U) as (q' & E & Uq & A & B).
  rewrite H in E. injection E as <-.
  destruct (rotate_full s q Uq) as (q2 & E2 & U2 & A2 & B2).
  destruct (rotate_full (t + s) p U) as (q3 & E3 & U3 & A3 & B3).
  rewrite E2, E3. f_equal. apply uniform_points_eq; auto.
  - rewrite A2, A3, A, map_map. apply map_ext. intros. rewrite prot_add, Rplus_comm. auto.
  - rewrite B2, B3, B, map_map. apply map_ext. intros. rewrite prot_add, Rplus_comm. auto.
Qed.

Lemma rotate_zero : forall p, uniform p -> rotate (Some 0) None p = Ok p.
Proof.
  intros p U. destruct (rotate_full 0 p U) as (q & E & Uq & A & B). rewrite E. f_equal.
  apply uniform_points_eq; auto; rewrite ?A, ?B; rewrite <- map_id; apply map_ext; apply prot_0.
Qed.

Lemma rotate_inverse : forall t p q, uniform p -> rotate (Some t) None p = Ok q ->
  rotate (Some (- t)) None q = Ok p.
Proof.
  intros t p q U H. rewrite (rotate_compose _ t p) by auto. rewrite Rplus_opp_r. apply rotate_zero; auto.
Qed.

Lemma reflect_is_rotation : forall p, uniform p -> rotate (Some PI) None p = Ok (reflect p).
Proof.
  intros p U. destruct (rotate_full PI p U) as (q & E & Uq & A & B). rewrite E. f_equal.
  destruct (reflect_points p) as [RA RB].
  apply uniform_points_eq; auto using reflect_uniform; rewrite ?A, ?B, ?RA, ?RB; apply map_ext; apply prot_pi.
Qed.

(** Any sequence of rigid moves succeeds, is one isometry applied to all points. *)
Lemma do_move_isometry : forall m p, uniform p ->
  exists q f, do_move m p = Ok q /\ uniform q /\ upper q = map f (upper p) /\ lower q = map f (lower p) /\
    (forall a b, pdist (f a) (f b) = pdist a b).
Proof.
  intros m p U. destruct m as [v|a|d|]; simpl.
  - exists (translate v p), (padd v). destruct (translate_points v p). repeat split; auto using translate_uniform.
    all: try (apply translate_uniform; auto). intros; apply pdist_padd.
  - destruct (rotate_full a p U) as (q & E & Uq & A & B). exists q, (prot a). repeat split; auto; try apply Uq.
    intros; apply prot_dist.
  - rewrite rotate_deg. set (t := d * (PI / 180)).
    destruct (rotate_full t p U) as (q & E & Uq & A & B). exists q, (prot t). repeat split; auto; try apply Uq.
    intros; apply prot_dist.
  - exists (reflect p), pneg. destruct (reflect_points p). repeat split; auto; try apply reflect_uniform; auto.
    intros; apply pdist_pneg.
Qed.

Lemma do_moves_isometry : forall ms p, uniform p ->
  exists q f, do_moves ms p = Ok q /\ uniform q /\ upper q = map f (upper p) /\ lower q = map f (lower p) /\
    (forall a b, pdist (f a) (f b) = pdist a b).
Proof.
  induction ms as [|m ms IH]; intros p U; simpl.
  - exists p, (fun a => a). rewrite !map_id. repeat split; auto; apply U.
  - destruct (do_move_isometry m p U) as (q & f & E & Uq & A & B & I).
    destruct (IH q Uq) as (q2 & f2 & E2 & U2 & A2 & B2 & I2).
    exists q2, (fun a => f2 (f a)). rewrite E. simpl. rewrite E2, A2, B2, A, B, !map_map.
    repeat split; auto; try apply U2. intros. rewrite I2, I. auto.
Qed.

(** ** Edges *)
Lemma final_map : forall {A B} (f : A -> B) l, final (map f l) = (let* x := final l in Ok (f x)).
Proof. induction l as [|a l IH]; simpl; auto. destruct l; simpl in *; auto. Qed.
Lemma first_map : forall {A B} (f : A -> B) l, first (map f l) = (let* x := first l in Ok (f x)).
Proof. destruct l; auto. Qed.
Lemma final_last : forall {A} (l : list A) d, l <> [] -> final l = Ok (last l d).
Proof. induction l as [|a l IH]; intros d H; [congruence|]. destruct l; simpl in *; auto. apply IH; discriminate. Qed.
Lemma first_ok : forall {A} (l : list A), l <> [] -> exists x, first l = Ok x.
Proof. destruct l; [congruence|simpl; eauto]. Qed.
Lemma final_ok : forall {A} (l : list A), l <> [] -> exists x, final l = Ok x.
Proof. destruct l as [|a l]; [congruence|intros _]. exists (last (a :: l) a). apply final_last; congruence. Qed.
Lemma final_in : forall {A} (l : list A) x, final l = Ok x -> In x l.
Proof. induction l as [|a l IH]; intros x H; [discriminate|]. destruct l; simpl in *; [injection H as ->; auto|right; apply IH; auto]. Qed.

Lemma te_mid : forall a b, (if Req_EM_T a b then a else 0.5 * (a + b)) = (a + b) / 2.
Proof. intros a b. destruct (Req_EM_T a b); lra. Qed.

Lemma update_edges_iff : forall p e, update_edges p = Ok e <->
  exists xu0 xd0 xun xdn yu0 yun ydn,
    first (xup p) = Ok xu0 /\ first (xdown p) = Ok xd0 /\ final (xup p) = Ok xun /\ final (xdown p) = Ok xdn /\
    first (yup p) = Ok yu0 /\ final (yup p) = Ok yun /\ final (ydown p) = Ok ydn /\
    Rabs (xu0 - xd0) <= 1/10000 /\ Rabs (xun - xdn) <= 1/10000 /\
    e = ((xu0, yu0), (xun, (yun + ydn) / 2)).
Proof.
  intros p e. unfold update_edges, edge_tol. split; intros H.
  - repeat match goal with H : bind _ _ = Ok _ |- _ =>
      let a := fresh "a" in let E := fresh "E" in apply bind_ok in H; destruct H as [a [E H]] end.
    destruct (Rlt_dec (1/10000) (Rabs (a - a0))); [discriminate|].
    repeat match goal with H : bind _ _ = Ok _ |- _ =>
      let a := fresh "a" in let E := fresh "E" in apply bind_ok in H; destruct H as [a [E H]] end.
    destruct (Rlt_dec (1/10000) (Rabs (a1 - a2))); [discriminate|].
    repeat match goal with H : bind _ _ = Ok _ |- _ =>
      let a := fresh "a" in let E := fresh "E" in apply bind_ok in H; destruct H as [a [E H]] end.
    injection H as <-. exists a, a0, a1, a2, a3, a4, a5. repeat split; auto; try lra.
    rewrite te_mid. auto.
  - destruct H as (xu0 & xd0 & xun & xdn & yu0 & yun & ydn & E1 & E2 & E3 & E4 & E5 & E6 & E7 & L1 & L2 & ->).
    rewrite E1, E2; simpl. destruct (Rlt_dec (1/10000) (Rabs (xu0 - xd0))); [lra|].
    rewrite E3, E4; simpl. destruct (Rlt_dec (1/10000) (Rabs (xun - xdn))); [lra|].
    rewrite E5, E6, E7; simpl. rewrite te_mid. auto.
Qed.

Lemma update_edges_err : forall p, xup p <> [] -> xdown p <> [] -> yup p <> [] -> ydown p <> [] ->
  (exists xu0 xd0 xun xdn, first (xup p) = Ok xu0 /\ first (xdown p) = Ok xd0 /\
     final (xup p) = Ok xun /\ final (xdown p) = Ok xdn /\
     ((update_edges p = Err ValueError <-> Rabs (xu0 - xd0) > 1/10000 \/ Rabs (xun - xdn) > 1/10000) /\
      ((exists e, update_edges p = Ok e) <-> Rabs (xu0 - xd0) <= 1/10000 /\ Rabs (xun - xdn) <= 1/10000))).
Proof.
  intros p N1 N2 N3 N4.
  destruct (first_ok _ N1) as [xu0 E1]. destruct (first_ok _ N2) as [xd0 E2].
  destruct (final_ok _ N1) as [xun E3]. destruct (final_ok _ N2) as [xdn E4].
  destruct (first_ok _ N3) as [yu0 E5]. destruct (final_ok _ N3) as [yun E6]. destruct (final_ok _ N4) as [ydn E7].
  exists xu0, xd0, xun, xdn. repeat (split; [assumption|]).
  unfold update_edges, edge_tol. rewrite E1, E2; simpl.
  destruct (Rlt_dec (1/10000) (Rabs (xu0 - xd0))).
  { split; split; intros; auto; try lra. destruct H; discriminate. }
  rewrite E3, E4; simpl. destruct (Rlt_dec (1/10000) (Rabs (xun - xdn))).
  { split; split; intros; auto; try lra. destruct H; discriminate. }
  rewrite E5, E6, E7; simpl. split; split; intros; try discriminate; try lra. eauto.
Qed.

Lemma reference_point_mid : forall p ref, reference_point p = Ok ref <->
  exists le te, update_edges p = Ok (le, te) /\ ref = pscale (1/2) (padd le te).
Proof.
  intros p ref. unfold reference_point. split; intros H.
  - apply bind_ok in H. destruct H as [[[lx ly] [tx ty]] [E H]]. injection H as <-.
    exists (lx, ly), (tx, ty). split; auto. unfold pscale, padd; simpl. f_equal; lra.
  - destruct H as ([lx ly] & [tx ty] & E & ->). rewrite E. simpl. unfold pscale, padd; simpl. apply f_equal, injective_projections; simpl; lra.
Qed.

(** Edges of the image of a profile under a map x -> a x + b, y -> a y + c. *)
Definition affine (a : R) (v : pt) (p : profile) : profile :=
  mkProfile (map (fun x => a * x + fst v) (xup p)) (map (fun x => a * x + fst v) (xdown p))
            (map (fun y => a * y + snd v) (yup p)) (map (fun y => a * y + snd v) (ydown p)).

Lemma affine_edges : forall a v p le te, update_edges p = Ok (le, te) ->
  (forall e', update_edges (affine a v p) = Ok e' ->
     e' = (padd (pscale a le) v, padd (pscale a te) v)) /\
  (Rabs a <= 1 -> update_edges (affine a v p) = Ok (padd (pscale a le) v, padd (pscale a te) v)) /\
  (first (xup p) = first (xdown p) -> final (xup p) = final (xdown p) ->
     update_edges (affine a v p) = Ok (padd (pscale a le) v, padd (pscale a te) v)) /\
  (forall e, update_edges (affine a v p) = Err e -> e = ValueError).
Proof.
  intros a v p le te H. apply update_edges_iff in H.
  destruct H as (xu0 & xd0 & xun & xdn & yu0 & yun & ydn & E1 & E2 & E3 & E4 & E5 & E6 & E7 & L1 & L2 & E).
  injection E as -> ->.
  assert (K : forall e', update_edges (affine a v p) = Ok e' <->
    Rabs a * Rabs (xu0 - xd0) <= 1/10000 /\ Rabs a * Rabs (xun - xdn) <= 1/10000 /\
    e' = (padd (pscale a (xu0, yu0)) v, padd (pscale a (xun, (yun + ydn) / 2)) v)).
  { intros e'. rewrite update_edges_iff. simpl. rewrite !first_map, !final_map, E1, E2, E3, E4, E5, E6, E7. simpl.
    split.
    - intros (b1 & b2 & b3 & b4 & b5 & b6 & b7 & F1 & F2 & F3 & F4 & F5 & F6 & F7 & M1 & M2 & ->).
      injection F1 as <-. injection F2 as <-. injection F3 as <-. injection F4 as <-. injection F5 as <-.
      injection F6 as <-. injection F7 as <-.
      replace (a * xu0 + fst v - (a * xd0 + fst v)) with (a * (xu0 - xd0)) in M1 by ring.
      replace (a * xun + fst v - (a * xdn + fst v)) with (a * (xun - xdn)) in M2 by ring.
      rewrite Rabs_mult in M1, M2. repeat split; auto. unfold padd, pscale; simpl. apply f_equal, injective_projections; simpl; auto; field.
    - intros (M1 & M2 & ->). do 7 eexists. repeat (split; [reflexivity|]).
      replace (a * xu0 + fst v - (a * xd0 + fst v)) with (a * (xu0 - xd0)) by ring.
      replace (a * xun + fst v - (a * xdn + fst v)) with (a * (xun - xdn)) by ring.
      rewrite !Rabs_mult. repeat split; auto. unfold padd, pscale; simpl. apply f_equal, injective_projections; simpl; auto; field. }
  split; [|split; [|split]].
  - intros e' H'. apply K in H'. tauto.
  - intros Ha. apply K. pose proof (Rabs_pos (xu0 - xd0)). pose proof (Rabs_pos (xun - xdn)). pose proof (Rabs_pos a).
    repeat split; auto; nra.
  - intros F G. apply K. rewrite E1, E2 in F. rewrite E3, E4 in G. injection F as ->. injection G as ->.
    rewrite !Rminus_diag_eq, Rabs_R0 by auto. repeat split; auto; lra.
  - intros e He. unfold update_edges in He. simpl in He.
    rewrite !first_map, !final_map, E1, E2, E3, E4, E5, E6, E7 in He. simpl in He.
    destruct (Rlt_dec _ _); [congruence|]. destruct (Rlt_dec _ _); [congruence|]. discriminate.
Qed.

Lemma translate_affine : forall v p, translate v p = affine 1 v p.
Proof. intros. apply profile_eq; simpl; unfold vshift; apply map_ext; intros; ring. Qed.

Lemma translate_edges : forall v p le te, update_edges p = Ok (le, te) ->
  update_edges (translate v p) = Ok (padd le v, padd te v).
Proof.
  intros v p le te H. rewrite translate_affine.
  destruct (affine_edges 1 v p le te H) as (_ & K & _). rewrite K by (rewrite Rabs_R1; lra).
  unfold pscale, padd; simpl. rewrite !Rmult_1_l. auto.
Qed.

Lemma translate_edges_err : forall v p e, update_edges p = Err e -> update_edges (translate v p) = Err e.
Proof.
  intros v p e H. unfold update_edges, translate, vshift in *; simpl. rewrite !first_map, !final_map.
  destruct (first (xup p)), (first (xdown p)); simpl in *; auto.
  replace (a + fst v - (a0 + fst v)) with (a - a0) by ring.
  destruct (Rlt_dec edge_tol (Rabs (a - a0))); auto.
  destruct (final (xup p)), (final (xdown p)); simpl in *; auto.
  replace (a1 + fst v - (a2 + fst v)) with (a1 - a2) by ring.
  destruct (Rlt_dec edge_tol (Rabs (a1 - a2))); auto.
  destruct (first (yup p)), (final (yup p)), (final (ydown p)); simpl in *; auto; discriminate.
Qed.

Lemma translate_reference : forall v p ref, reference_point p = Ok ref ->
  reference_point (translate v p) = Ok (padd ref v).
Proof.
  intros v p ref H. apply reference_point_mid in H. destruct H as (le & te & E & ->).
  apply reference_point_mid. exists (padd le v), (padd te v). split; [apply translate_edges; auto|].
  unfold pscale, padd; simpl. f_equal; field.
Qed.

(** ** scale *)
Lemma scale_affine : forall k p ref, reference_point p = Ok ref ->
  scale k true p = Ok (affine k (psub ref (pscale k ref)) p).
Proof.
  intros k p ref H. unfold scale. rewrite H. simpl. f_equal.
  apply profile_eq; simpl; unfold vshift, vscale; rewrite !map_map; apply map_ext; intros; unfold psub, pscale; simpl; ring.
Qed.

Lemma affine_points : forall k v p,
  upper (affine k v p) = map (fun q => padd (pscale k q) v) (upper p) /\
  lower (affine k v p) = map (fun q => padd (pscale k q) v) (lower p).
Proof. intros. unfold upper, lower, affine; simpl. rewrite !combine_map2. auto. Qed.

Lemma scale_points : forall k p ref, reference_point p = Ok ref ->
  exists q, scale k true p = Ok q /\
   upper q = map (fun a => padd ref (pscale k (psub a ref))) (upper p) /\
   lower q = map (fun a => padd ref (pscale k (psub a ref))) (lower p).
Proof.
  intros k p ref H. eexists. split; [apply scale_affine; eauto|].
  destruct (affine_points k (psub ref (pscale k ref)) p) as [-> ->].
  split; apply map_ext; intros; unfold padd, pscale, psub; simpl; f_equal; ring.
Qed.

Lemma pnorm_scale : forall k a, pnorm (pscale k a) = Rabs k * pnorm a.
Proof.
  intros k [x y]. unfold pnorm, pscale; simpl.
  replace (k * x * (k * x) + k * y * (k * y)) with (k * k * (x * x + y * y)) by ring.
  rewrite sqrt_mult by nra. f_equal. apply sqrt_Rsqr_abs.
Qed.

Lemma scale_edges : forall k p q le te, update_edges p = Ok (le, te) -> scale k true p = Ok q ->
  (forall le' te', update_edges q = Ok (le', te') -> reference_point q = reference_point p /\
     pdist le' te' = Rabs k * pdist le te) /\
  (Rabs k <= 1 \/ (first (xup p) = first (xdown p) /\ final (xup p) = final (xdown p)) ->
     exists le' te', update_edges q = Ok (le', te')) /\
  (forall e, update_edges q = Err e -> e = ValueError).
Proof.
  intros k p q le te H S.
  assert (Hr : reference_point p = Ok (pscale (1/2) (padd le te))) by (apply reference_point_mid; eauto).
  rewrite (scale_affine _ _ _ Hr) in S. injection S as <-. set (v := psub _ _).
  destruct (affine_edges k v p le te H) as (K1 & K2 & K3 & K4).
  split; [|split; [|exact K4]].
  - intros le' te' E. pose proof (K1 _ E) as E'. injection E' as -> ->. split.
    + rewrite Hr. apply reference_point_mid. do 2 eexists. split; [exact E|].
      unfold v, psub, pscale, padd; simpl. f_equal; field.
    + unfold pdist. rewrite <- pnorm_scale. f_equal. unfold psub, padd, pscale; simpl. f_equal; ring.
  - intros [A|[A B]]; do 2 eexists; eauto.
Qed.

Lemma scale_raises : forall k p e, scale k true p = Err e <-> reference_point p = Err e.
Proof. intros k p e. unfold scale. destruct (reference_point p); simpl; split; congruence. Qed.

Lemma scale_plain : forall k p q, scale k false p = Ok q ->
  upper q = map (pscale k) (upper p) /\ lower q = map (pscale k) (lower p).
Proof.
  intros k p q H. injection H as <-. unfold upper, lower, scale_coords, vscale; simpl. rewrite !combine_map2.
  split; apply map_ext; intros [a b]; unfold pscale; simpl; f_equal; ring.
Qed.
Lemma scale_plain_ok : forall k p, exists q, scale k false p = Ok q.
Proof. intros. eexists. reflexivity. Qed.
