(** Proofs about the cylinder, the geodesic chord and the camber points. *)
From Coq Require Import Reals List ZArith Lra Lia Bool.
From Verif Require Import Base ProfileModel ProfileSpec ProfileProofs ProfileProofs2 BladeModel BladeSpec BladeProofs5 ReverseModel ReverseProofs ChordModel ChordSpec.
Import ListNotations.
Open Scope R_scope.

(** ** The cylinder *)
Lemma lateral_ok : forall r xmin xmax, 0 < r -> xmin < xmax -> exists f, lateral_face r xmin xmax = Ok f /\
  forall x y z, f (x, y, z) <-> xmin - 2 / 10 * Rabs xmin <= x <= xmin - 2 / 10 * Rabs xmin + 12 / 10 * (xmax - xmin) /\ on_cylinder r (x, y, z).
Proof.
  intros r xmin xmax Hr Hx. unfold lateral_face, cylinder_span. destruct (Rlt_dec 0 r); [|lra].
  destruct (Rlt_dec 0 (12 / 10 * (xmax - xmin))); [|lra]. eexists. split; [reflexivity|]. intros x y z. cbn. tauto.
Qed.

Lemma whole_section : forall r xmin xmax blade f, within xmin xmax blade -> Rabs xmin <= xmax - xmin ->
  lateral_face r xmin xmax = Ok f ->
  forall p, blade p -> (f p <-> on_cylinder r p).
Proof.
  intros r xmin xmax blade f W H E [[x y] z] B. specialize (W _ _ _ B). pose proof (Rabs_pos xmin).
  unfold lateral_face, cylinder_span in E. destruct (Rlt_dec 0 r); [|discriminate].
  destruct (Rlt_dec 0 (12 / 10 * (xmax - xmin))); [|discriminate]. injection E as <-. cbn. split; [tauto|]. intros C. split; [lra|auto].
Qed.

Lemma lateral_fails : forall r xmin xmax, r <= 0 \/ xmax <= xmin -> lateral_face r xmin xmax = Err RuntimeError.
Proof. intros r xmin xmax H. unfold lateral_face, cylinder_span. destruct (Rlt_dec 0 r); auto. destruct Rlt_dec; auto. lra. Qed.
Lemma covers_iff : forall r xmin xmax f, lateral_face r xmin xmax = Ok f ->
  ((forall p, (let '(x, _, _) := p in xmin <= x <= xmax) -> on_cylinder r p -> f p) <-> Rabs xmin <= xmax - xmin).
Proof.
  intros r xmin xmax f E. pose proof (Rabs_pos xmin).
  unfold lateral_face, cylinder_span in E. destruct (Rlt_dec 0 r); [|discriminate].
  destruct (Rlt_dec 0 (12 / 10 * (xmax - xmin))); [|discriminate]. injection E as <-. split.
  - intros K. specialize (K (xmax, r, 0)). cbn in K. destruct K as (K & _); [lra|ring|]. lra.
  - intros K [[x y] z] X C. cbn in *. split; [lra|auto].
Qed.

Lemma section_lost : exists r xmin xmax blade f p, within xmin xmax blade /\ lateral_face r xmin xmax = Ok f /\
  blade p /\ on_cylinder r p /\ ~ f p.
Proof.
  destruct (lateral_ok 1 (-10) (-5)) as (f & E & F); [lra|lra|].
  exists 1, (-10), (-5), (fun p => let '(x, _, _) := p in -10 <= x <= -5), f, (-5, 1, 0).
  split; [intros x y z; auto|]. split; auto. split; [lra|]. split; [cbn; ring|]. intros Q. apply F in Q as ((_ & Q) & _).
  unfold Rabs in Q. destruct (Rcase_abs (-10)); lra.
Qed.

(** ** Edges *)
Lemma modulo2 : forall n, Nat.modulo n 2 = 0%nat \/ Nat.modulo n 2 = 1%nat.
Proof. intros n. pose proof (Nat.mod_upper_bound n 2). lia. Qed.
Lemma modulo2_S : forall n, (Nat.eqb (Nat.modulo (S n) 2) 1) = negb (Nat.eqb (Nat.modulo n 2) 1).
Proof.
  intros n. pose proof (Nat.div_mod n 2). pose proof (Nat.div_mod (S n) 2). pose proof (Nat.mod_upper_bound n 2). pose proof (Nat.mod_upper_bound (S n) 2).
  destruct (Nat.eqb_spec (Nat.modulo (S n) 2) 1), (Nat.eqb_spec (Nat.modulo n 2) 1); cbn; auto; lia.
Qed.

Lemma split_alternates : forall {E} (l : list E) c, 
  (Nat.modulo c 2 = 0%nat -> l = alternate (fst (split_edges c l)) (snd (split_edges c l)) /\
     (List.length (snd (split_edges c l)) <= List.length (fst (split_edges c l)) <= S (List.length (snd (split_edges c l))))%nat) /\
  (Nat.modulo c 2 = 1%nat -> l = alternate (snd (split_edges c l)) (fst (split_edges c l)) /\
     (List.length (fst (split_edges c l)) <= List.length (snd (split_edges c l)) <= S (List.length (fst (split_edges c l))))%nat).
Proof.
  assert (ALT : forall (A : Type) (x : A) a b, (List.length b <= List.length a <= S (List.length b))%nat \/ (List.length a <= List.length b <= S (List.length a))%nat ->
     (List.length a <= List.length b <= S (List.length a))%nat -> x :: alternate b a = alternate (x :: a) b).
  { intros A x a b _. revert x a. induction b as [|y b IH]; intros x a L; [destruct a; [reflexivity|simpl in L; lia]|].
    cbn [alternate]. destruct a as [|z a]; [|].
    - destruct b; [reflexivity|simpl in L; lia].
    - f_equal. rewrite <- (IH z a); [reflexivity|simpl in L; lia]. }
  intros E l. induction l as [|e l IH]; intros c; [cbn; split; intros; split; auto; lia|].
  cbn [split_edges]. destruct (IH (S c)) as (I0 & I1). pose proof (modulo2_S c) as M.
  destruct (split_edges (S c) l) as [top bottom]. cbn [fst snd] in *. split; intros H; rewrite H in M; cbn [Nat.eqb negb] in M; rewrite M.
  - apply Nat.eqb_eq in M. destruct (I1 M) as (X & L). cbn [fst snd]. split; [|simpl; lia].
    rewrite X at 1. apply ALT; auto.
  - apply Nat.eqb_neq in M. destruct (modulo2 (S c)) as [M'|M']; [|contradiction]. destruct (I0 M') as (X & L). cbn [fst snd]. split; [|simpl; lia].
    rewrite X at 1. apply ALT; auto.
Qed.

Lemma edges_split : forall {E} (l top bottom : list E), split_edges 0 l = (top, bottom) ->
  l = alternate top bottom /\ (List.length bottom <= List.length top <= S (List.length bottom))%nat.
Proof. intros E l top bottom H. destruct (split_alternates l 0) as (K & _). rewrite H in K. apply K. reflexivity. Qed.

(** ** The chord *)
Lemma on_cylinder_ratio : forall r x y z, 0 < r -> on_cylinder r (x, y, z) -> -1 <= y / r <= 1.
Proof.
  intros r x y z Hr C. cbn in C. assert (Rabs y <= r).
  { rewrite <- (Rabs_right r) by lra. apply Rsqr_le_abs_0. unfold Rsqr. nra. }
  assert (- r <= y <= r) by (unfold Rabs in H; destruct (Rcase_abs y); lra).
  split; [apply (Rmult_le_reg_r r); auto; field_simplify; lra|apply (Rmult_le_reg_r r); auto; field_simplify; lra].
Qed.

Lemma arcsin_ok : forall v, -1 <= v <= 1 -> arcsin v = Ok (asin v).
Proof. intros v H. unfold arcsin. destruct (Rle_dec (-1) v); [|lra]. destruct (Rle_dec v 1); [auto|lra]. Qed.

Lemma geodesic_ok : forall r le te, 0 < r -> on_cylinder r le -> on_cylinder r te -> exists g, geodesic_of r le te = Ok g.
Proof.
  intros r [[lx ly] lz] [[tx ty] tz] Hr CL CT. unfold geodesic_of, fdiv. destruct (Req_EM_T r 0); [lra|]. cbn [bind].
  rewrite !arcsin_ok by (eapply on_cylinder_ratio; eauto). cbn [bind]. eauto.
Qed.

Lemma geodesic_inv : forall r le te g, geodesic_of r le te = Ok g -> r <> 0 /\
  let '(lx, ly, _) := le in let '(tx, ty, _) := te in
  g = mkGeodesic (tx - lx) lx (asin (ty / r) - asin (ly / r)) (asin (ly / r)) /\ -1 <= ly / r <= 1 /\ -1 <= ty / r <= 1.
Proof.
  intros r [[lx ly] lz] [[tx ty] tz] g H. unfold geodesic_of, fdiv in H. destruct (Req_EM_T r 0); [discriminate|]. cbn [bind] in H. split; auto.
  unfold arcsin in H. destruct (Rle_dec (-1) (ly / r)); [|discriminate]. destruct (Rle_dec (ly / r) 1); [|discriminate].
  destruct (Rle_dec (-1) (ty / r)); [|discriminate]. destruct (Rle_dec (ty / r) 1); [|discriminate]. cbn [bind] in H. injection H as <-. auto.
Qed.

Lemma chord_on_cylinder : forall r g s, on_cylinder r (chord_point r g s).
Proof.
  intros r g s. unfold chord_point, on_cylinder. set (t := g_a g * s + g_b g).
  pose proof (sin2_cos2 t) as H. unfold Rsqr in H. nra.
Qed.

Lemma asin_front : forall r x y z, 0 < r -> on_cylinder r (x, y, z) -> r * sin (asin (y / r)) = y /\ r * cos (asin (y / r)) = Rabs z.
Proof.
  intros r x y z Hr C. pose proof (on_cylinder_ratio r x y z Hr C) as B. rewrite sin_asin, cos_asin by auto. split; [field; lra|].
  cbn in C. rewrite <- sqrt_Rsqr_abs. rewrite <- (sqrt_Rsqr r) at 1 by lra. rewrite <- sqrt_mult_alt by (unfold Rsqr; nra). f_equal.
  unfold Rsqr. replace (z * z) with (r * r - y * y) by lra. field. lra.
Qed.

Lemma chord_ends : forall r le te g, 0 < r -> on_cylinder r le -> on_cylinder r te -> geodesic_of r le te = Ok g ->
  chord_point r g 0 = front_point le /\ chord_point r g 1 = front_point te.
Proof.
  intros r [[lx ly] lz] [[tx ty] tz] g Hr CL CT H. apply geodesic_inv in H as (_ & -> & _). unfold chord_point, front_point. cbn [g_lam g_mu g_a g_b].
  destruct (asin_front r lx ly lz Hr CL) as (A & B). destruct (asin_front r tx ty tz Hr CT) as (A' & B').
  split; apply pt3_eq; try ring.
  - rewrite Rmult_0_r, Rplus_0_l. auto.
  - rewrite Rmult_0_r, Rplus_0_l. auto.
  - rewrite Rmult_1_r. replace (asin (ty / r) - asin (ly / r) + asin (ly / r)) with (asin (ty / r)) by ring. auto.
  - rewrite Rmult_1_r. replace (asin (ty / r) - asin (ly / r) + asin (ly / r)) with (asin (ty / r)) by ring. auto.
Qed.

Lemma front_same : forall p, front_point p = p <-> 0 <= snd p.
Proof.
  intros [[x y] z]. unfold front_point. cbn [snd]. split.
  - intros H. apply (f_equal snd) in H. cbn in H. rewrite <- H. apply Rabs_pos.
  - intros H. rewrite Rabs_pos_eq; auto.
Qed.

Lemma chord_ends_iff : forall r le te g, 0 < r -> on_cylinder r le -> on_cylinder r te -> geodesic_of r le te = Ok g ->
  (chord_point r g 0 = le <-> 0 <= snd le) /\ (chord_point r g 1 = te <-> 0 <= snd te).
Proof.
  intros r le te g Hr CL CT H. destruct (chord_ends r le te g Hr CL CT H) as (-> & ->). split; apply front_same.
Qed.

(** The chord is straight on the unrolled cylinder. *)
Lemma chord_unrolled : forall r le te g s, 0 < r -> on_cylinder r le -> on_cylinder r te -> geodesic_of r le te = Ok g ->
  0 <= s <= 1 -> unroll r (chord_point r g s) = between (unroll r (front_point le)) (unroll r (front_point te)) s.
Proof.
  intros r le te g s Hr CL CT H Hs. destruct (chord_ends r le te g Hr CL CT H) as (E0 & E1). rewrite <- E0, <- E1. clear E0 E1.
  destruct le as [[lx ly] lz], te as [[tx ty] tz]. apply geodesic_inv in H as (_ & -> & _ & _).
  pose proof (asin_bound (ly / r)) as B1. pose proof (asin_bound (ty / r)) as B2. pose proof PI_RGT_0.
  unfold unroll, chord_point, between, padd, pscale; cbn [fst snd g_lam g_mu g_a g_b].
  rewrite !arctan2_polar; auto; try nra. apply f_equal2; ring.
Qed.

(** The tangent. *)
Lemma chord_derivative : forall r g s, let '(dx, dy, dz) := tangent_vector r g s in
  derivable_pt_lim (fun s => fst (fst (chord_point r g s))) s dx /\
  derivable_pt_lim (fun s => snd (fst (chord_point r g s))) s dy /\
  derivable_pt_lim (fun s => snd (chord_point r g s)) s dz.
Proof.
  intros r g s. unfold tangent_vector, chord_point. cbn [fst snd].
  assert (L : forall a b, derivable_pt_lim (fun s => a * s + b) s a).
  { intros a b eps He. exists (mkposreal 1 Rlt_0_1). intros h Hh _.
    replace ((a * (s + h) + b - (a * s + b)) / h - a) with 0 by (field; auto). rewrite Rabs_R0. auto. }
  split; [apply L|]. split.
  - replace (g_a g * r * cos (g_a g * s + g_b g)) with (r * (cos (g_a g * s + g_b g) * g_a g)) by ring.
    apply derivable_pt_lim_scal. apply (derivable_pt_lim_comp (fun s => g_a g * s + g_b g) sin); [apply L|apply derivable_pt_lim_sin].
  - replace (- g_a g * r * sin (g_a g * s + g_b g)) with (r * (- sin (g_a g * s + g_b g) * g_a g)) by ring.
    apply derivable_pt_lim_scal. apply (derivable_pt_lim_comp (fun s => g_a g * s + g_b g) cos); [apply L|apply derivable_pt_lim_cos].
Qed.

Lemma tangent_length : forall r g s, dot3 (tangent_vector r g s) (tangent_vector r g s) = g_lam g * g_lam g + (r * g_a g) * (r * g_a g).
Proof.
  intros r g s. unfold tangent_vector, dot3. set (t := g_a g * s + g_b g). pose proof (sin2_cos2 t) as H. unfold Rsqr in H.
  transitivity (g_lam g * g_lam g + (r * g_a g) * (r * g_a g) * (sin t * sin t + cos t * cos t)); [ring|rewrite H; ring].
Qed.

Lemma tangent_radial : forall r g s, let '(_, y, z) := chord_point r g s in dot3 (tangent_vector r g s) (0, y, z) = 0.
Proof. intros r g s. unfold tangent_vector, chord_point, dot3. ring. Qed.

(** The cutting plane, in unrolled coordinates. *)
Lemma cutting_plane : forall r g s x d, 0 < r ->
  let t := g_a g * s + g_b g in
  on_plane (chord_point r g s) (tangent_vector r g s) (x, r * sin (t + d), r * cos (t + d)) <->
  g_lam g * (x - (g_lam g * s + g_mu g)) + r * g_a g * (r * sin d) = 0.
Proof.
  intros r g s x d Hr t. unfold on_plane, chord_point, tangent_vector, dot3, sub3. fold t. rewrite sin_plus, cos_plus.
  pose proof (sin2_cos2 t) as H. unfold Rsqr in H.
  match goal with |- ?L = 0 <-> ?M = 0 => assert (E : L = M); [|rewrite E; tauto] end.
  replace (g_lam g * (x - (g_lam g * s + g_mu g)) + r * g_a g * (r * sin d)) with
    (g_lam g * (x - (g_lam g * s + g_mu g)) + r * g_a g * (r * sin d) * (sin t * sin t + cos t * cos t)) by (rewrite H; ring). ring.
Qed.

Lemma sin_lt_self : forall d, 0 < d -> sin d < d.
Proof.
  intros d Hd. destruct (Rlt_dec d 1) as [H1|H1]; [apply sin_lt_x; auto|].
  destruct (Rlt_dec 1 d) as [H2|H2]; [pose proof (SIN_bound d); lra|].
  apply sin_lt_x; auto.
Qed.

(** Only along the chord itself the cut is perpendicular to it. *)
Lemma cut_not_perpendicular : forall r g s x d, 0 < r -> g_a g <> 0 -> d <> 0 ->
  let t := g_a g * s + g_b g in
  on_plane (chord_point r g s) (tangent_vector r g s) (x, r * sin (t + d), r * cos (t + d)) ->
  g_lam g * (x - (g_lam g * s + g_mu g)) + r * g_a g * (r * d) <> 0.
Proof.
  intros r g s x d Hr Ha Hd t H. apply cutting_plane in H; auto. intros Q.
  assert (E : r * g_a g * r * (sin d - d) = 0) by lra.
  assert (N : sin d - d <> 0).
  { destruct (Rlt_dec 0 d) as [P|P]; [pose proof (sin_lt_self d P); lra|].
    pose proof (sin_lt_self (- d) ltac:(lra)) as K. rewrite sin_neg in K. lra. }
  apply N. apply Rmult_integral in E as [E|E]; auto. exfalso.
  apply Rmult_integral in E as [E|E]; [|lra]. apply Rmult_integral in E as [E|E]; lra.
Qed.

(** Edges behind the axis are missed. *)
Lemma chord_misses : exists r le te g, 0 < r /\ on_cylinder r le /\ on_cylinder r te /\ geodesic_of r le te = Ok g /\
  chord_point r g 0 <> le /\ chord_point r g 1 <> te /\ (forall s, 0 <= s <= 1 -> 0 <= snd (chord_point r g s)).
Proof.
  assert (CL : on_cylinder 5 (0, 3, -4)) by (cbn; ring). assert (CT : on_cylinder 5 (1, -3, -4)) by (cbn; ring).
  destruct (geodesic_ok 5 (0, 3, -4) (1, -3, -4)) as (g & H); auto; [lra|].
  exists 5, (0, 3, -4), (1, -3, -4), g. split; [lra|]. split; auto. split; auto. split; auto.
  destruct (chord_ends_iff 5 _ _ g ltac:(lra) CL CT H) as (A & B). cbn [snd] in A, B.
  split; [intros Q; apply A in Q; lra|]. split; [intros Q; apply B in Q; lra|].
  intros s Hs. apply geodesic_inv in H as (_ & -> & _ & _). unfold chord_point. cbn [snd g_a g_b].
  pose proof (asin_bound (3 / 5)). pose proof (asin_bound (-3 / 5)). apply Rmult_le_pos; [lra|]. apply cos_ge_0; nra.
Qed.
