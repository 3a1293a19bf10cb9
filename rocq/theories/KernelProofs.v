(** Well-posedness of the Gaussian and multiquadric interpolation in any
    dimension. *)
From Coq Require Import Reals String List Lra Lia Arith.
From Verif Require Import Base SolveModel SolveProofs RbfModel RbfProofs WendlandPD KernelPD KernelSeries.
Import ListNotations.
Open Scope R_scope.

(** ** Distances *)
Lemma dot_self_nonneg : forall x, 0 <= dot x x.
Proof. induction x as [|a x IH]; cbn [dot]; [lra|]. nra. Qed.
Lemma sqdist_dot : forall x y, List.length x = List.length y ->
  fold_right Rplus 0 (map2 (fun a b => (a - b) * (a - b)) x y) = dot x x + dot y y - 2 * dot x y.
Proof.
  induction x as [|a x IH]; intros [|b y] L; try discriminate; cbn [map2 fold_right dot]; [ring|].
  injection L as L. rewrite IH by auto. ring.
Qed.
Lemma sqdist_nonneg : forall x y, 0 <= fold_right Rplus 0 (map2 (fun a b => (a - b) * (a - b)) x y).
Proof.
  induction x as [|a x IH]; intros [|b y]; cbn [map2 fold_right]; try lra. specialize (IH y).
  pose proof (Rle_0_sqr (a - b)) as P. unfold Rsqr in P. lra.
Qed.
Lemma cdist_sq : forall x y, List.length x = List.length y -> cdist x y * cdist x y = dot x x + dot y y - 2 * dot x y.
Proof. intros x y L. unfold cdist. rewrite sqrt_sqrt by apply sqdist_nonneg. apply sqdist_dot. auto. Qed.
Lemma dot_bound : forall x y, List.length x = List.length y -> Rabs (dot x y) <= (dot x x + dot y y) / 2.
Proof.
  intros x y L. pose proof (sqdist_nonneg x y) as P. rewrite sqdist_dot in P by auto.
  assert (Q : 0 <= dot x x + dot y y + 2 * dot x y).
  { clear P. revert y L. induction x as [|a x IH]; intros [|b y] L; try discriminate; cbn [dot]; [lra|].
    injection L as L. specialize (IH y L). pose proof (Rle_0_sqr (a + b)) as S. unfold Rsqr in S. lra. }
  unfold Rabs. destruct (Rcase_abs _); lra.
Qed.

(** ** The form of a matrix *)
Lemma rbf_form : forall b r X w, List.length w = List.length X ->
  dot w (map (rbf_sum b r X w) X) = form (fun x y => phi b (cdist x y) r) (combine X w).
Proof.
  intros b r X w L.
  assert (G : forall (f : list R -> R) X w, List.length w = List.length X -> dot w (map f X) = lin (combine X w) f).
  { clear. intros f. induction X as [|x X IH]; intros [|a w] L; try discriminate; [reflexivity|].
    injection L as L. cbn [map dot combine]. rewrite IH by auto. reflexivity. }
  rewrite (G _ X w L). unfold lin, form. apply sumf_ext. intros p _. unfold rbf_sum. rewrite (G _ X w L). unfold lin.
  rewrite <- sumf_scal. apply sumf_ext. intros q _. ring.
Qed.
Lemma weights_zero : forall (X : list (list R)) w, List.length w = List.length X -> (forall p, In p (combine X w) -> snd p = 0) -> w = zeros (List.length X).
Proof.
  induction X as [|x X IH]; intros [|a w] L H; try discriminate; [reflexivity|]. injection L as L.
  unfold zeros. cbn [List.length repeat]. f_equal; [exact (H (x, a) (or_introl eq_refl))|]. apply IH; auto. intros p P. apply H. right. auto.
Qed.
Lemma combine_fst : forall (X : list (list R)) (w : list R), List.length w = List.length X -> map fst (combine X w) = X.
Proof. induction X as [|x X IH]; intros [|a w] L; try discriminate; [reflexivity|]. injection L as L. cbn [combine map fst]. f_equal. auto. Qed.

(** Change of nodes and weights. *)
Definition moved (T : list R -> list R) (c : list R -> R) (l : list (list R * R)) : list (list R * R) :=
  map (fun p => (T (fst p), c (fst p) * snd p)) l.
Lemma form_moved : forall T c K l, form K (moved T c l) = form (fun x y => c x * c y * K (T x) (T y)) l.
Proof.
  intros. unfold form, moved. rewrite sumf_map. apply sumf_ext. intros p _. rewrite sumf_map. apply sumf_ext. intros q _. cbn [fst snd]. ring.
Qed.
Lemma moved_nodup : forall T c l, (forall p q, In p l -> In q l -> T (fst p) = T (fst q) -> fst p = fst q) -> NoDup (map fst l) -> NoDup (map fst (moved T c l)).
Proof.
  intros T c l I ND. unfold moved. rewrite map_map. cbn [fst]. induction l as [|p l IH]; cbn [map]; [constructor|].
  cbn [map] in ND. inversion ND as [|? ? N1 N2]; subst. constructor.
  - intros H. apply in_map_iff in H. destruct H as (q & E & Q). apply N1. rewrite <- (I q p); auto; [apply in_map; auto|right; auto|left; auto].
  - apply IH; auto. intros; apply I; auto; right; auto.
Qed.
Lemma moved_zero : forall T c l, (forall x, c x <> 0) -> (forall p, In p (moved T c l) -> snd p = 0) -> forall p, In p l -> snd p = 0.
Proof.
  intros T c l C H p P. specialize (H (T (fst p), c (fst p) * snd p) (in_map _ _ _ P)). cbn [snd] in H.
  apply Rmult_integral in H. destruct H; auto. exfalso. eapply C; eauto.
Qed.

(** ** Gaussian *)
Lemma gaussian_pd : forall d r l, r <> 0 -> (forall p, In p l -> List.length (fst p) = d) -> NoDup (map fst l) ->
  form (fun x y => phi Gaussian (cdist x y) r) l <= 0 -> forall p, In p l -> snd p = 0.
Proof.
  intros d r l Hr D ND Z. pose proof (sqr_pos r Hr) as R2.
  set (c := fun x : list R => exp (- (dot x x) / (r * r))).
  assert (E : form (fun x y => phi Gaussian (cdist x y) r) l = form (fun x y => exp (2 / (r * r) * dot x y)) (moved (fun x => x) c l)).
  { rewrite form_moved. apply form_ext. intros p q P Q. unfold c. rewrite <- !exp_plus. cbn [phi]. rewrite cdist_sq by (rewrite !D; auto). f_equal. field. auto. }
  apply (moved_zero (fun x => x) c); [intros x E0; pose proof (exp_pos (- (dot x x) / (r * r))); unfold c in E0; lra|].
  apply (series_pd d (fun k => / INR (fact k) * (2 / (r * r)) ^ k) (fun x y => exp (2 / (r * r) * dot x y))).
  - intros k. apply Rmult_lt_0_compat; [apply Rinv_0_lt_compat, INR_fact_lt_0|]. apply pow_lt. apply Rdiv_lt_0_compat; lra.
  - intros p P. unfold moved in P. apply in_map_iff in P. destruct P as (q & <- & Q). cbn [fst]. auto.
  - intros p q _ _. apply exp_series.
  - apply moved_nodup; auto.
  - lra.
Qed.

(** ** Multiquadrics: nodes lifted into the open unit ball *)
Section MQ.
Variable r : R.
Hypothesis Hr : r <> 0.
Definition ax (x : list R) : R := dot x x + r * r / 2.
Definition sx (x : list R) : R := 2 / (ax x + 1).
Definition lift (x : list R) : list R := (1 - sx x) :: vscale (sx x) x.
Lemma ax_pos : forall x, 0 < ax x.
Proof. intros x. unfold ax. pose proof (dot_self_nonneg x). pose proof (sqr_pos r Hr). lra. Qed.
Lemma sx_pos : forall x, 0 < sx x.
Proof. intros x. unfold sx. pose proof (ax_pos x). apply Rdiv_lt_0_compat; lra. Qed.
Lemma dot_vscale_l : forall k x y, dot (vscale k x) y = k * dot x y.
Proof. intros. rewrite dot_comm, dot_vscale, dot_comm. reflexivity. Qed.
Lemma lift_dot : forall x y, sx x * sx y * (ax x + ax y - 2 * dot x y) = 2 * (1 - dot (lift x) (lift y)).
Proof.
  intros x y. unfold lift. cbn [dot]. rewrite dot_vscale_l, dot_vscale.
  assert (A : forall z, sx z * ax z = 2 - sx z). { intros z. unfold sx. pose proof (ax_pos z). field. lra. }
  replace (sx x * sx y * (ax x + ax y - 2 * dot x y)) with (sx y * (sx x * ax x) + sx x * (sx y * ax y) - 2 * (sx x * sx y * dot x y)) by ring.
  rewrite !A. ring.
Qed.
Lemma lift_len : forall x, List.length (lift x) = S (List.length x).
Proof. intros x. unfold lift, vscale. cbn [List.length]. rewrite map_length. reflexivity. Qed.
Lemma lift_small : forall x y, List.length x = List.length y -> Rabs (dot (lift x) (lift y)) < 1.
Proof.
  intros x y L. assert (B : forall z, dot (lift z) (lift z) < 1).
  { intros z. pose proof (lift_dot z z) as E. pose proof (sx_pos z). pose proof (sqr_pos r Hr).
    replace (ax z + ax z - 2 * dot z z) with (r * r) in E by (unfold ax; field).
    assert (0 < sx z * sx z * (r * r)) by (apply Rmult_lt_0_compat; [apply Rmult_lt_0_compat; auto|auto]). lra. }
  pose proof (dot_bound (lift x) (lift y) ltac:(rewrite !lift_len; auto)). pose proof (B x). pose proof (B y). lra.
Qed.
Lemma lift_dist : forall x y, List.length x = List.length y ->
  cdist x y * cdist x y + r * r = 2 * (1 - dot (lift x) (lift y)) / (sx x * sx y) /\ 0 < 1 - dot (lift x) (lift y).
Proof.
  intros x y L. split.
  - rewrite <- lift_dot, cdist_sq by auto. unfold ax. pose proof (sx_pos x). pose proof (sx_pos y). field. split; lra.
  - pose proof (lift_small x y L) as B. apply Rabs_def2 in B. lra.
Qed.
Lemma vscale_inj : forall k x y, k <> 0 -> vscale k x = vscale k y -> x = y.
Proof.
  intros k x y K. unfold vscale. revert y. induction x as [|a x IH]; intros [|b y] E; cbn [map] in E; try discriminate; auto.
  injection E as E1 E2. f_equal; auto. first [solve [apply Rmult_eq_reg_l with k; auto]|solve [apply Rmult_eq_reg_r with k; auto]].
Qed.
Lemma lift_inj : forall x y, lift x = lift y -> x = y.
Proof.
  intros x y E. unfold lift in E. injection E as E1 E2. assert (S : sx x = sx y) by lra. rewrite S in E2.
  apply vscale_inj in E2; auto. pose proof (sx_pos y). lra.
Qed.
Lemma root_split : forall x y, List.length x = List.length y ->
  sqrt (cdist x y * cdist x y + r * r) = sqrt 2 * (/ sqrt (sx x) * / sqrt (sx y) * sqrt (1 - dot (lift x) (lift y))).
Proof.
  intros x y L. destruct (lift_dist x y L) as [E P]. rewrite E. pose proof (sx_pos x) as X. pose proof (sx_pos y) as Y.
  rewrite sqrt_div by (try lra; apply Rmult_lt_0_compat; auto). rewrite sqrt_mult by lra. rewrite sqrt_mult by lra.
  pose proof (sqrt_lt_R0 _ X). pose proof (sqrt_lt_R0 _ Y). field. split; lra.
Qed.

Lemma inverse_multiquadric_pd : forall d l, (forall p, In p l -> List.length (fst p) = d) -> NoDup (map fst l) ->
  form (fun x y => phi InvMultiQuadratic (cdist x y) r) l <= 0 -> forall p, In p l -> snd p = 0.
Proof.
  intros d l D ND Z.
  set (c := fun x : list R => sqrt (sx x)).
  assert (S2 : 0 < sqrt 2) by (apply sqrt_lt_R0; lra).
  assert (CP : forall x, 0 < c x) by (intros x; apply sqrt_lt_R0, sx_pos).
  assert (E : form (fun x y => phi InvMultiQuadratic (cdist x y) r) l = / sqrt 2 * form (fun x y => 1 / sqrt (1 - dot x y)) (moved lift c l)).
  { rewrite form_moved, <- form_scal. apply form_ext. intros p q P Q. cbn [phi]. rewrite root_split by (rewrite !D; auto).
    destruct (lift_dist (fst p) (fst q)) as [_ PP]; [rewrite !D; auto|]. pose proof (CP (fst p)). pose proof (CP (fst q)). unfold c in *.
    apply sqrt_lt_R0 in PP. field. repeat split; lra. }
  apply (moved_zero lift c); [intros x; specialize (CP x); lra|].
  apply (series_pd (S d) bc (fun x y => 1 / sqrt (1 - dot x y))).
  - apply bc_pos.
  - intros p P. unfold moved in P. apply in_map_iff in P. destruct P as (q & <- & Q). cbn [fst]. rewrite lift_len, D; auto.
  - intros p q P Q. unfold moved in P, Q. apply in_map_iff in P. destruct P as (p' & <- & P). apply in_map_iff in Q. destruct Q as (q' & <- & Q). cbn [fst].
    apply inverse_root_series, lift_small. rewrite !D; auto.
  - apply moved_nodup; auto. intros. apply lift_inj. auto.
  - rewrite E in Z. apply Rmult_le_reg_l with (/ sqrt 2); [apply Rinv_0_lt_compat; auto|]. lra.
Qed.

Lemma multiquadric_cnd : forall d l, (forall p, In p l -> List.length (fst p) = d) -> NoDup (map fst l) ->
  lin l (fun x => / sqrt (sx x)) = 0 ->
  0 <= form (fun x y => phi MultiQuadratic (cdist x y) r) l -> forall p, In p l -> snd p = 0.
Proof.
  intros d l D ND H Z.
  set (c := fun x : list R => / sqrt (sx x)).
  assert (S2 : 0 < sqrt 2) by (apply sqrt_lt_R0; lra).
  assert (CP : forall x, 0 < c x) by (intros x; apply Rinv_0_lt_compat, sqrt_lt_R0, sx_pos).
  assert (E : form (fun x y => phi MultiQuadratic (cdist x y) r) l = sqrt 2 * form (fun x y => sqrt (1 - dot x y)) (moved lift c l)).
  { rewrite form_moved, <- form_scal. apply form_ext. intros p q P Q. cbn [phi]. rewrite root_split by (rewrite !D; auto). reflexivity. }
  assert (O : form (fun _ _ => 1) (moved lift c l) = 0).
  { rewrite form_moved. transitivity (lin l c * lin l c); [|unfold c; rewrite H; ring]. unfold form, lin. rewrite <- sumf_scal. apply sumf_ext. intros p _.
    rewrite Rmult_comm, <- sumf_scal. apply sumf_ext. intros q _. ring. }
  apply (moved_zero lift c); [intros x; specialize (CP x); lra|].
  apply (series_pd (S d) rc (fun x y => 2 - sqrt (1 - dot x y))).
  - apply rc_pos.
  - intros p P. unfold moved in P. apply in_map_iff in P. destruct P as (q & <- & Q). cbn [fst]. rewrite lift_len, D; auto.
  - intros p q P Q. unfold moved in P, Q. apply in_map_iff in P. destruct P as (p' & <- & P). apply in_map_iff in Q. destruct Q as (q' & <- & Q). cbn [fst].
    apply root_series, lift_small. rewrite !D; auto.
  - apply moved_nodup; auto. intros. apply lift_inj. auto.
  - rewrite (form_ext _ (fun x y => 2 * 1 + -1 * sqrt (1 - dot x y))) by (intros; ring).
    rewrite form_plus, !form_scal, O.
    assert (0 <= form (fun x y => sqrt (1 - dot x y)) (moved lift c l)); [|lra].
    rewrite E in Z. apply Rmult_le_reg_l with (sqrt 2); lra.
Qed.
End MQ.
