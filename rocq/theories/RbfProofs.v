From Coq Require Import Reals List String Lra Lia Psatz Permutation.
From Verif Require Import Base SolveModel SolveProofs RbfModel WendlandPD.
Import ListNotations.
Open Scope R_scope.

(** ** Generic facts on [mapM] *)
Lemma mapM_ok_map : forall {A B} (f : A -> res B) (g : A -> B) l,
  (forall a, In a l -> f a = Ok (g a)) -> mapM f l = Ok (map g l).
Proof.
  induction l; simpl; intros H; auto.
  rewrite H by auto. simpl. rewrite IHl by auto. auto.
Qed.

Lemma mapM_ok_length : forall {A B} (f : A -> res B) l bs, mapM f l = Ok bs -> List.length bs = List.length l.
Proof.
  induction l; simpl; intros bs H. inversion H; auto.
  destruct (f a); simpl in H; [|discriminate]. destruct (mapM f l); simpl in H; [|discriminate].
  inversion H; subst; simpl. f_equal. auto.
Qed.

Lemma mapM_ok_in : forall {A B} (f : A -> res B) l bs, mapM f l = Ok bs ->
  forall a, In a l -> exists b, f a = Ok b /\ In b bs.
Proof.
  induction l; simpl; intros bs H x Hx; [tauto|].
  destruct (f a) eqn:E; simpl in H; [|discriminate]. destruct (mapM f l); simpl in H; [|discriminate].
  inversion H; subst. destruct Hx as [<-|Hx].
  - exists a0; simpl; auto.
  - destruct (IHl _ eq_refl x Hx) as [b [? ?]]. exists b; simpl; auto.
Qed.

(** ** Value of a basis function when it is finite *)
Definition finite_basis (b : basis) (r : R) : Prop :=
  match b with MultiQuadratic => True | _ => r <> 0 end.

Definition phi (b : basis) (X r : R) : R :=
  match b with
  | Gaussian => exp (- (X * X) / (r * r))
  | MultiQuadratic => sqrt (X * X + r * r)
  | InvMultiQuadratic => 1 / sqrt (X * X + r * r)
  | ThinPlate => if Rlt_dec 0 (X / r) then (X / r) * (X / r) * ln (X / r) else (X / r) * (X / r)
  | Wendland => (if Rlt_dec 0 (1 - X / r) then (1 - X / r) ^ 4 else 0) * (4 * (X / r) + 1)
  end.

Lemma sqr_pos : forall r, r <> 0 -> 0 < r * r.
Proof. intros. assert (0 < Rsqr r) by (apply Rlt_0_sqr; auto). unfold Rsqr in *; auto. Qed.

Lemma eval_basis_phi : forall b X r, finite_basis b r -> eval_basis b X r = Ok (phi b X r).
Proof.
  intros b X r H. destruct b; simpl in *; unfold gaussian_spline, multi_quadratic_biharmonic_spline,
    inv_multi_quadratic_biharmonic_spline, thin_plate_spline, beckert_wendland_c2_basis, fdiv; auto.
  - pose proof (sqr_pos r H). destruct (Req_EM_T (r * r) 0); [lra|]. auto.
  - pose proof (sqr_pos r H).
    assert (0 < sqrt (X * X + r * r)) by (apply sqrt_lt_R0; nra).
    destruct (Req_EM_T _ 0); [lra|]. auto.
  - destruct (Req_EM_T r 0); [tauto|]. simpl. destruct (Rlt_dec 0 (X / r)); auto.
  - destruct (Req_EM_T r 0); [tauto|]. simpl. auto.
Qed.

Lemma weights_matrix_ok : forall b r X1 X2, finite_basis b r ->
  weights_matrix b r X1 X2 = Ok (map (fun x => map (fun y => phi b (cdist x y) r) X2) X1).
Proof.
  intros b r X1 X2 H. unfold weights_matrix. apply mapM_ok_map. intros x _.
  apply mapM_ok_map. intros y _. apply eval_basis_phi; auto.
Qed.

Lemma cdist_refl : forall x, cdist x x = 0.
Proof.
  intros x. unfold cdist.
  assert (E : fold_right Rplus 0 (map2 (fun a b => (a - b) * (a - b)) x x) = 0).
  { induction x as [|a x IH]; simpl; auto. rewrite IH. ring. }
  rewrite E. apply sqrt_0.
Qed.

Lemma cdist_sym : forall x y, cdist x y = cdist y x.
Proof.
  intros x y. unfold cdist. f_equal. revert y. induction x as [|a x IH]; destruct y; simpl; auto. rewrite IH. ring.
Qed.

Lemma cdist_1d : forall a b, cdist [a] [b] = Rabs (a - b).
Proof. intros. unfold cdist; simpl. rewrite Rplus_0_r. apply sqrt_Rsqr_abs. Qed.

(** A successful matrix over a non-empty node set forces a finite basis. *)
Lemma weights_matrix_finite : forall b r x X A,
  weights_matrix b r (x :: X) (x :: X) = Ok A -> finite_basis b r.
Proof.
  intros b r x X A H. unfold weights_matrix in H. simpl in H.
  destruct (eval_basis b (cdist x x) r) eqn:E; simpl in H; [|discriminate].
  rewrite cdist_refl in E. destruct b; simpl in *; auto;
  unfold gaussian_spline, inv_multi_quadratic_biharmonic_spline, thin_plate_spline,
    beckert_wendland_c2_basis, fdiv in E; intro; subst r.
  - destruct (Req_EM_T (0 * 0) 0); [discriminate|lra].
  - rewrite Rmult_0_l, Rplus_0_r, sqrt_0 in E. destruct (Req_EM_T 0 0); [discriminate|lra].
  - destruct (Req_EM_T 0 0); [discriminate|lra].
  - destruct (Req_EM_T 0 0); [discriminate|lra].
Qed.

Lemma accumulate_ok : forall w W out, (List.length W <= List.length out)%nat ->
  accumulate w W out = Ok (map2 Rplus (firstn (List.length W) out) (map (dot w) W) ++ skipn (List.length W) out).
Proof.
  intros w W. induction W; destruct out; simpl; intros H; auto; try lia.
  rewrite IHW by lia. auto.
Qed.

Lemma accumulate_short : forall w W out, (List.length out < List.length W)%nat -> accumulate w W out = Err IndexError.
Proof.
  intros w W. induction W; destruct out; simpl; intros H; auto; try lia.
  rewrite IHW by lia. auto.
Qed.

(** The interpolant defined by nodes, weights. *)
Definition rbf_sum (b : basis) (r : R) (X : list point) (w : list R) (x : point) : R :=
  dot w (map (fun y => phi b (cdist x y) r) X).

Lemma dot_comm : forall a b, dot a b = dot b a.
Proof. induction a; destruct b; simpl; auto. rewrite IHa. ring. Qed.

Lemma matvec_rbf : forall b r X w,
  matvec (map (fun x => map (fun y => phi b (cdist x y) r) X) X) w = map (rbf_sum b r X w) X.
Proof. intros. unfold matvec. rewrite map_map. apply map_ext. intros x. apply dot_comm. Qed.

Lemma square_weights : forall b r X, square (map (fun x => map (fun y => phi b (cdist x y) r) X) X).
Proof.
  intros. unfold square. rewrite map_length, Forall_map. apply Forall_forall. intros. apply map_length.
Qed.

(** ** Main characterisation of a successful reconstruction *)
Lemma map2_app_nil : forall (a b : list R), map2 Rplus a b ++ [] = map2 Rplus a b.
Proof. intros; apply app_nil_r. Qed.

Lemma reconstruct_shape : forall name r X y Q out0 out,
  reconstruct_f X y Q out0 name r = Ok out ->
  exists b, basis_of_name name = Ok b /\
  (X = [] /\ y = [] /\ out = out0 \/
   X <> [] /\ finite_basis b r /\ (List.length Q <= List.length out0)%nat /\
   exists w, linalg_solve (map (fun x => map (fun y => phi b (cdist x y) r) X) X) y = Ok w /\
   map (rbf_sum b r X w) X = y /\
   out = map2 Rplus (firstn (List.length Q) out0) (map (rbf_sum b r X w) Q) ++ skipn (List.length Q) out0).
Proof.
  intros name r X y Q out0 out H. unfold reconstruct_f in H.
  destruct (basis_of_name name) as [b|] eqn:Eb; simpl in H; [|discriminate].
  exists b. split; auto.
  destruct X as [|x0 X].
  - left. simpl in H. unfold linalg_solve in H. simpl in H.
    destruct y; simpl in H; [|discriminate].
    destruct (weights_matrix b r Q []); simpl in H; [|discriminate]. inversion H; auto.
  - right. destruct (weights_matrix b r (x0 :: X) (x0 :: X)) as [A|] eqn:EA; simpl bind in H; [|discriminate].
    assert (F := weights_matrix_finite _ _ _ _ _ EA).
    rewrite weights_matrix_ok in EA by auto.
    match type of EA with Ok ?M = Ok A => assert (EM : A = M) by congruence end. subst A. clear EA.
    destruct (linalg_solve _ y) as [w|] eqn:Ew; simpl bind in H; [|discriminate].
    rewrite weights_matrix_ok in H by auto. simpl bind in H.
    match type of H with accumulate _ ?M _ = _ => set (W := M) in H;
      assert (LW : List.length W = List.length Q) by apply map_length end.
    split; [discriminate|]. split; auto.
    destruct (Compare_dec.le_lt_dec (List.length Q) (List.length out0)) as [L|L].
    2:{ rewrite accumulate_short in H by lia. discriminate. }
    split; auto. exists w. split; [reflexivity|].
    destruct (linalg_solve_sound _ _ _ Ew) as [_ Hw]. rewrite matvec_rbf in Hw. split; auto.
    rewrite accumulate_ok in H by lia. rewrite LW in H. inversion H.
    unfold W, rbf_sum. rewrite map_map. auto.
Qed.

Lemma reconstruct_intro : forall name b r X y Q out0 w,
  basis_of_name name = Ok b -> X <> [] -> finite_basis b r ->
  linalg_solve (map (fun x => map (fun y => phi b (cdist x y) r) X) X) y = Ok w ->
  (List.length Q <= List.length out0)%nat ->
  reconstruct_f X y Q out0 name r =
    Ok (map2 Rplus (firstn (List.length Q) out0) (map (rbf_sum b r X w) Q) ++ skipn (List.length Q) out0).
Proof.
  intros name b r X y Q out0 w Eb NX F Ew L. unfold reconstruct_f. rewrite Eb. simpl bind.
  rewrite weights_matrix_ok by auto. simpl bind. rewrite Ew. simpl bind.
  rewrite weights_matrix_ok by auto. simpl bind. destruct X; [congruence|].
  rewrite accumulate_ok; rewrite map_length; auto. unfold rbf_sum. rewrite map_map. auto.
Qed.

(** The same function [s] serves every set of evaluation points, and it takes
    the data values at the nodes. *)
Lemma reconstruct_interpolant : forall name r X y,
  (exists Q0 o0 o, reconstruct_f X y Q0 o0 name r = Ok o) ->
  exists s : point -> R, map s X = y /\
    forall Q out0, List.length out0 = List.length Q ->
      reconstruct_f X y Q out0 name r = Ok (map2 Rplus out0 (map s Q)).
Proof.
  intros name r X y [Q0 [o0 [o H]]].
  destruct (reconstruct_shape _ _ _ _ _ _ _ H) as [b [Eb [[EX [Ey Eo]]|[NX [F [L [w [Ew [Hy Ho]]]]]]]]].
  - subst. exists (fun _ => 0). split; auto. intros Q out0 L.
    unfold reconstruct_f. rewrite Eb. simpl.
    assert (weights_matrix b r Q [] = Ok (map (fun _ => []) Q)) by (apply mapM_ok_map; auto).
    rewrite H0. simpl. f_equal. rewrite <- (map2_zeros_r out0) at 1. f_equal.
    rewrite L. unfold zeros. clear. induction Q; simpl; auto. f_equal; auto.
  - exists (rbf_sum b r X w). split; auto. intros Q out0 LQ.
    rewrite (reconstruct_intro name b r X y Q out0 w); auto; try lia.
    rewrite <- LQ, firstn_all, skipn_all, app_nil_r. auto.
Qed.

Lemma map2_zeros_l : forall (x : list R), map2 Rplus (zeros (List.length x)) x = x.
Proof. unfold zeros. induction x; simpl; auto. f_equal; auto; ring. Qed.

Lemma reconstruct_exact : forall name r X y out,
  reconstruct_f X y X (zeros (List.length X)) name r = Ok out -> out = y.
Proof.
  intros name r X y out H.
  destruct (reconstruct_interpolant name r X y) as [s [Hs Hall]]; [eauto|].
  rewrite Hall in H by (apply repeat_length). inversion H.
  rewrite Hs. replace (List.length X) with (List.length y). apply map2_zeros_l.
  rewrite <- Hs. apply map_length.
Qed.

(** ** Linearity *)
Lemma matvec_vadd : forall A x y, List.length x = List.length y ->
  matvec A (map2 Rplus x y) = map2 Rplus (matvec A x) (matvec A y).
Proof.
  intros A x y H. unfold matvec. induction A; simpl; auto. f_equal; auto. apply dot_vadd; auto.
Qed.

Lemma matvec_vscale : forall A k x, matvec A (vscale k x) = vscale k (matvec A x).
Proof.
  intros A k x. unfold matvec. unfold vscale at 2. rewrite map_map. apply map_ext.
  intros r. rewrite dot_vscale. ring.
Qed.

Lemma vscale_length : forall k x, List.length (vscale k x) = List.length x.
Proof. intros; apply map_length. Qed.

Lemma solve_linear : forall A y1 y2 w1 w2 k1 k2,
  linalg_solve A y1 = Ok w1 -> linalg_solve A y2 = Ok w2 ->
  linalg_solve A (map2 Rplus (vscale k1 y1) (vscale k2 y2)) = Ok (map2 Rplus (vscale k1 w1) (vscale k2 w2)).
Proof.
  intros A y1 y2 w1 w2 k1 k2 H1 H2.
  destruct (linalg_solve_shape _ _ _ H1) as [S L1]. destruct (linalg_solve_shape _ _ _ H2) as [_ L2].
  destruct (linalg_solve_sound _ _ _ H1) as [Lw1 E1]. destruct (linalg_solve_sound _ _ _ H2) as [Lw2 E2].
  assert (L : List.length (map2 Rplus (vscale k1 y1) (vscale k2 y2)) = List.length A).
  { rewrite map2_length; rewrite !vscale_length; lia. }
  assert (Inj := proj1 (linalg_solve_ok_iff A y1 S L1) (ex_intro _ _ H1)).
  destruct (proj2 (linalg_solve_ok_iff A _ S L) Inj) as [w Hw]. rewrite Hw. f_equal.
  symmetry. apply (linalg_solve_unique _ _ _ _ Hw).
  - rewrite map2_length; rewrite !vscale_length; lia.
  - rewrite matvec_vadd by (rewrite !vscale_length; lia).
    rewrite !matvec_vscale, E1, E2. auto.
Qed.

Lemma dot_linear : forall k1 k2 w1 w2 v, List.length w1 = List.length w2 ->
  dot (map2 Rplus (vscale k1 w1) (vscale k2 w2)) v = k1 * dot w1 v + k2 * dot w2 v.
Proof.
  intros k1 k2. unfold vscale. induction w1; destruct w2; simpl; intros v H; try discriminate; [ring|].
  destruct v; simpl; [ring|]. rewrite IHw1 by lia. ring.
Qed.

Lemma rbf_sum_linear : forall b r X k1 k2 w1 w2 x, List.length w1 = List.length w2 ->
  rbf_sum b r X (map2 Rplus (vscale k1 w1) (vscale k2 w2)) x
  = k1 * rbf_sum b r X w1 x + k2 * rbf_sum b r X w2 x.
Proof. intros. unfold rbf_sum. apply dot_linear; auto. Qed.

Lemma map2_vscale_zero : forall (k : R) n, vscale k (zeros n) = zeros n.
Proof. intros. unfold vscale, zeros. induction n; simpl; auto. f_equal; auto. ring. Qed.

Lemma map2_zeros_zeros : forall n, map2 Rplus (zeros n) (zeros n) = zeros n.
Proof. unfold zeros. induction n; simpl; auto. f_equal; auto. ring. Qed.

Lemma reconstruct_linear : forall name r X y1 y2 k1 k2 Q o1 o2,
  reconstruct_f X y1 Q (zeros (List.length Q)) name r = Ok o1 ->
  reconstruct_f X y2 Q (zeros (List.length Q)) name r = Ok o2 ->
  reconstruct_f X (map2 Rplus (vscale k1 y1) (vscale k2 y2)) Q (zeros (List.length Q)) name r
    = Ok (map2 Rplus (vscale k1 o1) (vscale k2 o2)).
Proof.
  intros name r X y1 y2 k1 k2 Q o1 o2 H1 H2.
  destruct (reconstruct_shape _ _ _ _ _ _ _ H1) as [b [Eb [[EX [Ey Eo]]|[NX [F [L [w1 [Ew1 [Hy1 Ho1]]]]]]]]].
  - destruct (reconstruct_shape _ _ _ _ _ _ _ H2) as [b2 [Eb2 [[EX2 [Ey2 Eo2]]|[NX _]]]]; [|congruence].
    subst. simpl. rewrite H1. f_equal. rewrite !map2_vscale_zero.
    symmetry. apply map2_zeros_zeros.
  - destruct (reconstruct_shape _ _ _ _ _ _ _ H2) as [b2 [Eb2 [[EX2 _]|[_ [_ [_ [w2 [Ew2 [Hy2 Ho2]]]]]]]]]; [congruence|].
    rewrite Eb in Eb2; inversion Eb2; subst b2.
    pose proof (solve_linear _ _ _ _ _ k1 k2 Ew1 Ew2) as Ew.
    rewrite (reconstruct_intro name b r X _ Q _ _ Eb NX F Ew); auto.
    f_equal. rewrite Ho1, Ho2.
    assert (LZ : List.length (zeros (List.length Q)) = List.length Q) by apply repeat_length.
    rewrite <- LZ at 2. rewrite <- LZ at 2. rewrite <- LZ at 3. rewrite <- LZ at 4.
    assert (ZF : firstn (List.length Q) (zeros (List.length Q)) = zeros (List.length Q))
      by (rewrite <- LZ at 1; apply firstn_all).
    assert (ZS : skipn (List.length Q) (zeros (List.length Q)) = [])
      by (rewrite <- LZ at 1; apply skipn_all).
    rewrite ?LZ. rewrite ZF, ZS, !app_nil_r.
    assert (Lw : List.length w1 = List.length w2).
    { destruct (linalg_solve_sound _ _ _ Ew1). destruct (linalg_solve_sound _ _ _ Ew2). lia. }
    clear - Lw. unfold zeros, vscale. induction Q; simpl; auto.
    f_equal; [|exact IHQ].
    pose proof (rbf_sum_linear b r X k1 k2 w1 w2 a Lw) as E. unfold vscale in E. rewrite E. ring.
Qed.

(** Accumulation: a second call on the result adds the interpolant again. *)
Lemma reconstruct_twice : forall name r X y Q out0 out1,
  List.length out0 = List.length Q ->
  reconstruct_f X y Q out0 name r = Ok out1 ->
  exists v, reconstruct_f X y Q (zeros (List.length Q)) name r = Ok v /\
   out1 = map2 Rplus out0 v /\
   reconstruct_f X y Q out1 name r = Ok (map2 Rplus out1 v).
Proof.
  intros name r X y Q out0 out1 L H.
  destruct (reconstruct_interpolant name r X y) as [s [Hs Hall]]; [eauto|].
  exists (map s Q). split; [|split].
  - rewrite Hall by apply repeat_length. f_equal.
    rewrite <- (map_length s Q). apply map2_zeros_l.
  - rewrite Hall in H by auto. congruence.
  - apply Hall. rewrite Hall in H by auto. inversion H.
    rewrite map2_length; rewrite ?map_length; auto.
Qed.

(** ** Wendland: well-posedness in one dimension *)
Lemma phi_wend : forall X r, phi Wendland X r = wend (X / r).
Proof. intros. unfold phi, wend. destruct (Rlt_dec _ _); ring. Qed.

Lemma dot_sumf : forall (w v : list R), dot w v = sumf (fun p => fst p * snd p) (combine w v).
Proof. induction w; destruct v; simpl; auto. rewrite IHw. auto. Qed.

Lemma dot_map_sumf : forall (f : R -> R) (xs w : list R), List.length w = List.length xs ->
  dot w (map f xs) = sumf (fun p => snd p * f (fst p)) (combine xs w).
Proof.
  induction xs; destruct w; simpl; intros H; auto; try discriminate. rewrite IHxs by lia. auto.
Qed.

Lemma gap_exists : forall xs : list R, exists d, 0 < d <= 1 /\
  forall x y, In x xs -> In y xs -> x <> y -> d <= Rabs (x - y).
Proof.
  induction xs as [|a xs [d [Hd G]]].
  - exists 1. split; [lra|]. simpl; tauto.
  - assert (D : exists e, 0 < e <= 1 /\ forall y, In y xs -> a <> y -> e <= Rabs (a - y)).
    { clear G Hd d. induction xs as [|b xs [e [He Ge]]].
      - exists 1. split; [lra|]. simpl; tauto.
      - destruct (Req_dec a b) as [->|N].
        + exists e. split; auto. simpl. intros y [<-|Hy] Ny; [congruence|auto].
        + assert (0 < Rabs (a - b)) by (apply Rabs_pos_lt; lra).
          exists (Rmin e (Rabs (a - b))). split.
          { split. apply Rmin_glb_lt; lra. pose proof (Rmin_l e (Rabs (a - b))); lra. }
          simpl. intros y [<-|Hy] Ny. apply Rmin_r.
          apply Rle_trans with e; auto. apply Rmin_l. }
    destruct D as [e [He Ge]].
    exists (Rmin d e). split.
    { split. apply Rmin_glb_lt; lra. pose proof (Rmin_l d e); lra. }
    pose proof (Rmin_l d e). pose proof (Rmin_r d e).
    simpl. intros x y [<-|Hx] [<-|Hy] N; try congruence.
    + specialize (Ge y Hy N). lra.
    + rewrite Rabs_minus_sym. assert (a <> x) by congruence. specialize (Ge x Hx H1). lra.
    + specialize (G x y Hx Hy N). lra.
Qed.

Lemma Rabs_div : forall a b, b <> 0 -> Rabs (a / b) = Rabs a / Rabs b.
Proof. intros. unfold Rdiv. rewrite Rabs_mult, Rabs_inv. auto. Qed.

(** Quadratic form of the matrix in terms of [qform]. *)
Lemma combine_map_fst : forall (xs w : list R), List.length w = List.length xs ->
  map fst (combine xs w) = xs.
Proof. induction xs; destruct w; simpl; intros; try discriminate; auto. f_equal; auto. Qed.

Lemma sumf_map : forall {A B} (f : B -> R) (g : A -> B) l, sumf f (map g l) = sumf (fun a => f (g a)) l.
Proof. induction l; simpl; auto. rewrite IHl; auto. Qed.

Lemma quad_form : forall r xs w, 0 < r -> List.length w = List.length xs ->
  dot w (map (rbf_sum Wendland r (column xs) w) (column xs))
  = qform (fun x y => wend (Rabs (x - y))) (map (fun p => (fst p / r, snd p)) (combine xs w)).
Proof.
  intros r xs w Hr L. unfold column at 2. rewrite map_map.
  rewrite (dot_map_sumf (fun x => rbf_sum Wendland r (column xs) w [x]) xs w L).
  unfold qform. rewrite sumf_map. apply sumf_ext. intros p Hp.
  rewrite sumf_map. simpl.
  unfold rbf_sum, column. rewrite map_map.
  rewrite (dot_map_sumf (fun y => phi Wendland (cdist [fst p] [y]) r) xs w L).
  rewrite <- sumf_scal. apply sumf_ext. intros q Hq.
  rewrite phi_wend, cdist_1d.
  replace (fst p / r - fst q / r) with ((fst p - fst q) / r) by (field; lra).
  rewrite (Rabs_div (fst p - fst q) r) by lra. rewrite (Rabs_pos_eq r) by lra. ring.
Qed.

Lemma sum_sq_zero : forall (xs w : list R), List.length w = List.length xs ->
  sumf (fun p : R * R => snd p ^ 2) (combine xs w) <= 0 -> w = zeros (List.length xs).
Proof.
  induction xs; destruct w; simpl; intros L H; try discriminate; auto.
  assert (P : 0 <= sumf (fun p : R * R => snd p ^ 2) (combine xs w))
    by (apply sumf_nonneg; intros; apply pow2_ge_0).
  assert (0 <= r ^ 2) by apply pow2_ge_0. simpl in H.
  unfold zeros; simpl. f_equal.
  - apply Rsqr_0_uniq. unfold Rsqr. simpl in *. nra.
  - apply IHxs; auto. simpl in *. nra.
Qed.

Lemma NoDup_map_div : forall r xs, r <> 0 -> NoDup xs -> NoDup (map (fun x => x / r) xs).
Proof.
  intros r xs Hr. apply FinFun.Injective_map_NoDup. intros x y H.
  apply (f_equal (fun z => z * r)) in H. unfold Rdiv in H.
  rewrite !Rmult_assoc, Rinv_l, !Rmult_1_r in H; auto.
Qed.

(** Eigenvalue bound, stated on the weights matrix itself. *)
Lemma wendland_matrix_pd : forall r xs w d, 0 < r -> NoDup xs -> List.length w = List.length xs ->
  0 < d <= 1 -> (forall x y, In x xs -> In y xs -> x <> y -> d * r <= Rabs (x - y)) ->
  d ^ 4 * dot w w <=
  dot w (matvec (map (fun x => map (fun y => phi Wendland (cdist x y) r) (column xs)) (column xs)) w).
Proof.
  intros r xs w d Hr ND L Hd G. rewrite matvec_rbf, quad_form by auto.
  set (l := map (fun p => (fst p / r, snd p)) (combine xs w)).
  assert (Ef : map fst l = map (fun x => x / r) xs).
  { unfold l. rewrite map_map. simpl. rewrite <- (combine_map_fst xs w L) at 2. rewrite map_map. auto. }
  replace (dot w w) with (sumf (fun p => snd p ^ 2) l).
  - apply wendland_pd; auto; rewrite Ef.
    + apply NoDup_map_div; auto; lra.
    + intros x y Hx Hy N. apply in_map_iff in Hx. apply in_map_iff in Hy.
      destruct Hx as [x0 [<- Hx]]. destruct Hy as [y0 [<- Hy]].
      assert (x0 <> y0) by congruence. specialize (G x0 y0 Hx Hy H).
      replace (x0 / r - y0 / r) with ((x0 - y0) / r) by (field; lra).
      rewrite Rabs_div, (Rabs_pos_eq r) by lra.
      apply Rmult_le_reg_r with r; auto. unfold Rdiv. rewrite Rmult_assoc, Rinv_l by lra. lra.
  - unfold l. rewrite sumf_map. simpl. clear - L. revert w L.
    induction xs; destruct w; simpl; intros; try discriminate; auto. rewrite IHxs by lia. ring.
Qed.

Lemma wendland_nonsingular : forall r xs v, 0 < r -> NoDup xs -> List.length v = List.length xs ->
  map (rbf_sum Wendland r (column xs) v) (column xs) = zeros (List.length xs) -> v = zeros (List.length xs).
Proof.
  intros r xs v Hr ND L H.
  destruct (gap_exists (map (fun x => x / r) xs)) as [d [Hd G]].
  pose proof (wendland_matrix_pd r xs v d Hr ND L Hd) as P.
  rewrite matvec_rbf, H, dot_zeros_r in P.
  assert (Gr : forall x y, In x xs -> In y xs -> x <> y -> d * r <= Rabs (x - y)).
  { intros x y Hx Hy N.
    assert (N' : x / r <> y / r).
    { intro E. apply N. apply (f_equal (fun z => z * r)) in E. unfold Rdiv in E.
      rewrite !Rmult_assoc, Rinv_l, !Rmult_1_r in E; lra. }
    pose proof (G _ _ (in_map _ _ _ Hx) (in_map _ _ _ Hy) N') as B. simpl in B.
    replace (x / r - y / r) with ((x - y) / r) in B by (field; lra).
    rewrite Rabs_div, (Rabs_pos_eq r) in B by lra.
    apply Rmult_le_compat_r with (r := r) in B; [|lra].
    unfold Rdiv in B. rewrite Rmult_assoc, Rinv_l in B by lra. lra. }
  specialize (P Gr).
  assert (0 < d ^ 4) by (apply pow_lt; lra).
  apply (sum_sq_zero xs v L).
  assert (E : sumf (fun p : R * R => snd p ^ 2) (combine xs v) = dot v v).
  { clear - L. revert v L. induction xs; destruct v; simpl; intros; try discriminate; auto.
    rewrite IHxs by lia. ring. }
  rewrite E. nra.
Qed.

Lemma column_length : forall xs, List.length (column xs) = List.length xs.
Proof. intros; apply map_length. Qed.

Lemma wendland_name : basis_of_name "beckert_wendland_c2_basis" = Ok Wendland.
Proof. reflexivity. Qed.

Lemma wendland_solvable : forall r xs y, 0 < r -> NoDup xs -> List.length y = List.length xs ->
  exists w, linalg_solve (map (fun x => map (fun y => phi Wendland (cdist x y) r) (column xs)) (column xs)) y = Ok w.
Proof.
  intros r xs y Hr ND L. apply linalg_solve_ok_iff.
  - apply square_weights.
  - rewrite map_length, column_length. auto.
  - rewrite map_length, column_length. intros v Lv Hv. rewrite matvec_rbf in Hv.
    apply (wendland_nonsingular r xs v); auto.
Qed.

(** Rows of equal nodes are equal, so repeated nodes are singular. *)
Lemma dup_singular : forall (xs : list R), ~ NoDup xs -> exists v, List.length v = List.length xs /\
  v <> zeros (List.length xs) /\
  forall f : R -> R, dot v (map f xs) = 0.
Proof.
  intros xs. induction xs as [|a xs IH]; intros H.
  - exfalso. apply H. constructor.
  - destruct (in_dec Req_EM_T a xs) as [Hin|Hni].
    + apply in_split in Hin. destruct Hin as [l1 [l2 E]].
      exists (1 :: zeros (List.length l1) ++ -1 :: zeros (List.length l2)). split; [|split].
      * subst. simpl. rewrite !app_length. simpl. unfold zeros. rewrite !repeat_length. lia.
      * simpl. unfold zeros; simpl. intro K. inversion K. lra.
      * intros f. subst. simpl.
        assert (forall (m : list R) (f : R -> R), dot (zeros (List.length m)) (map f m) = 0).
        { clear. induction m; intros; simpl; auto. unfold zeros in *. simpl. rewrite IHm. ring. }
        assert (A : forall (m : list R) rest rest2, dot (zeros (List.length m) ++ rest) (map f m ++ rest2) = dot rest rest2).
        { clear. induction m; intros; simpl; auto. unfold zeros in *; simpl. rewrite IHm. ring. }
        rewrite map_app. rewrite A. simpl. rewrite H0. ring.
    + destruct IH as [v [L [N D]]].
      * intro ND. apply H. constructor; auto.
      * exists (0 :: v). split; [simpl; lia|]. split.
        { unfold zeros; simpl; intro K. inversion K. apply N. auto. }
        intros f. simpl. rewrite D. ring.
Qed.

Lemma wendland_dup_fails : forall r xs y, 0 < r -> ~ NoDup xs -> List.length y = List.length xs ->
  linalg_solve (map (fun x => map (fun y => phi Wendland (cdist x y) r) (column xs)) (column xs)) y = Err LinAlgError.
Proof.
  intros r xs y Hr ND L.
  set (A := map (fun x => map (fun y => phi Wendland (cdist x y) r) (column xs)) (column xs)).
  assert (SA : square A) by apply square_weights.
  assert (LA : List.length A = List.length xs) by (unfold A; rewrite map_length; apply column_length).
  assert (LyA : List.length y = List.length A) by congruence.
  destruct (linalg_solve A y) as [w|e] eqn:E.
  - exfalso.
    assert (Inj := proj1 (linalg_solve_ok_iff A y SA LyA) (ex_intro _ _ E)).
    destruct (dup_singular xs ND) as [v [Lv [Nv Dv]]].
    apply Nv. rewrite <- LA. apply Inj; [lia|].
    unfold A. rewrite matvec_rbf.
    unfold zeros. rewrite map_length.
    clear - Dv. unfold rbf_sum.
    assert (H : forall q, dot v (map (fun y => phi Wendland (cdist q y) r) (column xs)) = 0).
    { intros q. unfold column. rewrite map_map. apply (Dv (fun x => phi Wendland (cdist q [x]) r)). }
    transitivity (map (fun _ : list R => 0) (column xs)).
    + apply map_ext. intros q. apply H.
    + generalize (column xs) as l. induction l; simpl; auto. f_equal; auto.
  - destruct (linalg_solve_err _ _ _ SA LyA E) as [-> _]. auto.
Qed.

Lemma reconstruct_err_solve : forall X y Q out0 b name r e,
  basis_of_name name = Ok b -> finite_basis b r ->
  linalg_solve (map (fun x => map (fun y => phi b (cdist x y) r) X) X) y = Err e ->
  reconstruct_f X y Q out0 name r = Err e.
Proof.
  intros X y Q out0 b name r e Eb F E. unfold reconstruct_f. rewrite Eb. simpl bind.
  rewrite weights_matrix_ok by auto. simpl bind. rewrite E. auto.
Qed.

Theorem wendland_iff : forall r xs y xx out, 0 < r -> List.length y = List.length xs ->
  List.length out = List.length xx ->
  ((exists o, reconstruct_1d xs y xx out "beckert_wendland_c2_basis" r = Ok o) <-> NoDup xs) /\
  (~ NoDup xs -> reconstruct_1d xs y xx out "beckert_wendland_c2_basis" r = Err LinAlgError).
Proof.
  intros r xs y xx out Hr Ly Lo.
  assert (NR : ~ NoDup xs -> reconstruct_1d xs y xx out "beckert_wendland_c2_basis" r = Err LinAlgError).
  { intro ND. unfold reconstruct_1d. apply (reconstruct_err_solve _ _ _ _ Wendland); auto.
    simpl; lra. apply wendland_dup_fails; auto. }
  split; auto. split.
  - intros [o H]. destruct (ListDec.NoDup_dec Req_EM_T xs) as [|ND]; auto.
    rewrite (NR ND) in H. discriminate.
  - intros ND. unfold reconstruct_1d. destruct xs as [|x0 xs].
    + destruct y; [|discriminate]. unfold reconstruct_f. simpl.
      assert (weights_matrix Wendland r (column xx) [] = Ok (map (fun _ => []) (column xx))) by (apply mapM_ok_map; auto).
      rewrite H. simpl. eauto.
    + destruct (wendland_solvable r (x0 :: xs) y Hr ND Ly) as [w Hw].
      rewrite (reconstruct_intro _ Wendland r _ _ _ _ w); eauto.
      * discriminate.
      * simpl; lra.
      * rewrite column_length; lia.
Qed.
