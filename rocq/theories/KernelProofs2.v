(** Solvability of the Gaussian and multiquadric systems. *)
From Coq Require Import Reals String List Lra Lia Arith.
From Verif Require Import Base SolveModel SolveProofs RbfModel RbfProofs WendlandPD KernelPD KernelSeries KernelProofs.
Import ListNotations.
Open Scope R_scope.

Lemma in_combine_len : forall (X : list (list R)) (w : list R) d, Forall (fun x => List.length x = d) X -> forall p, In p (combine X w) -> List.length (fst p) = d.
Proof. intros X w d F [x a] I. apply in_combine_l in I. rewrite Forall_forall in F. apply F. auto. Qed.

(** Symmetry of the matrix. *)
Lemma rbf_symmetric : forall b r X u w, List.length u = List.length X -> List.length w = List.length X ->
  dot u (map (rbf_sum b r X w) X) = dot w (map (rbf_sum b r X u) X).
Proof.
  intros b r X u w LU LW.
  assert (G : forall (f : list R -> R) X u, List.length u = List.length X -> dot u (map f X) = sumf (fun p : list R * R => snd p * f (fst p)) (combine X u)).
  { clear. intros f. induction X as [|x X IH]; intros [|a u] L; try discriminate; [reflexivity|]. injection L as L.
    cbn [map dot combine]. rewrite IH by auto. reflexivity. }
  rewrite (G _ X u LU), (G _ X w LW). unfold rbf_sum.
  transitivity (sumf (fun p => sumf (fun q => snd p * (snd q * phi b (cdist (fst p) (fst q)) r)) (combine X w)) (combine X u)).
  { apply sumf_ext. intros p _. rewrite (G _ X w LW), <- sumf_scal. reflexivity. }
  rewrite sumf_swap. apply sumf_ext. intros q _. rewrite (G _ X u LU), <- sumf_scal. apply sumf_ext. intros p _.
  rewrite (cdist_sym (fst p)). ring.
Qed.

Lemma unit_form : forall b r x X, dot (1 :: zeros (List.length X)) (map (rbf_sum b r (x :: X) (1 :: zeros (List.length X))) (x :: X)) = phi b (cdist x x) r.
Proof.
  intros b r x X. assert (Z : forall l n, dot (zeros n) l = 0) by (intros; rewrite dot_comm; apply dot_zeros_r).
  cbn [map dot]. rewrite Z. unfold rbf_sum at 1. cbn [map dot]. rewrite Z. ring.
Qed.

Lemma lin_combine : forall (f : list R -> R) X u, List.length u = List.length X -> lin (combine X u) f = dot u (map f X).
Proof.
  intros f. induction X as [|x X IH]; intros [|a u] L; try discriminate; [reflexivity|]. injection L as L.
  cbn [map dot combine]. rewrite <- IH by auto. reflexivity.
Qed.

Lemma multiquadric_nonsingular : forall d r X w, r <> 0 -> Forall (fun x => List.length x = d) X -> NoDup X -> List.length w = List.length X ->
  map (rbf_sum MultiQuadratic r X w) X = zeros (List.length X) -> w = zeros (List.length X).
Proof.
  intros d r X w Hr F ND L H. destruct X as [|x0 X]; [destruct w; [reflexivity|discriminate]|].
  set (XX := x0 :: X) in *. set (c := fun x => / sqrt (sx r x)).
  destruct (Req_EM_T (lin (combine XX w) c) 0) as [Z|NZ].
  - apply weights_zero; auto. apply (multiquadric_cnd r Hr d); auto.
    + apply in_combine_len. auto.
    + rewrite combine_fst by auto. auto.
    + rewrite <- rbf_form by auto. rewrite H, dot_zeros_r. lra.
  - exfalso. set (u := 1 :: zeros (List.length X)).
    assert (LU : List.length u = List.length XX) by (unfold u, XX; cbn [List.length]; unfold zeros; rewrite repeat_length; auto).
    set (a := - (lin (combine XX u) c / lin (combine XX w) c)).
    set (v := map2 Rplus u (vscale a w)).
    assert (LW : List.length (vscale a w) = List.length XX) by (rewrite vscale_length; auto).
    assert (LV : List.length v = List.length XX) by (unfold v; rewrite map2_length; lia).
    assert (MV : map (rbf_sum MultiQuadratic r XX v) XX = map (rbf_sum MultiQuadratic r XX u) XX).
    { apply map_ext_in. intros x I. unfold v, rbf_sum. rewrite !(dot_comm _ (map _ XX)), dot_vadd, dot_vscale by lia.
      assert (E : rbf_sum MultiQuadratic r XX w x = 0).
      { assert (J : In (rbf_sum MultiQuadratic r XX w x) (zeros (List.length XX))) by (rewrite <- H; apply in_map; auto). apply repeat_spec in J. auto. }
      unfold rbf_sum in E. rewrite dot_comm in E. rewrite E. ring. }
    assert (FV : dot v (map (rbf_sum MultiQuadratic r XX v) XX) = Rabs r).
    { rewrite MV. unfold v at 1. rewrite (dot_comm (map2 _ _ _)), dot_vadd, dot_vscale by lia. rewrite !(dot_comm (map _ _)).
      rewrite (rbf_symmetric _ _ _ w u) by auto. rewrite H, dot_zeros_r. unfold XX, u. rewrite unit_form.
      rewrite cdist_refl. cbn [phi]. rewrite Rmult_0_l, Rplus_0_l. change (r * r) with (Rsqr r). rewrite sqrt_Rsqr_abs. ring. }
    assert (LC : lin (combine XX v) c = 0).
    { rewrite lin_combine by auto. unfold v. rewrite dot_comm, dot_vadd, dot_vscale by lia. rewrite !(dot_comm (map c XX)).
      rewrite <- !lin_combine by auto. unfold a. field. auto. }
    assert (P : 0 < Rabs r) by (apply Rabs_pos_lt; auto).
    assert (VZ : v = zeros (List.length XX)).
    { apply weights_zero; auto. apply (multiquadric_cnd r Hr d); auto.
      + apply in_combine_len. auto.
      + rewrite combine_fst by auto. auto.
      + rewrite <- rbf_form by auto. rewrite FV. lra. }
    rewrite VZ in FV. rewrite (dot_comm (zeros _)), dot_zeros_r in FV. lra.
Qed.

Definition smooth (b : basis) : Prop := b = Gaussian \/ b = MultiQuadratic \/ b = InvMultiQuadratic.
Lemma smooth_nonsingular : forall b d r X w, smooth b -> r <> 0 -> Forall (fun x => List.length x = d) X -> NoDup X -> List.length w = List.length X ->
  map (rbf_sum b r X w) X = zeros (List.length X) -> w = zeros (List.length X).
Proof.
  intros b d r X w [->|[->| ->]] Hr F ND L H.
  - apply weights_zero; auto. apply (gaussian_pd d r); auto; [apply in_combine_len; auto|rewrite combine_fst; auto|].
    rewrite <- rbf_form, H, dot_zeros_r by auto. lra.
  - eapply multiquadric_nonsingular; eauto.
  - apply weights_zero; auto. apply (inverse_multiquadric_pd r Hr d); auto; [apply in_combine_len; auto|rewrite combine_fst; auto|].
    rewrite <- rbf_form, H, dot_zeros_r by auto. lra.
Qed.

(** Repeated nodes. *)
Lemma dup_points : forall (X : list (list R)), ~ NoDup X -> exists v, List.length v = List.length X /\
  v <> zeros (List.length X) /\ forall f : list R -> R, dot v (map f X) = 0.
Proof.
  induction X as [|a X IH]; intros H.
  - exfalso. apply H. constructor.
  - destruct (in_dec (list_eq_dec Req_EM_T) a X) as [Hin|Hni].
    + apply in_split in Hin. destruct Hin as [l1 [l2 E]].
      exists (1 :: zeros (List.length l1) ++ -1 :: zeros (List.length l2)). split; [|split].
      * subst. cbn [List.length]. rewrite !app_length. cbn [List.length]. unfold zeros. rewrite !repeat_length. lia.
      * unfold zeros. cbn [List.length repeat]. intro K. injection K as K _. lra.
      * intros f. subst. cbn [map dot].
        assert (D0 : forall (m : list (list R)), dot (zeros (List.length m)) (map f m) = 0) by (intros; rewrite dot_comm; apply dot_zeros_r).
        assert (A : forall (m : list (list R)) rest rest2, dot (zeros (List.length m) ++ rest) (map f m ++ rest2) = dot rest rest2).
        { clear. induction m as [|b m IH]; intros; [reflexivity|]. unfold zeros in *. cbn [List.length repeat map app dot]. rewrite IH. ring. }
        rewrite map_app, A. cbn [map dot]. rewrite D0. ring.
    + destruct IH as [v [L [N D]]]; [intros ND; apply H; constructor; auto|].
      exists (0 :: v). split; [cbn [List.length]; lia|]. split.
      { unfold zeros. cbn [List.length repeat]. intro K. injection K as K. apply N. auto. }
      intros f. cbn [map dot]. rewrite D. ring.
Qed.
Lemma dup_fails : forall b r X y, ~ NoDup X -> List.length y = List.length X ->
  linalg_solve (map (fun x => map (fun z => phi b (cdist x z) r) X) X) y = Err LinAlgError.
Proof.
  intros b r X y ND L. set (A := map (fun x => map (fun z => phi b (cdist x z) r) X) X).
  assert (SA : square A) by apply square_weights.
  assert (LA : List.length A = List.length X) by (unfold A; apply map_length).
  assert (LY : List.length y = List.length A) by congruence.
  destruct (linalg_solve A y) as [w|e] eqn:E.
  - exfalso. assert (Inj := proj1 (linalg_solve_ok_iff A y SA LY) (ex_intro _ _ E)).
    destruct (dup_points X ND) as (v & Lv & Nv & Dv). apply Nv. rewrite <- LA. apply Inj; [lia|].
    unfold A at 1. rewrite matvec_rbf, LA. unfold rbf_sum. transitivity (map (fun _ : list R => 0) X).
    + apply map_ext. intros q. apply Dv.
    + clear. unfold zeros. induction X; cbn [map List.length repeat]; auto. f_equal; auto.
  - destruct (linalg_solve_err _ _ _ SA LY E) as [-> _]. auto.
Qed.

Lemma smooth_well_posed : forall name b d r X y Q out, basis_of_name name = Ok b -> smooth b -> r <> 0 ->
  Forall (fun x => List.length x = d) X -> List.length y = List.length X -> List.length out = List.length Q ->
  ((exists o, reconstruct_f X y Q out name r = Ok o) <-> NoDup X) /\
  (~ NoDup X -> reconstruct_f X y Q out name r = Err LinAlgError).
Proof.
  intros name b d r X y Q out N S Hr F Ly Lo.
  assert (FB : finite_basis b r) by (destruct S as [->|[->| ->]]; cbn; auto).
  assert (NR : ~ NoDup X -> reconstruct_f X y Q out name r = Err LinAlgError).
  { intros ND. apply (reconstruct_err_solve _ _ _ _ b); auto. apply dup_fails; auto. }
  split; auto. split.
  - intros [o H]. destruct (ListDec.NoDup_dec (list_eq_dec Req_EM_T) X) as [|ND]; auto. rewrite (NR ND) in H. discriminate.
  - intros ND. destruct X as [|x0 X].
    + destruct y; [|discriminate]. unfold reconstruct_f. rewrite N. cbn [bind weights_matrix mapM].
      change (linalg_solve [] []) with (@Ok (list R) []). cbn [bind].
      rewrite (weights_matrix_ok b r Q []) by auto. cbn [bind]. eauto.
    + destruct (proj2 (linalg_solve_ok_iff (map (fun x => map (fun z => phi b (cdist x z) r) (x0 :: X)) (x0 :: X)) y (square_weights _ _ _)
        ltac:(rewrite map_length; auto))) as [w Hw].
      * rewrite map_length. intros v Lv Hv. rewrite matvec_rbf in Hv. eapply smooth_nonsingular; eauto.
      * rewrite (reconstruct_intro _ b r _ _ _ _ w); eauto; [discriminate|lia].
Qed.

Lemma pd_matrix : forall b d r X A w, b = Gaussian \/ b = InvMultiQuadratic -> r <> 0 -> Forall (fun x => List.length x = d) X -> NoDup X ->
  weights_matrix b r X X = Ok A -> List.length w = List.length X -> w <> zeros (List.length X) -> 0 < dot w (matvec A w).
Proof.
  intros b d r X A w B Hr F ND HA L NZ.
  assert (FB : finite_basis b r) by (destruct B as [->| ->]; cbn; auto).
  rewrite weights_matrix_ok in HA by auto. match type of HA with Ok ?m = Ok ?a => assert (EA : a = m) by congruence; subst a; clear HA end. rewrite matvec_rbf, rbf_form by auto.
  destruct (Rle_dec (form (fun x y => phi b (cdist x y) r) (combine X w)) 0) as [LE|GT]; [|lra]. exfalso. apply NZ. apply weights_zero; auto.
  destruct B as [->| ->].
  - apply (gaussian_pd d r); auto; [apply in_combine_len; auto|rewrite combine_fst; auto].
  - apply (inverse_multiquadric_pd r Hr d); auto; [apply in_combine_len; auto|rewrite combine_fst; auto].
Qed.

(** The quadratic form of the multiquadric matrix takes both signs. *)
Lemma multiquadric_indefinite : forall d r X A, r <> 0 -> Forall (fun x => List.length x = d) X -> NoDup X -> (2 <= List.length X)%nat ->
  weights_matrix MultiQuadratic r X X = Ok A ->
  exists u v, List.length u = List.length X /\ List.length v = List.length X /\ dot v (matvec A v) < 0 < dot u (matvec A u).
Proof.
  intros d r X A Hr F ND L2 HA. rewrite weights_matrix_ok in HA by (cbn; auto). match type of HA with Ok ?m = Ok ?a => assert (EA : a = m) by congruence; subst a; clear HA end.
  destruct X as [|x0 [|x1 X]]; cbn [List.length] in L2; try lia. set (XX := x0 :: x1 :: X) in *.
  exists (1 :: zeros (List.length (x1 :: X))), (/ / sqrt (sx r x0) :: - / / sqrt (sx r x1) :: zeros (List.length X)).
  assert (Z : forall n, List.length (zeros n) = n) by (intros; apply repeat_length).
  split; [cbn [List.length]; rewrite Z; auto|]. split; [cbn [List.length]; rewrite Z; auto|].
  rewrite !matvec_rbf. unfold XX at 3 4. rewrite unit_form, cdist_refl. cbn [phi]. rewrite Rmult_0_l, Rplus_0_l. change (r * r) with (Rsqr r). rewrite sqrt_Rsqr_abs.
  split; [|apply Rabs_pos_lt; auto].
  set (v := / / sqrt (sx r x0) :: - / / sqrt (sx r x1) :: zeros (List.length X)).
  assert (LV : List.length v = List.length XX) by (cbn [List.length v XX]; rewrite Z; auto).
  rewrite rbf_form by auto. apply Rnot_le_lt. intros LE.
  assert (P : forall x, 0 < sqrt (sx r x)) by (intros; apply sqrt_lt_R0, sx_pos; auto).
  pose proof (multiquadric_cnd r Hr d (combine XX v)) as C.
  assert (E : snd (x0, / / sqrt (sx r x0)) = 0).
  { apply C; auto.
    - apply in_combine_len. auto.
    - rewrite combine_fst by auto. auto.
    - rewrite lin_combine by auto. unfold v, XX. cbn [map dot]. rewrite (dot_comm (zeros _)), dot_zeros_r.
      pose proof (P x0). pose proof (P x1). field. lra.
    - left. reflexivity. }
  cbn [snd] in E. pose proof (P x0). rewrite Rinv_inv in E. lra.
Qed.

Lemma named_well_posed : forall name r d X y Q out,
  In name ["gaussian_spline"; "multi_quadratic_biharmonic_spline"; "inv_multi_quadratic_biharmonic_spline"]%string ->
  r <> 0 -> Forall (fun x => List.length x = d) X -> List.length y = List.length X -> List.length out = List.length Q ->
  ((exists o, reconstruct_f X y Q out name r = Ok o) <-> NoDup X) /\
  (~ NoDup X -> reconstruct_f X y Q out name r = Err LinAlgError).
Proof.
  intros name r d X y Q out I R F LY LO. unfold smooth.
  destruct I as [<-|[<-|[<-|[]]]].
  - apply (smooth_well_posed _ Gaussian d); unfold smooth; auto.
  - apply (smooth_well_posed _ MultiQuadratic d); unfold smooth; auto.
  - apply (smooth_well_posed _ InvMultiQuadratic d); unfold smooth; auto.
Qed.
