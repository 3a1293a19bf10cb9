From Coq Require Import Reals List Lra Lia Permutation.
From Verif Require Import Base SolveModel.
Import ListNotations.
Open Scope R_scope.

Definition sat (xs : list R) (r : row) : Prop := dot (fst r) xs = snd r.
Definition wf_rows (n : nat) (rows : list row) : Prop :=
  length rows = n /\ Forall (fun r => length (fst r) = n) rows.

Lemma map2_length : forall {A B C} (f : A -> B -> C) a b,
  length a = length b -> length (map2 f a b) = length a.
Proof. intros A B C f a. induction a; destruct b; simpl; intros; try lia. rewrite IHa; lia. Qed.

Lemma map2_length_min : forall {A B C} (f : A -> B -> C) a b,
  length (map2 f a b) = Nat.min (length a) (length b).
Proof. intros A B C f a. induction a; destruct b; simpl; auto. Qed.

Lemma dot_comb : forall k c a xs, length c = length a ->
  dot (map2 (fun x y => x - k * y) c a) xs = dot c xs - k * dot a xs.
Proof.
  intros k. induction c as [|c0 c IHc]; destruct a as [|a0 a]; simpl; intros xs H; try discriminate.
  - ring.
  - destruct xs; simpl. ring. rewrite IHc by lia. ring.
Qed.

Lemma dot_zeros_r : forall a n, dot a (zeros n) = 0.
Proof. induction a; destruct n; simpl; auto. unfold zeros in *. rewrite IHa. ring. Qed.

Lemma pick_perm : forall rows p rest, pick_pivot rows = Some (p, rest) ->
  Permutation rows (p :: rest).
Proof.
  induction rows as [|r rs IH]; simpl; intros p rest H; [discriminate|].
  destruct (pick_pivot rs) as [[q rest']|] eqn:E.
  - specialize (IH _ _ eq_refl).
    destruct (Rlt_dec _ _); inversion H; subst.
    + transitivity (r :: p :: rest'); [constructor; auto | constructor].
    + constructor. auto.
  - inversion H; subst. destruct rs; [auto|].
    simpl in E. destruct (pick_pivot rs) as [[? ?]|]; [destruct (Rlt_dec _ _)|]; discriminate.
Qed.

Lemma pick_max : forall rows p rest, pick_pivot rows = Some (p, rest) ->
  Forall (fun r => Rabs (lead r) <= Rabs (lead p)) rows.
Proof.
  induction rows as [|r rs IH]; simpl; intros p rest H; [discriminate|].
  destruct (pick_pivot rs) as [[q rest']|] eqn:E.
  - specialize (IH _ _ eq_refl).
    destruct (Rlt_dec _ _); inversion H; subst; constructor; auto; try lra.
    eapply Forall_impl; [|exact IH]. simpl; intros; lra.
  - inversion H; subst. destruct rs; [constructor; auto; lra|].
    simpl in E. destruct (pick_pivot rs) as [[? ?]|]; [destruct (Rlt_dec _ _)|]; discriminate.
Qed.

Lemma pick_none : forall rows, pick_pivot rows = None -> rows = [].
Proof.
  destruct rows; simpl; auto. destruct (pick_pivot rows) as [[? ?]|];
    [destruct (Rlt_dec _ _)|]; discriminate.
Qed.

Lemma wf_eliminate : forall n p rest, wf_rows (S n) (p :: rest) ->
  wf_rows n (map (eliminate p) rest).
Proof.
  intros n p rest [L F]. inversion F; subst. split.
  - rewrite map_length. simpl in L. lia.
  - rewrite Forall_map. eapply Forall_impl; [|exact H2].
    intros r Hr. cbn beta in Hr. unfold eliminate; simpl.
    rewrite map2_length_min.
    destruct (fst r), (fst p); simpl in *; lia.
Qed.

(* key algebraic fact *)
Lemma sat_eliminate : forall n p r x xs,
  length (fst p) = S n -> length (fst r) = S n -> lead p <> 0 ->
  lead p * x + dot (tl (fst p)) xs = snd p ->
  (sat xs (eliminate p r) <-> sat (x :: xs) r).
Proof.
  intros n [a b] [c d] x xs Ha Hc Hp Hx. unfold sat, eliminate, lead in *. simpl in *.
  destruct a as [|a0 a]; [discriminate|]. destruct c as [|c0 c]; [discriminate|]. simpl in *.
  rewrite dot_comb by lia. subst b.
  replace (d - c0 / a0 * (a0 * x + dot a xs)) with (d - c0 * x - c0 / a0 * dot a xs) by (field; auto).
  split; intro; lra.
Qed.

Lemma sat_pivot : forall n p x xs, length (fst p) = S n ->
  (sat (x :: xs) p <-> lead p * x + dot (tl (fst p)) xs = snd p).
Proof.
  intros n [[|a0 a] b] x xs H; [discriminate|]. unfold sat, lead; simpl. tauto.
Qed.

Lemma wf_perm : forall n r1 r2, Permutation r1 r2 -> wf_rows n r1 -> wf_rows n r2.
Proof.
  intros n r1 r2 P [L F]. split. rewrite <- (Permutation_length P); auto.
  eapply Permutation_Forall; eauto.
Qed.

Lemma gauss_sound : forall n rows xs, wf_rows n rows -> gauss n rows = Ok xs ->
  length xs = n /\ Forall (sat xs) rows.
Proof.
  induction n as [|n IH]; simpl; intros rows xs W H.
  - inversion H; subst. split; auto. destruct W as [L _]. destruct rows; [constructor|discriminate].
  - destruct (pick_pivot rows) as [[p rest]|] eqn:E; [|discriminate].
    destruct (Req_EM_T (lead p) 0) as [|Hp]; [discriminate|].
    destruct (gauss n (map (eliminate p) rest)) as [ys|e] eqn:G; simpl in H; [|discriminate].
    pose proof (pick_perm _ _ _ E) as P.
    pose proof (wf_perm _ _ _ P W) as W'.
    destruct (IH _ _ (wf_eliminate _ _ _ W') G) as [Ly Fy].
    inversion H; subst xs. split. simpl; lia.
    set (x := (snd p - dot (tl (fst p)) ys) / lead p).
    assert (Hx : lead p * x + dot (tl (fst p)) ys = snd p) by (unfold x; field; auto).
    destruct W' as [_ F]. inversion F; subst.
    apply (Permutation_Forall (Permutation_sym P)).
    constructor.
    + apply (sat_pivot (length ys)); auto.
    + rewrite Forall_map in Fy. rewrite Forall_forall in *. intros r Hr.
      apply (sat_eliminate (length ys) p); auto.
Qed.

Lemma gauss_unique : forall n rows xs, wf_rows n rows -> gauss n rows = Ok xs ->
  forall ys, length ys = n -> Forall (sat ys) rows -> ys = xs.
Proof.
  induction n as [|n IH]; simpl; intros rows xs W H ys Ly Sy.
  - inversion H; subst. destruct ys; auto; discriminate.
  - destruct (pick_pivot rows) as [[p rest]|] eqn:E; [|discriminate].
    destruct (Req_EM_T (lead p) 0) as [|Hp]; [discriminate|].
    destruct (gauss n (map (eliminate p) rest)) as [zs|e] eqn:G; simpl in H; [|discriminate].
    pose proof (pick_perm _ _ _ E) as P.
    pose proof (wf_perm _ _ _ P W) as W'.
    inversion H; subst xs. destruct ys as [|y ys]; [discriminate|].
    apply (Permutation_Forall P) in Sy. inversion Sy; subst.
    pose proof W' as [_ F]. inversion F; subst.
    apply (sat_pivot n) in H2; auto.
    assert (ys = zs).
    { apply (IH _ _ (wf_eliminate _ _ _ W') G). simpl in Ly; lia.
      rewrite Forall_map. rewrite Forall_forall in *. intros r Hr.
      apply (sat_eliminate n p r y); auto. }
    subst. f_equal. rewrite <- H2. field. auto.
Qed.

Lemma gauss_err : forall n rows e, wf_rows n rows -> gauss n rows = Err e ->
  e = LinAlgError /\
  exists v, length v = n /\ v <> zeros n /\ Forall (fun r => dot (fst r) v = 0) rows.
Proof.
  induction n as [|n IH]; simpl; intros rows e W H; [discriminate|].
  destruct (pick_pivot rows) as [[p rest]|] eqn:E.
  2:{ apply pick_none in E. subst. destruct W; discriminate. }
  pose proof (pick_perm _ _ _ E) as P.
  pose proof (wf_perm _ _ _ P W) as W'.
  destruct (Req_EM_T (lead p) 0) as [Hp|Hp].
  - inversion H; split; auto. exists (1 :: zeros n). split; [simpl; unfold zeros; rewrite repeat_length; auto|].
    split; [unfold zeros; simpl; intro K; inversion K; lra|].
    pose proof (pick_max _ _ _ E) as M. destruct W as [L F].
    rewrite Forall_forall in *. intros r Hr.
    specialize (M r Hr). rewrite Hp, Rabs_R0 in M.
    specialize (F r Hr). destruct r as [[|a0 a] b]; simpl in *; [discriminate|].
    rewrite dot_zeros_r. unfold lead in M; simpl in M.
    assert (Rabs a0 = 0) by (pose proof (Rabs_pos a0); lra).
    assert (a0 = 0) by (destruct (Req_dec a0 0); auto; apply Rabs_no_R0 in H2; lra).
    subst; ring.
  - destruct (gauss n (map (eliminate p) rest)) as [zs|e'] eqn:G; simpl in H; [discriminate|].
    inversion H; subst e'.
    destruct (IH _ _ (wf_eliminate _ _ _ W') G) as [He [v [Lv [Nv Fv]]]]. split; auto.
    set (x := - dot (tl (fst p)) v / lead p).
    exists (x :: v). split; [simpl; lia|]. split.
    { intro K. apply Nv. simpl in K. unfold zeros in K; simpl in K. inversion K. unfold zeros; congruence. }
    destruct W' as [_ F]. inversion F; subst.
    apply (Permutation_Forall (Permutation_sym P)).
    (* homogeneous rows *)
    assert (Hom : forall r, length (fst r) = S (length v) ->
      dot (fst (eliminate p r)) v = 0 -> dot (fst r) (x :: v) = 0).
    { intros [[|c0 c] d] Lr Hr; simpl in *; [discriminate|].
      destruct p as [[|a0 a] b]; simpl in *; [discriminate|].
      unfold lead in *; simpl in *. rewrite dot_comb in Hr by lia.
      unfold x. replace (c0 * (- dot a v / a0)) with (- (c0 / a0 * dot a v)) by (field; auto). lra. }
    constructor.
    + destruct p as [[|a0 a] b]; simpl in *; [discriminate|]. unfold x, lead in *; simpl in *. field. auto.
    + rewrite Forall_map in Fv. rewrite Forall_forall in *. intros r Hr. apply Hom; auto.
Qed.

(** Statements about [linalg_solve]. *)
Definition square (A : list (list R)) : Prop := Forall (fun r => length r = length A) A.

Lemma square_forallb : forall A, square A <->
  forallb (fun r => Nat.eqb (length r) (length A)) A = true.
Proof.
  intros A. unfold square. rewrite forallb_forall, Forall_forall.
  split; intros H r Hr; specialize (H r Hr); apply PeanoNat.Nat.eqb_eq; auto.
Qed.

Lemma combine_wf : forall A b n, Forall (fun r => length r = n) A -> length A = n -> length b = n ->
  wf_rows n (combine A b).
Proof.
  intros A b n F LA Lb. split; [rewrite combine_length; lia|].
  rewrite Forall_forall in *. intros [r d] Hr. apply in_combine_l in Hr. simpl. auto.
Qed.

Lemma Forall_sat_combine : forall xs A b, length A = length b ->
  (Forall (sat xs) (combine A b) <-> matvec A xs = b).
Proof.
  intros xs A. induction A; destruct b; simpl; intros H; try discriminate.
  - split; constructor.
  - unfold sat in *. split; intro K.
    + inversion K; subst. simpl in H2. f_equal; auto. apply IHA; auto.
    + inversion K; subst. constructor; auto. apply IHA; auto.
Qed.

Lemma Forall_hom_combine : forall v A b, length A = length b ->
  Forall (fun r : row => dot (fst r) v = 0) (combine A b) -> matvec A v = zeros (length A).
Proof.
  intros v A. induction A; destruct b; simpl; intros H K; try discriminate; auto.
  inversion K; subst. unfold zeros; simpl. f_equal; auto. apply (IHA b); auto.
Qed.

Lemma linalg_solve_shape : forall A b xs, linalg_solve A b = Ok xs -> square A /\ length b = length A.
Proof.
  intros A b xs H. unfold linalg_solve in H.
  destruct (forallb _ A) eqn:E; [|discriminate].
  destruct (Nat.eqb _ _) eqn:E2; [|discriminate]. split.
  apply square_forallb; auto. apply PeanoNat.Nat.eqb_eq; auto.
Qed.

Lemma linalg_solve_unfold : forall A b, square A -> length b = length A ->
  linalg_solve A b = gauss (length A) (combine A b).
Proof.
  intros A b S L. unfold linalg_solve. apply square_forallb in S. rewrite S.
  rewrite L, PeanoNat.Nat.eqb_refl. auto.
Qed.

Lemma linalg_solve_sound : forall A b xs, linalg_solve A b = Ok xs ->
  length xs = length A /\ matvec A xs = b.
Proof.
  intros A b xs H. destruct (linalg_solve_shape _ _ _ H) as [S L].
  rewrite linalg_solve_unfold in H by auto.
  destruct (gauss_sound _ _ _ (combine_wf A b (length A) S eq_refl L) H) as [Lx F].
  split; auto. apply Forall_sat_combine; auto.
Qed.

Lemma linalg_solve_unique : forall A b xs ys, linalg_solve A b = Ok xs ->
  length ys = length A -> matvec A ys = b -> ys = xs.
Proof.
  intros A b xs ys H Ly Hy. destruct (linalg_solve_shape _ _ _ H) as [S L].
  rewrite linalg_solve_unfold in H by auto.
  apply (gauss_unique _ _ _ (combine_wf A b (length A) S eq_refl L) H ys Ly).
  apply Forall_sat_combine; auto.
Qed.

Lemma linalg_solve_err : forall A b e, square A -> length b = length A ->
  linalg_solve A b = Err e ->
  e = LinAlgError /\ exists v, length v = length A /\ v <> zeros (length A) /\ matvec A v = zeros (length A).
Proof.
  intros A b e S L H. rewrite linalg_solve_unfold in H by auto.
  destruct (gauss_err _ _ _ (combine_wf A b (length A) S eq_refl L) H) as [He [v [Lv [Nv Fv]]]].
  split; auto. exists v. split; [auto|]. split; [auto|].
  apply (Forall_hom_combine v A b); auto.
Qed.

Lemma matvec_zeros : forall A n, matvec A (zeros n) = zeros (length A).
Proof.
  intros A n. unfold matvec. induction A; simpl; auto. unfold zeros in *; simpl.
  f_equal; auto. apply (dot_zeros_r a n).
Qed.

Lemma dot_vadd : forall r x y, length x = length y ->
  dot r (map2 Rplus x y) = dot r x + dot r y.
Proof.
  induction r; destruct x, y; simpl; intros; try lra; try discriminate.
  rewrite IHr by lia. ring.
Qed.

Lemma dot_vscale : forall r k x, dot r (vscale k x) = k * dot r x.
Proof.
  unfold vscale. induction r; destruct x; simpl; intros; try lra. rewrite IHr. ring.
Qed.

Lemma map2_zeros_r : forall (x : list R), map2 Rplus x (zeros (length x)) = x.
Proof. unfold zeros. induction x; simpl; auto. f_equal; auto; ring. Qed.

(** [linalg_solve] fails exactly on singular matrices. *)
Lemma linalg_solve_ok_iff : forall A b, square A -> length b = length A ->
  ((exists xs, linalg_solve A b = Ok xs) <->
   (forall v, length v = length A -> matvec A v = zeros (length A) -> v = zeros (length A))).
Proof.
  intros A b S L. split.
  - intros [xs H] v Lv Hv.
    destruct (linalg_solve_sound _ _ _ H) as [Lx Hx].
    assert (K : map2 Rplus xs v = xs).
    { apply (linalg_solve_unique A b); auto.
      - rewrite map2_length; lia.
      - rewrite <- Hx. unfold matvec. apply map_ext_in. intros r Hr.
        rewrite dot_vadd by lia.
        assert (dot r v = 0).
        { assert (In (dot r v) (zeros (length A))) by (rewrite <- Hv; apply (in_map (fun r => dot r v)); auto).
          apply repeat_spec in H0; auto. }
        lra. }
    assert (G : forall a b, length a = length b -> map2 Rplus a b = a -> b = zeros (length b)).
    { clear. induction a; destruct b; simpl; intros H K; auto; try discriminate.
      inversion K. unfold zeros; simpl. f_equal; [lra|]. apply IHa; auto. }
    rewrite <- Lv. apply (G xs v); auto; lia.
  - intros Inj. destruct (linalg_solve A b) as [xs|e] eqn:E; [exists xs; auto|].
    destruct (linalg_solve_err _ _ _ S L E) as [_ [v [Lv [Nv Hv]]]].
    exfalso. apply Nv. auto.
Qed.
