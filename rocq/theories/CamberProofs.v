(** Proofs about the camber curve. *)
From Coq Require Import Reals List Bool Lra Lia.
From Verif Require Import Base PathModel BladeModel BladeSpec ReverseModel CamberModel CamberSpec.
Import ListNotations.
Open Scope R_scope.

Lemma distance3_dist : forall a b, distance3 a b = dist3 a b.
Proof. intros [[x y] z] [[u v] w]. unfold distance3, dist3, norm3, dot3, sub3. reflexivity. Qed.
Lemma dist3_sym : forall a b, dist3 a b = dist3 b a.
Proof. intros [[x y] z] [[u v] w]. unfold dist3, norm3, dot3, sub3. f_equal. ring. Qed.
Lemma sum3_zero : forall a b c, a * a + b * b + c * c = 0 -> a = 0 /\ b = 0 /\ c = 0.
Proof.
  intros a b c H. pose proof (Rle_0_sqr a). pose proof (Rle_0_sqr b). pose proof (Rle_0_sqr c). unfold Rsqr in *.
  assert (a * a = 0) by lra. assert (b * b = 0) by lra. assert (c * c = 0) by lra.
  repeat split; match goal with H : ?x * ?x = 0 |- ?x = 0 => apply Rmult_integral in H; tauto end.
Qed.
Lemma sum3_nonneg : forall a b c, 0 <= a * a + b * b + c * c.
Proof. intros a b c. pose proof (Rle_0_sqr a). pose proof (Rle_0_sqr b). pose proof (Rle_0_sqr c). unfold Rsqr in *. lra. Qed.
Lemma dist3_zero : forall a b, dist3 a b = 0 <-> a = b.
Proof.
  intros [[x y] z] [[u v] w]. unfold dist3, norm3, dot3, sub3. split.
  - intros H. apply sqrt_eq_0 in H; [|apply sum3_nonneg]. apply sum3_zero in H. destruct H as (? & ? & ?).
    f_equal; [f_equal|]; lra.
  - intros E. injection E as -> -> ->. replace ((u - u) * (u - u) + (v - v) * (v - v) + (w - w) * (w - w)) with 0 by ring. apply sqrt_0.
Qed.

Lemma scan_vertices_spec : forall p tol l o,
  (exists v, scan_vertices p tol l o = Some v /\ last_close p tol l v) \/ (none_close p tol l /\ scan_vertices p tol l o = o).
Proof.
  intros p tol l. induction l as [|a l IH]; intros o; cbn [scan_vertices].
  - right. split; [constructor | reflexivity].
  - rewrite distance3_dist. destruct (Rlt_dec (dist3 a p) tol) as [H|H].
    + left. destruct (IH (Some a)) as [(v & E & (l1 & l2 & L & C & F))|[N E]].
      * exists v. split; [exact E|]. exists (a :: l1), l2. split; [rewrite L; reflexivity | split; assumption].
      * exists a. split; [exact E|]. exists [], l. split; [reflexivity | split; assumption].
    + destruct (IH o) as [(v & E & (l1 & l2 & L & C & F))|[N E]].
      * left. exists v. split; [exact E|]. exists (a :: l1), l2. split; [rewrite L; reflexivity | split; assumption].
      * right. split; [constructor; [lra | exact N] | exact E].
Qed.
Lemma last_close_unique : forall p tol l v v', last_close p tol l v -> last_close p tol l v' -> v = v'.
Proof.
  intros p tol l. induction l as [|a l IH]; intros v v' (l1 & l2 & L & C & F) (m1 & m2 & M & D & G).
  - destruct l1; discriminate.
  - destruct l1 as [|x l1], m1 as [|y m1]; cbn in L, M; injection L as -> L; injection M as M0 M.
    + exact M0.
    + subst l2. subst l. rewrite Forall_forall in F. specialize (F v' ltac:(apply in_elt)). lra.
    + subst m2 x. subst l. rewrite Forall_forall in G. specialize (G v ltac:(apply in_elt)). lra.
    + apply IH; [exists l1, l2 | exists m1, m2]; auto.
Qed.
Lemma last_none : forall p tol l v, last_close p tol l v -> ~ none_close p tol l.
Proof.
  intros p tol l v (l1 & l2 & -> & C & F) N. unfold none_close in N. rewrite Forall_forall in N.
  specialize (N v ltac:(apply in_elt)). lra.
Qed.

Lemma scan_solutions_spec : forall p l best o,
  (exists v, scan_solutions p l best o = Some v /\ first_nearest p l v /\ dist3 v p < best) \/
  (Forall (fun x => best <= dist3 x p) l /\ scan_solutions p l best o = o).
Proof.
  intros p l. induction l as [|a l IH]; intros best o; cbn [scan_solutions].
  - right. split; [constructor | reflexivity].
  - rewrite distance3_dist, dist3_sym. destruct (Rlt_dec (dist3 a p) best) as [H|H].
    + left. destruct (IH (dist3 a p) (Some a)) as [(v & E & (l1 & l2 & L & C & F) & B)|[N E]].
      * exists v. split; [exact E|]. split; [|lra]. exists (a :: l1), l2. split; [rewrite L; reflexivity|]. split; [constructor; assumption | exact F].
      * exists a. split; [exact E|]. split; [|lra]. exists [], l. split; [reflexivity|]. split; [constructor | exact N].
    + destruct (IH best o) as [(v & E & (l1 & l2 & L & C & F) & B)|[N E]].
      * left. exists v. split; [exact E|]. split; [|lra]. exists (a :: l1), l2. split; [rewrite L; reflexivity|]. split; [constructor; [lra | exact C] | exact F].
      * right. split; [constructor; [lra | exact N] | exact E].
Qed.
Lemma first_nearest_unique : forall p l v v', first_nearest p l v -> first_nearest p l v' -> v = v'.
Proof.
  intros p l. induction l as [|a l IH]; intros v v' (l1 & l2 & L & C & F) (m1 & m2 & M & D & G).
  - destruct l1; discriminate.
  - destruct l1 as [|x l1], m1 as [|y m1]; cbn in L, M; injection L as -> L; injection M as M0 M.
    + exact M0.
    + subst l2 y. subst l. rewrite Forall_forall in F. specialize (F v' ltac:(apply in_elt)). inversion D; subst. lra.
    + subst m2 x. subst l. rewrite Forall_forall in G. specialize (G v ltac:(apply in_elt)). inversion C; subst. lra.
    + inversion C; inversion D; subst. apply IH; [exists l1, l2 | exists m1, m2]; auto.
Qed.

Lemma far_value : far = 100000000. Proof. unfold far. lra. Qed.
Lemma find_leading_iff : forall w c v, let p := start_of c in
  find_leading w p (c_length c / 400) (backward c) = Some v <-> found_at_start w c v.
Proof.
  intros w c v p. unfold find_leading, found_at_start. fold p.
  destruct (scan_vertices_spec p (c_length c / 400) (w_vertices w) None) as [(x & E & L)|[N E]]; rewrite E.
  - split; [intros H; injection H as <-; left; exact L|]. intros [H|(H & _)].
    + f_equal. apply (last_close_unique _ _ _ _ _ L H).
    + destruct (last_none _ _ _ _ L H).
  - rewrite far_value. destruct (scan_solutions_spec p (w_nearest w (backward c)) 100000000 None) as [(x & E' & L & B)|[M E']]; rewrite E'.
    + split; [intros H; injection H as <-; right; auto|]. intros [H|(_ & H & _)].
      * destruct (last_none _ _ _ _ H N).
      * f_equal. apply (first_nearest_unique _ _ _ _ L H).
    + split; [discriminate|]. intros [H|(_ & (l1 & l2 & L & _) & B)].
      * destruct (last_none _ _ _ _ H N).
      * rewrite L, Forall_forall in M. specialize (M v ltac:(apply in_elt)). lra.
Qed.
Lemma find_trailing_iff : forall w c v tol, find_trailing w (end_of c) tol (forward c) = Some v <-> found_at_end w c v.
Proof.
  intros w c v tol. unfold find_trailing, found_at_end. cbn [scan_vertices]. rewrite far_value.
  destruct (scan_solutions_spec (end_of c) (w_nearest w (forward c)) 100000000 None) as [(x & E' & L & B)|[M E']]; rewrite E'.
  - split; [intros H; injection H as <-; auto|]. intros [H _]. f_equal. apply (first_nearest_unique _ _ _ _ L H).
  - split; [discriminate|]. intros [(l1 & l2 & L & _) B]. rewrite L, Forall_forall in M. specialize (M v ltac:(apply in_elt)). lra.
Qed.

Lemma prolong_along : forall p v d, dot3 v v <> 0 -> prolong p (scale3 (/ sqrt (dot3 v v)) v) d = add3 p (along v (10 * d)).
Proof.
  intros [[x y] z] [[a b] c] d N. unfold prolong, along, add3, scale3, norm3. cbn [dot3] in *.
  assert (sqrt (a * a + b * b + c * c) <> 0).
  { intros H. apply sqrt_eq_0 in H; [|apply sum3_nonneg]. apply N. exact H. }
  f_equal; [f_equal|]; field; assumption.
Qed.
Lemma along_norm : forall v d, dot3 v v <> 0 -> norm3 (along v d) = Rabs d.
Proof.
  intros [[a b] c] d N. unfold along, norm3. cbn [dot3 scale3] in *. set (n := a * a + b * b + c * c) in *.
  assert (0 < n) by (pose proof (sum3_nonneg a b c); unfold n in *; lra). pose proof (sqrt_lt_R0 n H) as S.
  replace (d / sqrt n * a * (d / sqrt n * a) + d / sqrt n * b * (d / sqrt n * b) + d / sqrt n * c * (d / sqrt n * c))
    with (d * d * (n / (sqrt n * sqrt n))).
  2:{ unfold n at 1. field. lra. }
  rewrite sqrt_sqrt by lra. replace (d * d * (n / n)) with (d * d) by (field; lra).
  fold (Rsqr d). apply sqrt_Rsqr_abs.
Qed.
Lemma norm3_opp : forall v d, norm3 (sub3 v (add3 v d)) = norm3 d.
Proof. intros [[x y] z] [[a b] c]. unfold norm3, sub3, add3, dot3. f_equal. ring. Qed.
Lemma norm_nonzero : forall v, dot3 v v = 0 <-> v = (0, 0, 0).
Proof.
  intros [[a b] c]. cbn [dot3]. split.
  - intros H. apply sum3_zero in H. destruct H as (-> & -> & ->). reflexivity.
  - intros E. injection E as -> -> ->. ring.
Qed.

(** Everything that has to hold. *)
Definition sound (w : wire) (c : curve) (le te : pt3) : Prop :=
  start_der c <> (0, 0, 0) /\ end_der c <> (0, 0, 0) /\ c_first c <> c_last c /\ c_length c <> 0 /\
  found_at_start w c le /\ found_at_end w c te.
(** What the method leaves when it found [le] and [te]. *)
Definition result (c : curve) (le te : pt3) : camber :=
  if Rlt_dec (axial le) (axial te)
  then mkCamber te le (backward c) (forward c) (le, start_of c) (te, end_of c)
         (c_first c + 5 / 1000 * (c_last c - c_first c)) (c_first c + 985 / 1000 * (c_last c - c_first c))
  else mkCamber le te (backward c) (forward c) (te, end_of c) (le, start_of c)
         (c_first c + 5 / 1000 * (c_last c - c_first c)) (c_first c + 985 / 1000 * (c_last c - c_first c)).

Lemma make_edge_cases : forall p q, make_edge p q = if Req_EM_T (dist3 p q) 0 then Err RuntimeError else Ok (p, q).
Proof. intros p q. unfold make_edge. rewrite distance3_dist. reflexivity. Qed.

Lemma make_prolongation : forall p v d, dot3 v v <> 0 ->
  make_edge p (add3 p (along v d)) = if Req_EM_T d 0 then Err RuntimeError else Ok (p, add3 p (along v d)).
Proof.
  intros p v d N. rewrite make_edge_cases. unfold dist3. rewrite norm3_opp, along_norm by exact N.
  destruct (Req_EM_T d 0) as [->|D].
  - rewrite Rabs_R0. destruct Req_EM_T; [reflexivity | lra].
  - destruct Req_EM_T as [E|]; [|reflexivity]. exfalso. apply D. revert E. unfold Rabs. destruct Rcase_abs; lra.
Qed.

(** The method in normal form. *)
Lemma camber_of_cases : forall w c,
  camber_of w c =
  if Req_EM_T (dot3 (start_der c) (start_der c)) 0 then Err RuntimeError
  else if Req_EM_T (dot3 (end_der c) (end_der c)) 0 then Err RuntimeError
  else if Req_EM_T (c_first c) (c_last c) then Err RuntimeError
  else if Req_EM_T (c_length c) 0 then Err RuntimeError
  else match find_leading w (start_of c) (c_length c / 400) (backward c), find_trailing w (end_of c) (c_length c / 400) (forward c) with
       | Some le, Some te =>
           if Req_EM_T (dist3 le (start_of c)) 0 then Err RuntimeError
           else if Req_EM_T (dist3 te (end_of c)) 0 then Err RuntimeError else Ok (result c le te)
       | _, _ => Err AttributeError
       end.
Proof.
  intros w c. unfold camber_of, param_at. fold (start_of c) (end_of c) (start_der c) (end_der c).
  unfold BladeModel.gp_dir at 1. destruct (Req_EM_T (dot3 (start_der c) (start_der c)) 0) as [A|A]; [reflexivity|]. cbn [bind].
  unfold BladeModel.gp_dir at 1. destruct (Req_EM_T (dot3 (end_der c) (end_der c)) 0) as [B|B]; [reflexivity|]. cbn [bind].
  unfold make_arc. destruct (Req_EM_T (c_first c) (c_last c)) as [C|C].
  { destruct Req_EM_T as [_|N]; [reflexivity | exfalso; apply N; rewrite C; ring]. }
  destruct (Req_EM_T (c_first c + 5 / 1000 * (c_last c - c_first c)) _) as [N|_]; [exfalso; apply C; lra|]. cbn [bind fst snd].
  rewrite !prolong_along by assumption.
  replace (10 * - tolerance c) with (- (c_length c / 40)) by (unfold tolerance; field).
  replace (10 * tolerance c) with (c_length c / 40) by (unfold tolerance; field).
  replace (tolerance c) with (c_length c / 400) by (unfold tolerance; field).
  rewrite !make_prolongation by assumption.
  destruct (Req_EM_T (c_length c) 0) as [D|D].
  { destruct (Req_EM_T (- (c_length c / 40)) 0) as [_|N]; [reflexivity|]. exfalso. apply N. lra. }
  destruct (Req_EM_T (- (c_length c / 40)) 0) as [N|_]; [exfalso; apply D; lra|].
  destruct (Req_EM_T (c_length c / 40) 0) as [N|_]; [exfalso; apply D; lra|].
  cbn [bind]. fold (backward c) (forward c).
  destruct find_leading as [le|]; [|reflexivity]. destruct find_trailing as [te|]; [|reflexivity].
  unfold result. fold (axial le) (axial te). destruct (Rlt_dec (axial le) (axial te)) as [X|X]; cbv iota beta zeta; rewrite !make_edge_cases;
    destruct (Req_EM_T (dist3 le (start_of c)) 0), (Req_EM_T (dist3 te (end_of c)) 0); reflexivity.
Qed.

Lemma camber_ok_iff : forall w c k, camber_of w c = Ok k <->
  exists le te, sound w c le te /\ le <> start_of c /\ te <> end_of c /\ k = result c le te.
Proof.
  intros w c k. rewrite camber_of_cases. unfold sound. split.
  - destruct (Req_EM_T (dot3 (start_der c) (start_der c)) 0) as [|A]; [discriminate|].
    destruct (Req_EM_T (dot3 (end_der c) (end_der c)) 0) as [|B]; [discriminate|].
    destruct (Req_EM_T (c_first c) (c_last c)) as [|C]; [discriminate|].
    destruct (Req_EM_T (c_length c) 0) as [|D]; [discriminate|].
    destruct find_leading as [le|] eqn:L; [|discriminate]. destruct find_trailing as [te|] eqn:T; [|discriminate].
    apply find_leading_iff in L. apply find_trailing_iff in T.
    destruct Req_EM_T as [|E]; [discriminate|]. destruct Req_EM_T as [|F]; [discriminate|]. intros H. injection H as <-.
    exists le, te. rewrite norm_nonzero in A, B. rewrite dist3_zero in E, F. split; [tauto|]. auto.
  - intros (le & te & (A & B & C & D & L & T) & E & F & ->). rewrite <- norm_nonzero in A, B. rewrite <- dist3_zero in E, F.
    apply find_leading_iff in L. apply (find_trailing_iff w c te (c_length c / 400)) in T. cbv zeta in L. rewrite L, T.
    repeat (destruct Req_EM_T; try contradiction). reflexivity.
Qed.
Lemma camber_attribute_iff : forall w c, camber_of w c = Err AttributeError <->
  start_der c <> (0, 0, 0) /\ end_der c <> (0, 0, 0) /\ c_first c <> c_last c /\ c_length c <> 0 /\
  ((forall v, ~ found_at_start w c v) \/ (forall v, ~ found_at_end w c v)).
Proof.
  intros w c. rewrite camber_of_cases. rewrite <- !norm_nonzero. 
  destruct (Req_EM_T (dot3 (start_der c) (start_der c)) 0) as [A|A]; [split; [discriminate | intros (H & _); contradiction]|].
  destruct (Req_EM_T (dot3 (end_der c) (end_der c)) 0) as [B|B]; [split; [discriminate | intros (_ & H & _); contradiction]|].
  destruct (Req_EM_T (c_first c) (c_last c)) as [C|C]; [split; [discriminate | intros (_ & _ & H & _); contradiction]|].
  destruct (Req_EM_T (c_length c) 0) as [D|D]; [split; [discriminate | intros (_ & _ & _ & H & _); contradiction]|].
  pose proof (find_leading_iff w c) as L. cbv zeta in L. pose proof (fun v => find_trailing_iff w c v (c_length c / 400)) as T.
  destruct find_leading as [le|].
  - destruct find_trailing as [te|].
    + split.
      * destruct Req_EM_T; [discriminate|]. destruct Req_EM_T; discriminate.
      * intros (_ & _ & _ & _ & [H|H]); [destruct (H le); apply L | destruct (H te); apply T]; reflexivity.
    + split; [|reflexivity]. intros _. repeat (split; [assumption|]). right. intros v H. apply T in H. discriminate.
  - split; [|reflexivity]. intros _. repeat (split; [assumption|]). left. intros v H. apply L in H. discriminate.
Qed.
Lemma camber_errors : forall w c, is_ok (camber_of w c) \/ camber_of w c = Err RuntimeError \/ camber_of w c = Err AttributeError.
Proof.
  intros w c. rewrite camber_of_cases. do 4 (destruct Req_EM_T; [tauto|]).
  destruct find_leading; [|tauto]. destruct find_trailing; [|tauto]. do 2 (destruct Req_EM_T; [tauto|]). left. eexists; reflexivity.
Qed.
