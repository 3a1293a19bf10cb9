(** The deformation is linear in the values and the displacements. *)
From Coq Require Import String Reals List ZArith Ascii Bool Lra Lia.
From Verif Require Import Base ProfileProofs RbfModel SolveModel BsplineModel LstsqModel TextModel ParamsModel ParamsSpec ParamsProofs ParamsProofs2 ParamsProofs3
  DeformModel DeformSpec DeformProofs DeformProofs2 DeformProofs3.
Import ListNotations.
Open Scope R_scope.

Section Linear.
Variables a b : R.

Inductive lin3 : list R -> list R -> list R -> Prop :=
| lin_nil : lin3 [] [] []
| lin_cons : forall x y u v w, lin3 u v w -> lin3 (x :: u) (y :: v) (a * x + b * y :: w).
Hint Constructors lin3 : core.

Lemma lin_cons' : forall x y z u v w, z = a * x + b * y -> lin3 u v w -> lin3 (x :: u) (y :: v) (z :: w).
Proof. intros x y z u v w -> H. auto. Qed.
Lemma lin_combination : forall u v w, lin3 u v w <-> combination a b u v w.
Proof.
  intros u v w. split.
  - induction 1 as [|x y u v w H (L1 & L2 & N)]; [split; [|split]; auto; intros i L; inversion L|].
    split; [cbn; congruence|]. split; [cbn; congruence|]. intros [|i] L; [reflexivity|]. cbn [nth]. apply N. cbn in L. lia.
  - revert u v. induction w as [|z w IH]; intros u v (L1 & L2 & N); destruct u as [|x u], v as [|y v]; try discriminate; auto.
    apply lin_cons'; [apply (N 0%nat); cbn; lia|]. apply IH. split; [cbn in L1; lia|]. split; [cbn in L2; lia|]. intros i L. apply (N (S i)). cbn. lia.
Qed.
Lemma lin_length : forall u v w, lin3 u v w -> List.length u = List.length w /\ List.length v = List.length w.
Proof. intros u v w H. apply lin_combination in H as (A & B & _). auto. Qed.

Lemma lin_zeros : forall n, lin3 (zeros n) (zeros n) (zeros n).
Proof. induction n; cbn; auto. apply lin_cons'; [lra|exact IHn]. Qed.
Lemma dot_lin : forall c u v w, lin3 u v w -> dot c w = a * dot c u + b * dot c v.
Proof.
  intros c u v w H. revert c. induction H as [|x y u v w H IH]; intros [|z c]; unfold dot in *; cbn [map2 fold_right]; try lra.
  specialize (IH c). rewrite IH. lra.
Qed.
Lemma dot_lin_l : forall c u v w, lin3 u v w -> dot w c = a * dot u c + b * dot v c.
Proof.
  intros c u v w H. revert c. induction H as [|x y u v w H IH]; intros [|z c]; unfold dot in *; cbn [map2 fold_right]; try lra.
  specialize (IH c). rewrite IH. lra.
Qed.
Lemma lin_plus : forall u v w u' v' w', lin3 u v w -> lin3 u' v' w' -> lin3 (map2 Rplus u u') (map2 Rplus v v') (map2 Rplus w w').
Proof.
  intros u v w u' v' w' H. revert u' v' w'. induction H; intros u' v' w' H'; destruct H'; cbn [map2]; auto. apply lin_cons'; [lra|auto].
Qed.
Lemma lin_vscale : forall k l r, lin3 (vscale k r) (vscale l r) (vscale (a * k + b * l) r).
Proof. intros k l. unfold vscale. induction r as [|x r IH]; cbn; auto. apply lin_cons'; [lra|exact IH]. Qed.
Lemma lin_map : forall {A} (f g h : A -> R) l, (forall x, In x l -> h x = a * f x + b * g x) -> lin3 (map f l) (map g l) (map h l).
Proof. intros A f g h. induction l as [|x l IH]; intros H; cbn; auto. apply lin_cons'; [apply H; left; reflexivity|apply IH; intros; apply H; right; assumption]. Qed.

(** Equations with the same coefficients. *)
Inductive rows3 : list row -> list row -> list row -> Prop :=
| rows_nil : rows3 [] [] []
| rows_cons : forall c x y u v w, rows3 u v w -> rows3 ((c, x) :: u) ((c, y) :: v) ((c, a * x + b * y) :: w).
Hint Constructors rows3 : core.
Lemma rows_cons' : forall c x y z u v w, z = a * x + b * y -> rows3 u v w -> rows3 ((c, x) :: u) ((c, y) :: v) ((c, z) :: w).
Proof. intros c x y z u v w -> H. auto. Qed.
Lemma rows_combine : forall cs u v w, lin3 u v w -> rows3 (combine cs u) (combine cs v) (combine cs w).
Proof. intros cs u v w H. revert cs. induction H; intros [|c cs]; cbn; auto. Qed.

Lemma reduce_rows : forall c x y u v w, rows3 u v w ->
  rows3 (map (reduce (c, x)) u) (map (reduce (c, y)) v) (map (reduce (c, a * x + b * y)) w).
Proof. intros c x y u v w H. induction H; cbn [map]; auto. unfold reduce at 1 3 5. cbn [fst snd]. apply rows_cons'; [lra|assumption]. Qed.
Lemma min_norm_lin : forall n f u v w, rows3 u v w -> lin3 (min_norm n f u) (min_norm n f v) (min_norm n f w).
Proof.
  intros n. induction f as [|f IH]; intros u v w H; [destruct H; apply lin_zeros|]. destruct H as [|c x y u v w H]; [apply lin_zeros|].
  cbn [min_norm]. destruct (Req_EM_T (dot c c) 0); [auto|]. apply lin_plus; [apply IH, reduce_rows, H|].
  replace ((a * x + b * y) / dot c c) with (a * (x / dot c c) + b * (y / dot c c)) by (field; assumption). apply lin_vscale.
Qed.
Lemma lstsq_lin : forall cols u v w, lin3 u v w -> lin3 (lstsq cols u) (lstsq cols v) (lstsq cols w).
Proof.
  intros cols u v w H. destruct (lin_length _ _ _ H) as (L1 & L2). unfold lstsq. rewrite L1, L2. apply min_norm_lin, rows_combine, min_norm_lin.
  clear L1 L2. induction cols as [|c cols IH]; cbn [map]; auto. apply rows_cons'; [apply dot_lin, H|exact IH].
Qed.

Lemma eliminate_rows : forall c x y u v w, rows3 u v w ->
  rows3 (map (eliminate (c, x)) u) (map (eliminate (c, y)) v) (map (eliminate (c, a * x + b * y)) w).
Proof. intros c x y u v w H. induction H; cbn [map]; auto. unfold eliminate at 1 3 5. unfold lead. cbn [fst snd]. apply rows_cons'; [lra|assumption]. Qed.
Lemma pivot_rows : forall u v w, rows3 u v w ->
  (pick_pivot u = None /\ pick_pivot v = None /\ pick_pivot w = None) \/
  exists c x y u' v' w', rows3 u' v' w' /\ pick_pivot u = Some ((c, x), u') /\ pick_pivot v = Some ((c, y), v') /\ pick_pivot w = Some ((c, a * x + b * y), w').
Proof.
  intros u v w H. induction H as [|c x y u v w H IH]; [left; auto|]. right. cbn [pick_pivot].
  destruct IH as [(-> & -> & ->)|(c' & x' & y' & u' & v' & w' & H' & -> & -> & ->)].
  - exists c, x, y, [], [], []. auto.
  - unfold lead. cbn [fst]. destruct (Rlt_dec (Rabs (hd 0 c)) (Rabs (hd 0 c'))).
    + exists c', x', y', ((c, x) :: u'), ((c, y) :: v'), ((c, a * x + b * y) :: w'). auto.
    + exists c, x, y, ((c', x') :: u'), ((c', y') :: v'), ((c', a * x' + b * y') :: w'). auto.
Qed.

(** The same outcome for all three. *)
Definition same3 {A} (P : A -> A -> A -> Prop) (r s t : res A) : Prop :=
  match r, s, t with
  | Ok x, Ok y, Ok z => P x y z
  | Err e, Err e', Err e'' => e' = e /\ e'' = e
  | _, _, _ => False
  end.
Lemma same3_bind : forall {A B} (P : A -> A -> A -> Prop) (Q : B -> B -> B -> Prop) r s t f g h,
  same3 P r s t -> (forall x y z, P x y z -> same3 Q (f x) (g y) (h z)) -> same3 Q (bind r f) (bind s g) (bind t h).
Proof. intros A B P Q [x|e] [y|e'] [z|e''] f g h H K; cbn in *; try contradiction; auto. Qed.
Lemma same3_refl : forall {A} (P : A -> A -> A -> Prop) r, (forall x, P x x x) -> same3 P r r r.
Proof. intros A P [x|e] H; cbn; auto. Qed.

Lemma gauss_lin : forall n u v w, rows3 u v w -> same3 lin3 (gauss n u) (gauss n v) (gauss n w).
Proof.
  induction n as [|n IH]; intros u v w H; cbn [gauss]; [cbn; auto|].
  destruct (pivot_rows _ _ _ H) as [(-> & -> & ->)|(c & x & y & u' & v' & w' & H' & -> & -> & ->)]; [cbn; auto|].
  unfold lead. cbn [fst]. destruct (Req_EM_T (hd 0 c) 0) as [Z|Z]; [cbn; auto|].
  eapply same3_bind; [apply IH, eliminate_rows, H'|]. cbv beta. intros p q r L. cbn [same3 snd fst]. apply lin_cons'; [|exact L].
  rewrite (dot_lin _ _ _ _ L). field. exact Z.
Qed.
Lemma solve_lin : forall A u v w, lin3 u v w -> same3 lin3 (linalg_solve A u) (linalg_solve A v) (linalg_solve A w).
Proof.
  intros A u v w H. destruct (lin_length _ _ _ H) as (L1 & L2). unfold linalg_solve. rewrite L1, L2. destruct (forallb _ A); [|cbn; auto].
  destruct (Nat.eqb (List.length w) (List.length A)); [|cbn; auto]. apply gauss_lin, rows_combine, H.
Qed.
Lemma accumulate_lin : forall W p q r u v w, lin3 p q r -> lin3 u v w -> same3 lin3 (accumulate p W u) (accumulate q W v) (accumulate r W w).
Proof.
  induction W as [|x W IH]; intros p q r u v w L H; cbn [accumulate]; [destruct H; cbn; auto|]. destruct H as [|s t u v w H]; [cbn; auto|].
  eapply same3_bind; [apply IH; eassumption|]. cbv beta. intros p' q' r' L'. cbn [same3]. apply lin_cons'; [|exact L'].
  rewrite (dot_lin_l _ _ _ _ L). lra.
Qed.
Lemma reconstruct_lin : forall X xx o n radius u v w, lin3 u v w ->
  same3 lin3 (reconstruct_1d X u xx (zeros o) n radius) (reconstruct_1d X v xx (zeros o) n radius) (reconstruct_1d X w xx (zeros o) n radius).
Proof.
  intros X xx o n radius u v w H. unfold reconstruct_1d, reconstruct_f. destruct (basis_of_name n) as [bs|]; [|cbn; auto]. cbn [bind].
  destruct (weights_matrix bs radius (column X) (column X)) as [A|]; [|cbn; auto]. cbn [bind].
  eapply same3_bind; [apply solve_lin, H|]. cbv beta. intros p q r L. destruct (weights_matrix bs radius (column xx) (column X)); [|cbn; auto]. cbn [bind].
  destruct (column X); [cbn; apply lin_zeros|]. apply accumulate_lin; [exact L|apply lin_zeros].
Qed.

(** ** Control points *)
Definition num3 (x y z : R) : Prop := z = a * x + b * y.
Lemma first_lin : forall u v w, lin3 u v w -> same3 num3 (first u) (first v) (first w).
Proof. intros u v w []; cbn; unfold num3; auto. Qed.
Lemma final_lin : forall u v w, lin3 u v w -> same3 num3 (final u) (final v) (final w).
Proof.
  intros u v w H. induction H as [|x y u v w H IH]; [cbn; auto|]. destruct H; [cbn; unfold num3; auto|]. exact IH.
Qed.
Lemma vzip_lin : forall u v w p q r c, lin3 u v w -> num3 p q r ->
  same3 lin3 (vzip (fun x k => x - k * p) u c) (vzip (fun x k => x - k * q) v c) (vzip (fun x k => x - k * r) w c).
Proof.
  intros u v w p q r c H N. unfold num3 in N. destruct (lin_length _ _ _ H) as (L1 & L2). unfold vzip. rewrite L1, L2.
  destruct (Nat.eqb (List.length w) (List.length c)); [|cbn; auto]. cbn [same3]. clear L1 L2. revert c. induction H; intros [|k c]; cbn [map2]; auto.
  apply lin_cons'; [subst r; lra|auto].
Qed.
Lemma fit_lin : forall inner c0 cn u v w, lin3 u v w -> same3 lin3 (fit inner c0 cn u) (fit inner c0 cn v) (fit inner c0 cn w).
Proof.
  intros inner c0 cn u v w H. unfold fit. eapply same3_bind; [apply first_lin, H|]. cbv beta. intros p q r N.
  eapply same3_bind; [apply final_lin, H|]. cbv beta. intros p' q' r' N'.
  eapply same3_bind; [apply vzip_lin; eassumption|]. cbv beta. intros u' v' w' H'.
  eapply same3_bind; [apply vzip_lin; eassumption|]. cbv beta. intros u2 v2 w2 H2. cbn [same3]. apply lstsq_lin, H2.
Qed.

(** Points with the same abscissae. *)
Definition pts3 (p q r : list pt) : Prop := map fst p = map fst r /\ map fst q = map fst r /\ lin3 (map snd p) (map snd q) (map snd r).
Lemma pts_length : forall p q r, pts3 p q r -> List.length p = List.length r /\ List.length q = List.length r.
Proof. intros p q r (A & B & _). apply (f_equal (@List.length R)) in A, B. rewrite !map_length in A, B. auto. Qed.
Lemma pts_combine : forall xs u v w, lin3 u v w -> pts3 (combine xs u) (combine xs v) (combine xs w).
Proof.
  intros xs u v w H. revert xs. induction H as [|x y u v w H IH]; intros [|s xs]; cbn [combine]; try (repeat split; constructor).
  destruct (IH xs) as (A & B & C). split; [cbn [map fst]; congruence|]. split; [cbn [map fst]; congruence|]. cbn [map snd]. auto.
Qed.
Lemma lin_app : forall u v w u' v' w', lin3 u v w -> lin3 u' v' w' -> lin3 (u ++ u') (v ++ v') (w ++ w').
Proof. intros u v w u' v' w' H H'. induction H; cbn [app]; auto. Qed.
Lemma pts_app : forall p q r p' q' r', pts3 p q r -> pts3 p' q' r' -> pts3 (p ++ p') (q ++ q') (r ++ r').
Proof.
  intros p q r p' q' r' (A & B & C) (A' & B' & C'). unfold pts3 in *. rewrite !map_app. split; [apply f_equal2; assumption|]. split; [apply f_equal2; assumption|].
  apply lin_app; assumption.
Qed.
Lemma pts_one : forall x p q r, num3 p q r -> pts3 [(x, p)] [(x, q)] [(x, r)].
Proof. intros x p q r N. unfold pts3. cbn [map fst snd]. split; [auto|]. split; [auto|]. apply lin_cons'; auto. Qed.

Lemma optimum_lin : forall X u v w g n rbf, lin3 u v w ->
  same3 pts3 (optimum_control_points X u g n rbf) (optimum_control_points X v g n rbf) (optimum_control_points X w g n rbf).
Proof.
  intros X u v w g n rbf H. unfold optimum_control_points.
  apply (same3_bind (fun p q r => fst p = fst r /\ fst q = fst r /\ lin3 (snd p) (snd q) (snd r))).
  - unfold fit_data. destruct (0 <? rbf_count rbf)%Z; [|cbn; auto]. destruct (first X) as [x0|]; [|cbn; auto]. destruct (final X) as [x1|]; [|cbn; auto]. cbn [bind].
    eapply same3_bind; [apply reconstruct_lin, H|]. cbv beta. intros p q r L. cbn. auto.
  - intros (X1, u1) (X2, v1) (X3, w1) (E1 & E2 & H1). cbn [fst snd] in *. subst X1 X2. destruct (n <? 2)%Z; [cbn; auto|].
    destruct (mapM _ _) as [A|]; [|cbn; auto]. cbn [bind]. destruct (first A) as [c0|]; [|cbn; auto]. cbn [bind]. destruct (final A) as [cn|]; [|cbn; auto]. cbn [bind].
    destruct (fit _ c0 cn X3) as [xs|]; [|cbn; auto]. cbn [bind]. eapply same3_bind; [apply fit_lin, H1|]. cbv beta. intros p q r L.
    destruct (first X3) as [x0|]; [|cbn; auto]. cbn [bind]. destruct (final X3) as [x1|]; [|cbn; auto]. cbn [bind].
    eapply same3_bind; [apply first_lin, H1|]. cbv beta. intros p0 q0 r0 N0. eapply same3_bind; [apply final_lin, H1|]. cbv beta. intros p1 q1 r1 N1.
    cbn [same3]. unfold with_ends. apply (pts_app [_] [_] [_]); [apply pts_one, N0|]. apply pts_app; [apply pts_combine, L|apply pts_one, N1].
Qed.

Lemma displace_lin : forall p q r u v w, pts3 p q r -> lin3 u v w ->
  pts3 (map2 (fun (p : pt) (y : R) => (fst p, snd p + y) : pt) p u) (map2 (fun (p : pt) (y : R) => (fst p, snd p + y) : pt) q v) (map2 (fun (p : pt) (y : R) => (fst p, snd p + y) : pt) r w).
Proof.
  intros p q r u v w (A & B & C) H. revert p q r A B C. induction H as [|s t u v w H IH]; intros [|(x1, y1) p] [|(x2, y2) q] [|(x3, y3) r] A B C; cbn [map2]; 
    try discriminate; try (repeat split; constructor). cbn [map fst snd] in *. injection A as -> A. injection B as -> B. inversion C; subst.
  destruct (IH p q r A B ltac:(assumption)) as (A' & B' & C'). split; [cbn [map fst]; congruence|]. split; [cbn [map fst]; congruence|]. cbn [map snd].
  apply lin_cons'; [lra|exact C'].
Qed.
Lemma skipn_lin : forall n u v w, lin3 u v w -> lin3 (skipn n u) (skipn n v) (skipn n w).
Proof. induction n as [|n IH]; intros u v w H; [exact H|]. destruct H; cbn [skipn]; auto. Qed.
Lemma bspline_lin : forall p q r n g, pts3 p q r -> same3 pts3 (bspline2 p n g) (bspline2 q n g) (bspline2 r n g).
Proof.
  intros p q r n g (A & B & C). unfold bspline2. rewrite A, B. destruct (bspline1 (map fst r) n g) as [xs|]; [|cbn; auto]. cbn [bind].
  apply (same3_bind lin3); [|intros; cbn [same3]; apply pts_combine; assumption].
  destruct (lin_length _ _ _ C) as (L1 & L2). unfold bspline1. rewrite L1, L2. destruct (n <? 0)%Z; [cbn; auto|]. destruct (g <? 0)%Z; [cbn; auto|].
  destruct (_ && _)%bool; [|cbn; auto]. cbn [same3]. apply lin_map. intros x _. unfold splev1. rewrite L1, L2. apply dot_lin_l, skipn_lin, C.
Qed.

(** ** Samples *)
Lemma near_lin : forall p q r x tol, pts3 p q r -> 
  (near p x tol = None /\ near q x tol = None /\ near r x tol = None) \/
  exists s t y1 y2, near p x tol = Some (s, y1) /\ near q x tol = Some (s, y2) /\ near r x tol = Some (s, t) /\ t = a * y1 + b * y2.
Proof.
  induction p as [|(x1, y1) p IH]; intros [|(x2, y2) q] [|(x3, y3) r] x tol (A & B & C); try discriminate; [left; auto|].
  cbn [map fst snd] in *. injection A as -> A. injection B as -> B. inversion C; subst. cbn [near fst].
  destruct (Rlt_dec (Rabs (x3 - x)) tol); [right; exists x3, (a * y1 + b * y2), y1, y2; auto|]. apply IH. repeat split; assumption.
Qed.
Lemma set_lin : forall u v w i x y, lin3 u v w -> same3 lin3 (set_item u i x) (set_item v i y) (set_item w i (a * x + b * y)).
Proof.
  intros u v w i x y H. revert i. induction H as [|s t u v w H IH]; intros i; [destruct i; cbn; auto|]. destruct i as [|i]; cbn [set_item]; [cbn; auto|].
  eapply same3_bind; [apply IH|]. cbv beta. intros p q r L. cbn [same3]. auto.
Qed.
Lemma sample_lin : forall rs p q r tol i u v w, pts3 p q r -> lin3 u v w ->
  lin3 (fst (sample_radii p tol i rs u)) (fst (sample_radii q tol i rs v)) (fst (sample_radii r tol i rs w)) /\
  snd (sample_radii p tol i rs u) = snd (sample_radii r tol i rs w) /\ snd (sample_radii q tol i rs v) = snd (sample_radii r tol i rs w).
Proof.
  induction rs as [|x rs IH]; intros p q r tol i u v w HP H; cbn [sample_radii]; [auto|].
  destruct (near_lin p q r x tol HP) as [(-> & -> & ->)|(s & t & y1 & y2 & -> & -> & -> & ->)]; [auto|]. cbn [snd].
  pose proof (set_lin _ _ _ i y1 y2 H) as S. destruct (set_item u i y1), (set_item v i y2), (set_item w i (a * y1 + b * y2)); cbn in S; try contradiction.
  - apply IH; assumption.
  - destruct S as (-> & ->). auto.
Qed.

Lemma set_middle : forall (p q : list R) x y, set_item (p ++ x :: q) (List.length p) y = Ok (p ++ y :: q).
Proof. induction p as [|z p IH]; intros q x y; [reflexivity|]. cbn [app List.length set_item]. rewrite IH. reflexivity. Qed.
(** What was in the array before does not matter. *)
Lemma sample_over : forall rs s tol p q q', List.length q = List.length rs -> List.length q' = List.length rs ->
  snd (sample_radii s tol (List.length p) rs (p ++ q)) = snd (sample_radii s tol (List.length p) rs (p ++ q')) /\
  (snd (sample_radii s tol (List.length p) rs (p ++ q')) = Ok tt ->
   fst (sample_radii s tol (List.length p) rs (p ++ q)) = fst (sample_radii s tol (List.length p) rs (p ++ q'))).
Proof.
  induction rs as [|r rs IH]; intros s tol p [|x q] [|x' q'] L L'; try discriminate; cbn [sample_radii]; [auto|].
  destruct (near s r tol) as [z|]; [|cbn; split; [reflexivity|discriminate]]. rewrite !set_middle.
  pose proof (IH s tol (p ++ [snd z]) q q' ltac:(cbn in *; lia) ltac:(cbn in *; lia)) as Q. rewrite <- !app_assoc in Q. cbn [app] in Q.
  rewrite app_length in Q. cbn [List.length] in Q. rewrite Nat.add_1_r in Q. exact Q.
Qed.

Lemma compute_one_eq : forall rbf tols d k X Y, radii R (param d) = Some X -> at_key (parameters R (param d)) k = Some Y ->
  compute_one rbf tols d k =
  match optimum_control_points X Y (at_key (degree R (param d)) k) (at_key (nbasis R (param d)) k) rbf with
  | Err e => (d, Err e)
  | Ok cv =>
      if Nat.eqb (List.length cv) (List.length (at_key (deformations R (param d)) k)) then
        let cv2 := map2 (fun (p : pt) (y : R) => (fst p, snd p + y) : pt) cv (at_key (deformations R (param d)) k) in
        let d2 := set_control (set_control d k cv) k cv2 in
        match bspline2 cv2 (at_key (npoints R (param d)) k) (at_key (degree R (param d)) k) with
        | Err e => (d2, Err e)
        | Ok s => let (v, o) := sample_radii s (at_key tols k) 0 X (at_key (deformed d) k) in (set_deformed (set_curve d2 k s) k v, o)
        end
      else (set_control d k cv, Err ValueError)
  end.
Proof.
  intros rbf tols d k X Y RX HY. unfold compute_one. unfold compute_control_points. rewrite check_name_key, RX, HY. unfold assign at 1.
  destruct (optimum_control_points _ _ _ _ _) as [cv|]; [|reflexivity]. cbn [then_do]. unfold update_control_points. rewrite check_name_key. cbn [set_control control param].
  rewrite at_same. destruct (Nat.eqb _ _); [|reflexivity]. cbn [then_do]. unfold generate_spline. rewrite check_name_key. cbn [set_control control param]. rewrite at_same.
  unfold assign. destruct (bspline2 _ _ _) as [s|]; [|reflexivity]. cbn [then_do]. unfold compute_deformed_parameters. rewrite check_name_key.
  cbn [set_control set_curve curve control param deformed]. rewrite at_same, RX. reflexivity.
Qed.

(** The results for [k] are combinations. *)
Definition mixed (d e f : deform) (k : key) : Prop :=
  combination a b (at_key (deformed d) k) (at_key (deformed e) k) (at_key (deformed f) k) /\
  exists p q r s t u, at_key (control d) k = Some p /\ at_key (control e) k = Some q /\ at_key (control f) k = Some r /\ pts3 p q r /\
    at_key (curve d) k = Some s /\ at_key (curve e) k = Some t /\ at_key (curve f) k = Some u /\ pts3 s t u.

Lemma compute_one_lin : forall rbf tols k d e f, sound d -> sound e -> sound f -> mixture a b d e f k ->
  snd (compute_one rbf tols d k) = snd (compute_one rbf tols f k) /\ snd (compute_one rbf tols e k) = snd (compute_one rbf tols f k) /\
  (snd (compute_one rbf tols f k) = Ok tt -> mixed (fst (compute_one rbf tols d k)) (fst (compute_one rbf tols e k)) (fst (compute_one rbf tols f k)) k).
Proof.
  intros rbf tols k d e f Sd Se Sf ((A1 & A2 & A3 & A4) & (B1 & B2 & B3 & B4) & CP & CD).
  destruct (sound_data _ Sd) as (X & RX & _ & Kd). destruct (Kd k) as (Yd & Pd & _ & _ & _ & Ld).
  destruct (sound_data _ Se) as (Xe & RXe & _ & Ke). destruct (Ke k) as (Ye & Pe & _ & _ & _ & Le).
  destruct (sound_data _ Sf) as (Xf & RXf & _ & Kf). destruct (Kf k) as (Yf & Pf & _ & _ & _ & Lf).
  assert (Xe = X) by congruence. assert (Xf = X) by congruence. subst Xe Xf.
  rewrite Pd, Pe, Pf in CP. cbn [or_empty] in CP. apply lin_combination in CP, CD.
  rewrite (compute_one_eq rbf tols d k X Yd RX Pd), (compute_one_eq rbf tols e k X Ye RXe Pe), (compute_one_eq rbf tols f k X Yf RXf Pf).
  rewrite A2, A3, A4, B2, B3, B4.
  set (g := at_key (degree R (param f)) k). set (n := at_key (nbasis R (param f)) k). set (m := at_key (npoints R (param f)) k).
  pose proof (optimum_lin X _ _ _ g n rbf CP) as O.
  destruct (optimum_control_points X Yd g n rbf) as [p|], (optimum_control_points X Ye g n rbf) as [q|], (optimum_control_points X Yf g n rbf) as [r|]; cbn [same3] in O; try contradiction;
    [|destruct O as (-> & ->); cbn [fst snd]; split; [reflexivity|]; split; [reflexivity|discriminate]].
  destruct (pts_length _ _ _ O) as (-> & ->). destruct (lin_length _ _ _ CD) as (-> & ->).
  destruct (Nat.eqb _ _); [|cbn [fst snd]; split; [reflexivity|]; split; [reflexivity|discriminate]]. cbv zeta.
  pose proof (displace_lin _ _ _ _ _ _ O CD) as O2. set (p2 := map2 _ p _) in *. set (q2 := map2 _ q _) in *. set (r2 := map2 _ r _) in *.
  pose proof (bspline_lin _ _ _ m g O2) as O3.
  destruct (bspline2 p2 m g) as [s|], (bspline2 q2 m g) as [t|], (bspline2 r2 m g) as [u|]; cbn [same3] in O3; try contradiction;
    [|destruct O3 as (-> & ->); cbn [fst snd]; split; [reflexivity|]; split; [reflexivity|discriminate]].
  set (tol := at_key tols k). set (z := zeros (List.length X)). assert (LZ : List.length z = List.length X) by apply repeat_length.
  destruct (sample_over X s tol [] (at_key (deformed d) k) z Ld LZ) as (Q1 & Q2). destruct (sample_over X t tol [] (at_key (deformed e) k) z Le LZ) as (Q3 & Q4).
  destruct (sample_over X u tol [] (at_key (deformed f) k) z Lf LZ) as (Q5 & Q6). cbn [app List.length] in Q1, Q2, Q3, Q4, Q5, Q6.
  destruct (sample_lin X s t u tol 0 z z z O3 (lin_zeros _)) as (W1 & W2 & W3).
  destruct (sample_radii s tol 0 X (at_key (deformed d) k)) as [vd od]. destruct (sample_radii t tol 0 X (at_key (deformed e) k)) as [ve oe].
  destruct (sample_radii u tol 0 X (at_key (deformed f) k)) as [vf of]. cbn [fst snd] in *.
  split; [congruence|]. split; [congruence|]. intros ->. unfold mixed. cbn [set_deformed set_curve set_control deformed curve control]. rewrite !at_same.
  split; [|exists p2, q2, r2, s, t, u; split; [reflexivity|]; split; [reflexivity|]; split; [reflexivity|]; split; [exact O2|]; split; [reflexivity|]; split; [reflexivity|]; split; [reflexivity|exact O3]].
  apply lin_combination. rewrite Q2, Q4, Q6 by congruence. exact W1.
Qed.

Lemma one_sound : forall rbf tols d k, sound d -> sound (fst (compute_one rbf tols d k)).
Proof.
  intros rbf tols d k S. apply compute_one_inv; auto; intros; apply sound_calls; assumption.
Qed.
Lemma mixture_param : forall d e f d' e' f' k, param d' = param d -> param e' = param e -> param f' = param f -> mixture a b d e f k -> mixture a b d' e' f' k.
Proof. intros d e f d' e' f' k Q1 Q2 Q3. unfold mixture, same_settings. rewrite Q1, Q2, Q3. auto. Qed.
Lemma mixed_frame : forall d e f d' e' f' j k, j <> k -> same_elsewhere k d d' -> same_elsewhere k e e' -> same_elsewhere k f f' -> mixed d e f j -> mixed d' e' f' j.
Proof.
  intros d e f d' e' f' j k N (_ & F1) (_ & F2) (_ & F3). destruct (F1 j N) as (G1 & G2 & G3). destruct (F2 j N) as (H1 & H2 & H3). destruct (F3 j N) as (I1 & I2 & I3).
  unfold mixed. rewrite G1, G2, G3, H1, H2, H3, I1, I2, I3. auto.
Qed.
Lemma compute_list_lin : forall rbf tols ks d e f, NoDup ks -> sound d -> sound e -> sound f -> (forall k, In k ks -> mixture a b d e f k) ->
  snd (compute_list rbf tols d ks) = snd (compute_list rbf tols f ks) /\ snd (compute_list rbf tols e ks) = snd (compute_list rbf tols f ks) /\
  (snd (compute_list rbf tols f ks) = Ok tt -> forall k, In k ks \/ mixed d e f k ->
     mixed (fst (compute_list rbf tols d ks)) (fst (compute_list rbf tols e ks)) (fst (compute_list rbf tols f ks)) k).
Proof.
  intros rbf tols. induction ks as [|k ks IH]; intros d e f ND Sd Se Sf M; cbn [compute_list]; [cbn [fst snd]; split; [reflexivity|]; split; [reflexivity|]; intros _ k [[]|H]; exact H|].
  inversion ND as [|? ? NI ND']; subst. destruct (compute_one_lin rbf tols k d e f Sd Se Sf (M k (or_introl eq_refl))) as (O1 & O2 & O3).
  pose proof (compute_one_frame rbf tols k d) as Fd. pose proof (compute_one_frame rbf tols k e) as Fe. pose proof (compute_one_frame rbf tols k f) as Ff.
  pose proof (one_sound rbf tols d k Sd) as Sd'. pose proof (one_sound rbf tols e k Se) as Se'. pose proof (one_sound rbf tols f k Sf) as Sf'.
  destruct (compute_one rbf tols d k) as [d' od]. destruct (compute_one rbf tols e k) as [e' oe]. destruct (compute_one rbf tols f k) as [f' of]. cbn [fst snd] in *. subst od oe.
  destruct of as [[]|er]; cbn [then_do]; [|cbn [fst snd]; split; [reflexivity|]; split; [reflexivity|discriminate]].
  destruct (IH d' e' f' ND' Sd' Se' Sf') as (P1 & P2 & P3).
  { intros j J. apply (mixture_param d e f); [apply Fd|apply Fe|apply Ff|]. apply M. right. exact J. }
  split; [exact P1|]. split; [exact P2|]. intros OK j J. apply (P3 OK). destruct (key_dec j k) as [->|N]; [right; apply O3; reflexivity|].
  destruct J as [[J|J]|J]; [congruence|left; exact J|]. right. apply (mixed_frame d e f d' e' f' j k); assumption.
Qed.
End Linear.

Lemma pts_spec : forall a b p q r, pts3 a b p q r -> map fst p = map fst r /\ map fst q = map fst r /\ combination a b (map snd p) (map snd q) (map snd r).
Proof. intros a b p q r (A & B & C). apply lin_combination in C. auto. Qed.

Theorem compute_all_linear : forall a b rbf tols d e f, sound d -> sound e -> sound f -> (forall k, mixture a b d e f k) ->
  snd (compute_all d rbf tols) = snd (compute_all f rbf tols) /\ snd (compute_all e rbf tols) = snd (compute_all f rbf tols) /\
  (snd (compute_all f rbf tols) = Ok tt -> forall k,
     let d' := fst (compute_all d rbf tols) in let e' := fst (compute_all e rbf tols) in let f' := fst (compute_all f rbf tols) in
     combination a b (at_key (deformed d') k) (at_key (deformed e') k) (at_key (deformed f') k) /\
     exists s t u, at_key (curve d') k = Some s /\ at_key (curve e') k = Some t /\ at_key (curve f') k = Some u /\
       map fst s = map fst u /\ map fst t = map fst u /\ combination a b (map snd s) (map snd t) (map snd u)).
Proof.
  intros a b rbf tols d e f Sd Se Sf M. destruct (compute_list_lin a b rbf tols keys d e f keys_nodup Sd Se Sf) as (P1 & P2 & P3); [intros; apply M|].
  split; [exact P1|]. split; [exact P2|]. intros OK k. destruct (P3 OK k) as (Q1 & p & q & r & s & t & u & _ & _ & _ & _ & E1 & E2 & E3 & H).
  - left. apply in_keys.
  - cbv zeta. split; [exact Q1|]. exists s, t, u. apply pts_spec in H. unfold compute_all. tauto.
Qed.

Theorem control_linear : forall a b rbf k d e f, sound d -> sound e -> sound f -> mixture a b d e f k ->
  let c x := compute_control_points x (key_name k) rbf in
  snd (c d) = snd (c f) /\ snd (c e) = snd (c f) /\
  (snd (c f) = Ok tt -> exists p q r, at_key (control (fst (c d))) k = Some p /\ at_key (control (fst (c e))) k = Some q /\ at_key (control (fst (c f))) k = Some r /\
     map fst p = map fst r /\ map fst q = map fst r /\ combination a b (map snd p) (map snd q) (map snd r)).
Proof.
  intros a b rbf k d e f Sd Se Sf ((A1 & A2 & A3 & A4) & (B1 & B2 & B3 & B4) & CP & CD).
  destruct (sound_data _ Sd) as (X & RX & _ & Kd). destruct (Kd k) as (Yd & Pd & _).
  destruct (sound_data _ Se) as (Xe & RXe & _ & Ke). destruct (Ke k) as (Ye & Pe & _).
  destruct (sound_data _ Sf) as (Xf & RXf & _ & Kf). destruct (Kf k) as (Yf & Pf & _).
  assert (Xe = X) by congruence. assert (Xf = X) by congruence. subst Xe Xf.
  rewrite Pd, Pe, Pf in CP. cbn [or_empty] in CP. apply lin_combination in CP.
  cbv zeta. unfold compute_control_points. rewrite check_name_key, RX, RXe, RXf, Pd, Pe, Pf, A2, A3, B2, B3.
  set (g := at_key (degree R (param f)) k). set (n := at_key (nbasis R (param f)) k).
  pose proof (optimum_lin a b X _ _ _ g n rbf CP) as O.
  destruct (optimum_control_points X Yd g n rbf) as [p|], (optimum_control_points X Ye g n rbf) as [q|], (optimum_control_points X Yf g n rbf) as [r|]; cbn [same3] in O; try contradiction; cbn [assign fst snd];
    [|destruct O as (-> & ->); split; [reflexivity|]; split; [reflexivity|discriminate]].
  split; [reflexivity|]. split; [reflexivity|]. intros _. exists p, q, r. cbn [set_control control]. rewrite !at_same. split; [reflexivity|]. split; [reflexivity|]. split; [reflexivity|].
  apply pts_spec, O.
Qed.
