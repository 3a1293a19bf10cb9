(** [lstsq] returns the least-squares solution of smallest norm. *)
From Coq Require Import Reals List Lra Lia.
From Verif Require Import Base SolveModel SolveProofs LstsqModel LstsqSpec.
Import ListNotations.
Open Scope R_scope.

Lemma dot_comm : forall a b, dot a b = dot b a.
Proof. induction a; destruct b; simpl; auto. rewrite IHa. ring. Qed.
Lemma dot_self_nonneg : forall a, 0 <= dot a a.
Proof. induction a; simpl; [lra|]. pose proof (Rle_0_sqr a). unfold Rsqr in H. lra. Qed.
Lemma dot_self_zero : forall a, dot a a = 0 -> a = zeros (length a).
Proof.
  induction a; simpl; intros H; auto. pose proof (Rle_0_sqr a). unfold Rsqr in H0. pose proof (dot_self_nonneg a0).
  unfold zeros. simpl. f_equal; [|apply IHa; lra]. apply Rsqr_0_uniq. unfold Rsqr. lra.
Qed.
Lemma dot_zeros_l : forall n a, dot (zeros n) a = 0.
Proof. intros. rewrite dot_comm. apply dot_zeros_r. Qed.
Lemma zeros_length : forall n, length (zeros n) = n.
Proof. intros. apply repeat_length. Qed.
Lemma dot_vadd_l : forall x y z, length x = length y -> dot (map2 Rplus x y) z = dot x z + dot y z.
Proof. intros. rewrite dot_comm, dot_vadd by auto. rewrite (dot_comm z x), (dot_comm z y). auto. Qed.
Lemma dot_vscale_l : forall k x z, dot (vscale k x) z = k * dot x z.
Proof. intros. rewrite dot_comm, dot_vscale, dot_comm. auto. Qed.
Lemma vscale_length : forall k x, length (vscale k x) = length x.
Proof. intros. apply map_length. Qed.

(** Linear combinations. *)
Lemma comb_length : forall n w vs, Forall (fun v => length v = n) vs -> length (comb n w vs) = n.
Proof.
  induction w as [|a w IH]; intros vs H; destruct vs as [|v vs]; simpl; try apply zeros_length.
  inversion H; subst. rewrite map2_length; rewrite vscale_length; auto. rewrite IH; auto.
Qed.
Lemma dot_comb_l : forall n w vs z, Forall (fun v => length v = n) vs -> dot (comb n w vs) z = dot w (map (fun v => dot v z) vs).
Proof.
  induction w as [|a w IH]; intros vs z H; destruct vs as [|v vs]; simpl; try apply dot_zeros_l.
  inversion H; subst. rewrite dot_vadd_l, dot_vscale_l, IH by (rewrite ?vscale_length, ?comb_length; auto). auto.
Qed.
Lemma dot_ext : forall x y, length x = length y -> (forall z, length z = length x -> dot x z = dot y z) -> x = y.
Proof.
  intros x y L H. assert (D : dot (map2 (fun a b => a - 1 * b) x y) (map2 (fun a b => a - 1 * b) x y) = 0).
  { rewrite dot_comb by auto. rewrite (H (map2 _ x y)); [ring|]. rewrite map2_length; auto. }
  apply dot_self_zero in D. rewrite map2_length in D by auto. clear H. revert y L D.
  induction x; destruct y; simpl; intros L D; auto; try discriminate. injection D as D1 D2.
  f_equal; [lra|]. apply IHx; auto.
Qed.

Definition rows_ok (n : nat) (rows : list row) : Prop := Forall (fun r => length (fst r) = n) rows.
Lemma reduce_ok : forall n q rows, length (fst q) = n -> rows_ok n rows -> rows_ok n (map (reduce q) rows).
Proof.
  intros n q rows Q H. unfold rows_ok in *. rewrite Forall_map. eapply Forall_impl; [|exact H]. intros p P. cbn [reduce fst] in *. rewrite map2_length; congruence.
Qed.

(** A vector in the span of the rows: orthogonal to whatever they are all
    orthogonal to. *)
Lemma min_norm_spec : forall n fuel rows y, length rows = fuel -> rows_ok n rows -> Forall (fun r => dot (fst r) y = snd r) rows ->
  let x := min_norm n fuel rows in
  length x = n /\ Forall (fun r => dot (fst r) x = snd r) rows /\
  exists w, length w = length rows /\ x = comb n w (map fst rows).
Proof.
  intros n. induction fuel as [|f IH]; intros rows y F W C x.
  - destruct rows; [|discriminate]. subst x. simpl. split; [apply zeros_length|]. split; auto. exists []. auto.
  - destruct rows as [|[r c] rest]; [discriminate|]. pose proof (Forall_inv W) as Hn. pose proof (Forall_inv_tail W) as H2. pose proof (Forall_inv C) as Hc. pose proof (Forall_inv_tail C) as H4. cbn [fst snd] in Hn, Hc. subst n c.
    injection F as F. subst x. cbn [min_norm]. destruct (Req_EM_T (dot r r) 0) as [Z|Z].
    + destruct (IH rest y F H2 H4) as (L & S & w & LW & E). apply dot_self_zero in Z.
      split; auto. split.
      * constructor; auto. cbn [fst snd]. rewrite Z, !dot_zeros_l. auto.
      * exists (0 :: w). split; [simpl; lia|]. rewrite E. cbn [map fst comb].
        apply dot_ext; rewrite ?map2_length; rewrite ?vscale_length, ?comb_length; auto;
          try (rewrite Forall_map; exact H2).
        intros z _. rewrite dot_vadd_l, dot_vscale_l; [ring|]. rewrite vscale_length, comb_length; auto. rewrite Forall_map; exact H2.
    + set (q := (r, dot r y)).
      assert (W' : rows_ok (length r) (map (reduce q) rest)) by (apply reduce_ok; auto).
      assert (C' : Forall (fun r => dot (fst r) y = snd r) (map (reduce q) rest)).
      { rewrite Forall_map. rewrite Forall_forall in *. intros p P. unfold q. cbn [reduce fst snd].
        rewrite dot_comb by (rewrite H2; auto). rewrite (H4 p P). auto. }
      destruct (IH (map (reduce q) rest) y ltac:(rewrite map_length; auto) W' C') as (L & S & w & LW & E).
      set (x1 := min_norm (length r) f (map (reduce q) rest)) in *.
      assert (OR : dot x1 r = 0).
      { rewrite E, dot_comb_l. 2:{ rewrite Forall_map. exact W'. }
        rewrite map_map. assert (ZZ : map (fun p => dot (fst p) r) (map (reduce q) rest) = zeros (length rest)).
        { unfold zeros. rewrite map_map. clear - H2 Z. induction rest as [|p rest IHr]; auto. inversion H2; subst. cbn [map length repeat].
          f_equal; [|apply IHr; auto]. unfold q. cbn [reduce fst snd]. rewrite dot_comb by auto. rewrite (dot_comm (fst p) r). field. auto. }
        rewrite ZZ. apply dot_zeros_r. }
      assert (LR : length x1 = length (vscale (dot r y / dot r r) r)) by (rewrite vscale_length; auto).
      split; [rewrite map2_length; auto|]. split.
      * constructor.
        -- cbn [fst snd]. rewrite dot_vadd, dot_vscale by auto. change (fst q) with r; change (snd q) with (dot r y). rewrite (dot_comm r x1), OR. field. auto.
        -- rewrite Forall_forall in *. intros p P. rewrite dot_vadd, dot_vscale by auto.
           pose proof (S (reduce q p) (in_map _ _ _ P)) as SP. unfold q in SP. cbn [reduce fst snd] in SP.
           rewrite dot_comb in SP by (rewrite H2; auto). rewrite (dot_comm r x1), OR in SP.
           rewrite (dot_comm (fst p) r). set (k := dot r (fst p)) in *. replace (dot r y / dot r r * k) with (k / dot r r * dot r y) by (field; auto). lra.
      * (* coefficients of the reduced rows give coefficients of the rows *)
        set (ks := map (fun p => dot r (fst p) / dot r r) rest).
        exists ((dot r y / dot r r - dot w ks) :: w). split; [simpl; rewrite map_length in LW; lia|].
        cbn [map comb fst]. apply dot_ext.
        { rewrite map2_length; auto. rewrite map2_length; rewrite ?vscale_length, ?comb_length; auto. rewrite Forall_map; auto. }
        intros z LZ. rewrite dot_vadd_l by auto. rewrite dot_vadd_l by (rewrite vscale_length, comb_length; auto; rewrite Forall_map; auto).
        rewrite !dot_vscale_l. rewrite E, dot_comb_l by (rewrite Forall_map; exact W'). rewrite dot_comb_l by (rewrite Forall_map; auto).
        rewrite !map_map.
        assert (Q : forall w, dot w (map (fun p => dot (fst (reduce q p)) z) rest) = dot w (map (fun p => dot (fst p) z) rest) - dot w ks * dot r z).
        { unfold ks. clear - H2. induction rest as [|p rest IHr]; intros w; destruct w as [|a w]; simpl; try ring. inversion H2; subst.
          rewrite IHr by auto. rewrite dot_comb by auto. ring. }
        rewrite Q. change (fst q) with r. change (snd q) with (dot r y). ring.
Qed.

Lemma nth_mapd : forall A B (f : A -> B) l i da db, (i < length l)%nat -> nth i (map f l) db = f (nth i l da).
Proof. induction l; destruct i; simpl; intros; try lia; auto. apply IHl. lia. Qed.
Lemma rows_of_length : forall m cols, length (rows_of m cols) = m.
Proof. intros. unfold rows_of. rewrite map_length, seq_length. auto. Qed.
Lemma matvec_rows : forall m cols x, Forall (fun c => length c = m) cols -> matvec (rows_of m cols) x = comb m x cols.
Proof.
  intros m cols x H. apply (nth_ext _ _ 0 0).
  - unfold matvec. rewrite map_length, rows_of_length, comb_length; auto.
  - intros i. unfold matvec. rewrite map_length, rows_of_length. intros Hi.
    rewrite (nth_mapd _ _ _ _ i nil) by (rewrite rows_of_length; auto).
    unfold rows_of. rewrite (nth_mapd _ _ _ _ i 0%nat) by (rewrite seq_length; auto). rewrite seq_nth by auto. simpl.
    clear - H Hi. revert x. induction H; intros x'; destruct x' as [|a x']; simpl; auto; try (unfold zeros; rewrite nth_repeat; auto).
    rewrite (IHForall x'). assert (G : forall (u v : list R), length u = length v -> nth i (map2 Rplus u v) 0 = nth i u 0 + nth i v 0).
    { clear. intros u. revert i. induction u; destruct v; simpl; intros; try discriminate; destruct i; auto; try lra. }
    rewrite G by (rewrite vscale_length, comb_length; auto). unfold vscale. rewrite (nth_mapd _ _ _ _ i 0) by lia. ring.
Qed.

Lemma lstsq_normal : forall cols b, Forall (fun c => length c = length b) cols ->
  let x := lstsq cols b in let m := length b in
  length x = length cols /\ Forall (fun c => dot c (comb m x cols) = dot c b) cols /\
  forall z, length z = length cols -> comb m z cols = zeros m -> dot x z = 0.
Proof.
  intros cols b H x m. subst x. unfold lstsq. fold m.
  set (eqs := map (fun c => (c, dot c b)) cols).
  assert (R1 : rows_ok m eqs) by (unfold rows_ok, eqs; rewrite Forall_map; exact H).
  assert (C1 : Forall (fun r => dot (fst r) b = snd r) eqs) by (unfold eqs; rewrite Forall_map; apply Forall_forall; auto).
  destruct (min_norm_spec m (length cols) eqs b) as (L & S & w & LW & E); auto.
  { unfold eqs. apply map_length. }
  set (pb := min_norm m (length cols) eqs) in *.
  assert (EF : map fst eqs = cols) by (unfold eqs; rewrite map_map; apply map_id).
  rewrite EF in E. 
  set (sys := combine (rows_of m cols) pb).
  assert (LR : length (rows_of m cols) = length pb) by (rewrite rows_of_length; auto).
  assert (R2 : rows_ok (length cols) sys).
  { unfold rows_ok, sys. apply Forall_forall. intros [r c] I. apply in_combine_l in I. unfold rows_of in I. apply in_map_iff in I.
    destruct I as (i & <- & _). simpl. apply map_length. }
  assert (SYS : forall x, Forall (fun r => dot (fst r) x = snd r) sys <-> comb m x cols = pb).
  { intros x. rewrite <- (matvec_rows m) by auto. unfold sys. symmetry.
    assert (G : forall A v, length A = length v -> (matvec A x = v <-> Forall (fun r : row => dot (fst r) x = snd r) (combine A v))).
    { clear. induction A; destruct v; simpl; intros; try discriminate; split; auto.
      - intros E. injection E as E1 E2. constructor; auto. apply IHA; auto.
      - intros F. inversion F; subst. f_equal; auto. apply IHA; auto. }
    apply G; auto. }
  destruct (min_norm_spec (length cols) m sys w) as (L2 & S2 & w2 & LW2 & E2); auto.
  { unfold sys. rewrite combine_length, rows_of_length. lia. }
  { apply SYS. auto. }
  set (x := min_norm (length cols) m sys) in *. split; auto. apply SYS in S2. rewrite S2. split.
  - unfold eqs in S. rewrite Forall_map in S. exact S.
  - intros z LZ Z. rewrite E2, dot_comb_l by (rewrite Forall_map; exact R2). rewrite map_map.
    assert (Q : map (fun p => dot (fst p) z) sys = zeros m).
    { rewrite <- Z, <- (matvec_rows m) by auto. unfold matvec, sys. clear - LR. revert LR. generalize pb. induction (rows_of m cols); destruct pb0; simpl; intros; try discriminate; auto. f_equal; auto. }
    rewrite Q. apply dot_zeros_r.
Qed.

Lemma comb_sub : forall m x y cols, Forall (fun c => length c = m) cols -> length x = length cols -> length y = length cols ->
  comb m (map2 Rminus y x) cols = map2 Rminus (comb m y cols) (comb m x cols).
Proof.
  intros m x y cols H LX LY. apply dot_ext.
  - rewrite comb_length by auto. rewrite map2_length; rewrite !comb_length; auto.
  - intros z _. rewrite dot_comb_l by auto.
    assert (G : forall u v t, length u = length v -> dot (map2 Rminus u v) t = dot u t - dot v t).
    { clear. induction u; destruct v; simpl; intros; try discriminate; try ring. destruct t; [ring|]. rewrite IHu by lia. ring. }
    rewrite !G; rewrite ?comb_length; auto; try lia. rewrite !dot_comb_l by auto. auto.
Qed.
Lemma dot_minus : forall u v t, length u = length v -> dot (map2 Rminus u v) t = dot u t - dot v t.
Proof. induction u; destruct v; simpl; intros; try discriminate; try ring. destruct t; [ring|]. rewrite IHu by lia. ring. Qed.
Lemma dot_minus_r : forall u v t, length u = length v -> dot t (map2 Rminus u v) = dot t u - dot t v.
Proof. intros. rewrite dot_comm, dot_minus, (dot_comm u), (dot_comm v) by auto. auto. Qed.

Lemma lstsq_optimal : forall cols b y, Forall (fun c => length c = length b) cols -> length y = length cols ->
  let x := lstsq cols b in
  length x = length cols /\ residual cols x b <= residual cols y b /\
  (residual cols y b <= residual cols x b -> dot x x <= dot y y /\ (dot y y <= dot x x -> y = x)).
Proof.
  intros cols b y H LY x. destruct (lstsq_normal cols b H) as (LX & NE & OR). fold x in LX, NE, OR. split; auto.
  unfold residual. set (m := length b) in *. set (d := map2 Rminus y x).
  assert (LD : length d = length cols) by (unfold d; rewrite map2_length; lia).
  pose proof (comb_length m x cols H) as L1. pose proof (comb_length m y cols H) as L2.
  assert (CD : comb m d cols = map2 Rminus (comb m y cols) (comb m x cols)) by (apply comb_sub; auto).
  set (ax := comb m x cols) in *. set (ay := comb m y cols) in *.
  assert (P : dot (comb m d cols) (map2 Rminus ax b) = 0).
  { rewrite dot_comb_l by auto. replace (map (fun v => dot v (map2 Rminus ax b)) cols) with (zeros (length cols)); [apply dot_zeros_r|].
    clear - NE L1. clearbody ax. unfold zeros. induction NE as [|c cols N NE IH]; simpl; auto. f_equal; auto.
    rewrite dot_minus_r by (rewrite L1; auto). lra. }
  assert (PY : dot (map2 Rminus ay b) (map2 Rminus ay b) = dot (map2 Rminus ax b) (map2 Rminus ax b) + dot (comb m d cols) (comb m d cols)).
  { rewrite CD in *. rewrite dot_minus in P by lia. rewrite !dot_minus_r in P by (fold m; lia).
    rewrite !dot_minus by (fold m; lia). rewrite !dot_minus_r by (fold m; lia).
    rewrite (dot_comm ax ay) in *. rewrite (dot_comm b ay), (dot_comm b ax). lra. }
  split; [rewrite PY; pose proof (dot_self_nonneg (comb m d cols)); lra|].
  intros LE. assert (Z : comb m d cols = zeros m).
  { pose proof (dot_self_nonneg (comb m d cols)). assert (Q : dot (comb m d cols) (comb m d cols) = 0) by lra.
    apply dot_self_zero in Q. rewrite comb_length in Q; auto. }
  pose proof (OR d LD Z) as O. unfold d in O. rewrite dot_minus_r in O by lia.
  assert (PD : dot y y = dot x x + dot d d).
  { unfold d. rewrite dot_minus by lia. rewrite !dot_minus_r by lia. rewrite (dot_comm y x). lra. }
  split; [pose proof (dot_self_nonneg d); lra|]. intros LE2.
  assert (Q : dot d d = 0) by (pose proof (dot_self_nonneg d); lra). apply dot_self_zero in Q.
  assert (QL : length x = length y) by lia. unfold d in Q. clear - Q QL. clearbody x. revert y Q QL.
  induction x as [|x0 x IHx]; destruct y; simpl; intros Q QL; try discriminate; auto. injection Q as Q1 Q2. f_equal; [lra|]. apply IHx; auto.
Qed.
