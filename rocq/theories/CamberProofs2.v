(** Proofs about the camber curve: statements, and the points on the plane. *)
From Coq Require Import Reals List Bool Lra Lia Arith.
From Verif Require Import Base ProfileModel ProfileSpec PathModel BladeModel BladeSpec BladeProofs5 ReverseModel ReverseSpec ReverseProofs ReverseProofs5 ReverseProofs6 ReverseProofs7
  ReconstructProofs2 ChordSpec CamberModel CamberSpec CamberProofs.
Import ListNotations.
Open Scope R_scope.

Lemma camber_found : forall w c k, camber_of w c = Ok k <->
  exists le te, start_der c <> (0, 0, 0) /\ end_der c <> (0, 0, 0) /\ c_first c <> c_last c /\ c_length c <> 0 /\
    found_at_start w c le /\ found_at_end w c te /\ le <> start_of c /\ te <> end_of c /\
    first_segment k = backward c /\ last_segment k = forward c /\
    c_at c (kept_from k) = start_of c /\ c_at c (kept_to k) = end_of c /\
    kept_from k - c_first c = 5 / 1000 * (c_last c - c_first c) /\ c_last c - kept_to k = 15 / 1000 * (c_last c - c_first c) /\
    ((axial te <= axial le /\ leading k = le /\ trailing k = te /\ first_edge k = (te, end_of c) /\ last_edge k = (le, start_of c)) \/
     (axial le < axial te /\ leading k = te /\ trailing k = le /\ first_edge k = (le, start_of c) /\ last_edge k = (te, end_of c))).
Proof.
  intros w c k. rewrite camber_ok_iff. split.
  - intros (le & te & (A & B & C & D & E & F) & G & H & ->). exists le, te. do 8 (split; [assumption|]).
    unfold result. destruct (Rlt_dec (axial le) (axial te)) as [X|X]; cbn [first_segment last_segment kept_from kept_to leading trailing first_edge last_edge].
    + do 4 (split; [reflexivity|]). split; [lra|]. split; [lra|]. right. auto.
    + do 4 (split; [reflexivity|]). split; [lra|]. split; [lra|]. left. split; [lra|]. auto.
  - intros (le & te & A & B & C & D & E & F & G & H & S1 & S2 & _ & _ & K1 & K2 & X). exists le, te.
    split; [unfold sound; auto 10|]. split; [exact G|]. split; [exact H|]. destruct k as [k1 k2 k3 k4 k5 k6 k7 k8].
    cbn [first_segment last_segment kept_from kept_to leading trailing first_edge last_edge] in *. unfold result.
    assert (k7 = c_first c + 5 / 1000 * (c_last c - c_first c)) as -> by lra.
    assert (k8 = c_first c + 985 / 1000 * (c_last c - c_first c)) as -> by lra. subst k3 k4.
    destruct X as [(X & -> & -> & -> & ->)|(X & -> & -> & -> & ->)]; destruct (Rlt_dec (axial le) (axial te)); try lra; reflexivity.
Qed.
Lemma camber_order : forall w c k, camber_of w c = Ok k -> axial (trailing k) <= axial (leading k).
Proof.
  intros w c k H. apply camber_found in H. destruct H as (le & te & _ & _ & _ & _ & _ & _ & _ & _ & _ & _ & _ & _ & _ & _ & [(X & -> & -> & _)|(X & -> & -> & _)]); lra.
Qed.
(** A path from the trailing edge over the kept part to the leading edge. *)
Lemma camber_path : forall w c k, camber_of w c = Ok k ->
  exists x y, first_edge k = (trailing k, x) /\ last_edge k = (leading k, y) /\
  ((x = c_at c (kept_from k) /\ y = c_at c (kept_to k)) \/ (x = c_at c (kept_to k) /\ y = c_at c (kept_from k))).
Proof.
  intros w c k H. apply camber_found in H. destruct H as (le & te & _ & _ & _ & _ & _ & _ & _ & _ & _ & _ & -> & -> & _ & _ & [(X & -> & -> & -> & ->)|(X & -> & -> & -> & ->)]);
    [exists (end_of c), (start_of c) | exists (start_of c), (end_of c)]; auto.
Qed.
Lemma camber_prolongations : forall w c k, camber_of w c = Ok k ->
  fst (first_segment k) = c_at c (kept_from k) /\ fst (last_segment k) = c_at c (kept_to k) /\
  dist3 (fst (first_segment k)) (snd (first_segment k)) = Rabs (c_length c) / 40 /\
  dist3 (fst (last_segment k)) (snd (last_segment k)) = Rabs (c_length c) / 40.
Proof.
  intros w c k H. apply camber_found in H. destruct H as (le & te & A & B & _ & _ & _ & _ & _ & _ & -> & -> & -> & -> & _).
  rewrite <- norm_nonzero in A, B. unfold backward, forward. cbn [fst snd]. unfold dist3. rewrite !norm3_opp, !along_norm by assumption.
  rewrite Rabs_Ropp. unfold Rdiv. rewrite Rabs_mult, (Rabs_right (/ 40)) by lra. auto.
Qed.
Lemma found_in : forall p l v, first_nearest p l v -> In v l.
Proof. intros p l v (l1 & l2 & -> & _). apply in_elt. Qed.
Lemma close_in : forall p tol l v, last_close p tol l v -> In v l.
Proof. intros p tol l v (l1 & l2 & -> & _). apply in_elt. Qed.
Lemma camber_on_wire : forall W w c k, on_wire W w -> camber_of w c = Ok k -> W (leading k) /\ W (trailing k).
Proof.
  intros W w c k (HV & HN & _) H. apply camber_found in H.
  destruct H as (le & te & _ & _ & _ & _ & S & (E & _) & _ & _ & _ & _ & _ & _ & _ & _ & X).
  assert (W te) by (eapply HN; eapply found_in; exact E).
  assert (W le).
  { destruct S as [S|(_ & S & _)]; [apply HV; eapply close_in; exact S | eapply HN; eapply found_in; exact S]. }
  destruct X as [(_ & -> & -> & _)|(_ & -> & -> & _)]; auto.
Qed.
(** Only the vertices near the start matter. *)
Lemma camber_vertices : forall len at_ near vs vs' c,
  (forall v, last_close (start_of c) (c_length c / 400) vs v <-> last_close (start_of c) (c_length c / 400) vs' v) ->
  camber_of (mkWire len at_ vs near) c = camber_of (mkWire len at_ vs' near) c.
Proof.
  intros len at_ near vs vs' c H. rewrite !camber_of_cases. do 4 (destruct Req_EM_T; [reflexivity|]).
  assert (E : find_leading (mkWire len at_ vs near) (start_of c) (c_length c / 400) (backward c) =
              find_leading (mkWire len at_ vs' near) (start_of c) (c_length c / 400) (backward c)).
  { unfold find_leading. cbn [w_vertices w_nearest].
    destruct (scan_vertices_spec (start_of c) (c_length c / 400) vs None) as [(x & E & L)|[N E]]; rewrite E;
    destruct (scan_vertices_spec (start_of c) (c_length c / 400) vs' None) as [(y & F & M)|[P F]]; rewrite F.
    - f_equal. apply H in L. apply (last_close_unique _ _ _ _ _ L M).
    - apply H in L. destruct (last_none _ _ _ _ L P).
    - apply H in M. destruct (last_none _ _ _ _ M N).
    - reflexivity. }
  rewrite E. reflexivity.
Qed.

(** ** A section *)
(** A straight camber line; a wire with a vertex at each end of it. *)
Definition straight : curve := mkCurve 0 1 (fun t => (100 * t, 0, 50)) (fun _ => (100, 0, 0)) 100.
Definition ends : wire := mkWire 202 (fun s => (s / 2, 0, 50)) [(98 + 6 / 10, 0, 50); (4 / 10, 0, 50)]
  (fun seg => if Rlt_dec (fst (fst (fst seg))) 50 then [(0, 0, 50)] else [(100, 0, 50); (101, 0, 50)]).
Lemma sqrt_sq : forall x y, 0 <= y -> x = y * y -> sqrt x = y.
Proof. intros x y H ->. apply sqrt_square. exact H. Qed.
Lemma dist_axial : forall x y z u, dist3 (x, y, z) (u, y, z) = Rabs (x - u).
Proof. intros x y z u. unfold dist3, norm3, sub3, dot3. rewrite <- sqrt_Rsqr_abs. f_equal. unfold Rsqr. ring. Qed.
Ltac axial := cbn; rewrite ?dist_axial; unfold Rabs; repeat destruct Rcase_abs; lra.
Lemma straight_start : start_of straight = (1 / 2, 0, 50).
Proof. unfold start_of, straight. cbn. f_equal. f_equal. lra. Qed.
Lemma straight_end : end_of straight = (98 + 5 / 10, 0, 50).
Proof. unfold end_of, straight. cbn. f_equal. f_equal. lra. Qed.
Lemma straight_sound : start_der straight <> (0, 0, 0) /\ end_der straight <> (0, 0, 0) /\ c_first straight <> c_last straight /\ c_length straight <> 0.
Proof. unfold start_der, end_der, straight. cbn. repeat split; try lra; intros H; injection H; lra. Qed.
Lemma ends_start : found_at_start ends straight (4 / 10, 0, 50).
Proof.
  left. rewrite straight_start. exists [(98 + 6 / 10, 0, 50)], []. split; [reflexivity|]. split; [axial | constructor].
Qed.
Lemma ends_end : found_at_end ends straight (100, 0, 50).
Proof.
  unfold found_at_end, forward. rewrite straight_end. unfold ends. cbn [w_nearest fst]. destruct Rlt_dec as [N|_]; [lra|].
  split; [|axial]. exists [], [(101, 0, 50)]. split; [reflexivity|]. split; [constructor|]. constructor; [axial | constructor].
Qed.
Lemma ends_camber : exists k, camber_of ends straight = Ok k /\ leading k = (100, 0, 50) /\ trailing k = (4 / 10, 0, 50) /\
  first_edge k = ((4 / 10, 0, 50), (1 / 2, 0, 50)) /\ last_edge k = ((100, 0, 50), (98 + 5 / 10, 0, 50)).
Proof.
  exists (result straight (4 / 10, 0, 50) (100, 0, 50)). split.
  - apply camber_ok_iff. exists (4 / 10, 0, 50), (100, 0, 50). destruct straight_sound as (A & B & C & D).
    split; [unfold sound; split; [exact A|]; split; [exact B|]; split; [exact C|]; split; [exact D|]; split; [exact ends_start | exact ends_end]|].
    rewrite straight_start, straight_end. split; [intros H; injection H; lra|]. split; [intros H; injection H; lra | reflexivity].
  - unfold result. unfold axial at 1 2. cbn [fst]. destruct Rlt_dec as [X|X]; [|lra]. cbn [leading trailing first_edge last_edge].
    rewrite straight_start, straight_end. auto.
Qed.
(** A vertex as near to the end as the one taken at the start is not taken. *)
Lemma trailing_vertex : exists w c k v, camber_of w c = Ok k /\ In v (w_vertices w) /\ dist3 v (end_of c) < c_length c / 400 /\
  leading k <> v /\ trailing k <> v /\ dist3 v (end_of c) < dist3 (leading k) (end_of c) /\ dist3 v (end_of c) < dist3 (trailing k) (end_of c).
Proof.
  destruct ends_camber as (k & H & L & T & _). exists ends, straight, k, (98 + 6 / 10, 0, 50). rewrite straight_end, L, T.
  split; [exact H|]. split; [left; reflexivity|]. split; [axial|]. split; [intros X; injection X; lra|]. split; [intros X; injection X; lra|].
  split; axial.
Qed.
Lemma no_solution : forall w c, (forall seg, w_nearest w seg = []) -> start_der c <> (0, 0, 0) -> end_der c <> (0, 0, 0) ->
  c_first c <> c_last c -> c_length c <> 0 -> camber_of w c = Err AttributeError.
Proof.
  intros w c N A B C D. apply camber_attribute_iff. do 4 (split; [assumption|]). right. intros v ((l1 & l2 & L & _) & _). rewrite N in L. destruct l1; discriminate.
Qed.

(** ** Samples *)
Lemma open_nth : forall n w i, (i < n)%nat -> nth_error (open_sample n w) i = Some (w_at w (INR i * (w_length w / INR n))).
Proof.
  intros n w i H. unfold open_sample. rewrite nth_error_map, nth_error_nth' with (d := 0%nat) by (rewrite seq_length; exact H).
  rewrite seq_nth by exact H. cbn [option_map Nat.add]. f_equal. f_equal. unfold Rdiv. ring.
Qed.
Lemma open_length : forall n w, List.length (open_sample n w) = n.
Proof. intros. unfold open_sample. rewrite map_length, seq_length. reflexivity. Qed.
Lemma open_short : forall n w i, (i < n)%nat -> 0 < w_length w -> 0 <= INR i * (w_length w / INR n) < w_length w.
Proof.
  intros n w i H L. assert (0 < INR n) by (apply lt_0_INR; lia). pose proof (pos_INR i). apply lt_INR in H.
  split.
  - apply Rmult_le_pos; [assumption|]. apply Rlt_le, Rdiv_lt_0_compat; assumption.
  - replace (w_length w) with (INR n * (w_length w / INR n)) at 2 by (field; lra).
    apply Rmult_lt_compat_r; [apply Rdiv_lt_0_compat|]; assumption.
Qed.
Lemma closed_ok : forall n len at_ l, closed_sample n len at_ = Ok l -> List.length l = n /\
  (forall i, (i < n)%nat -> nth_error l i = Some (at_ (INR i * (len / INR (n - 1))))).
Proof.
  intros n len at_ l. unfold closed_sample. destruct (Nat.eqb n 1); [discriminate|]. intros H. injection H as <-. split.
  - rewrite map_length, seq_length. reflexivity.
  - intros i H. rewrite nth_error_map, nth_error_nth' with (d := 0%nat) by (rewrite seq_length; exact H).
    rewrite seq_nth by exact H. cbn [option_map Nat.add]. f_equal. f_equal. unfold Rdiv. ring.
Qed.
Lemma closed_ends : forall n len at_ l, (2 <= n)%nat -> closed_sample n len at_ = Ok l ->
  nth_error l 0 = Some (at_ 0) /\ nth_error l (n - 1) = Some (at_ len).
Proof.
  intros n len at_ l N H. apply closed_ok in H. destruct H as [_ H]. rewrite !H by lia. split; f_equal; f_equal.
  - cbn [INR]. ring.
  - field. apply not_0_INR. lia.
Qed.
Lemma closed_total : forall n len at_, (2 <= n)%nat -> exists l, closed_sample n len at_ = Ok l.
Proof. intros n len at_ N. unfold closed_sample. destruct (Nat.eqb_spec n 1); [lia|]. eexists; reflexivity. Qed.

(** ** Winding and unrolling *)
Lemma unroll_range : forall r p, 0 < r -> 0 <= snd (unroll_positive r p) < 2 * PI * r.
Proof.
  intros r [[x y] z] H. unfold unroll_positive. cbn [snd]. pose proof (arctan2_range y z). pose proof PI_RGT_0.
  destruct Rlt_dec; split; nra.
Qed.
Lemma wind_unroll : forall r p, 0 < r -> on_cylinder r p -> wind r (unroll_positive r p) = Ok p.
Proof.
  intros r [[x y] z] H C. unfold on_cylinder in C. unfold wind, unroll_positive, fdiv. cbn [fst snd].
  destruct Req_EM_T as [|_]; [lra|]. cbn [bind].
  set (t := arctan2 y z). set (u := if Rlt_dec t 0 then t + 2 * PI else t).
  replace (r * u / r) with u by (field; lra).
  assert (N : z <> 0 \/ y <> 0).
  { destruct (Req_dec z 0) as [->|]; [|auto]. right. intros ->. nra. }
  destruct (arctan2_trig y z N) as [X Y]. fold t in X, Y.
  assert (S : sqrt (z * z + y * y) = r) by (apply sqrt_sq; [lra | rewrite <- C; ring]). rewrite S in X, Y.
  assert (sin u = y / r /\ cos u = z / r) as [-> ->].
  { unfold u. destruct Rlt_dec; [|auto]. rewrite sin_plus, cos_plus, sin_2PI, cos_2PI, X, Y. split; field; lra. }
  replace (r * (y / r)) with y by (field; lra). replace (r * (z / r)) with z by (field; lra). reflexivity.
Qed.
Lemma arctan2_neg : forall rho t, 0 < rho -> PI < t < 2 * PI -> arctan2 (rho * sin t) (rho * cos t) = t - 2 * PI.
Proof.
  intros rho t H T. replace (sin t) with (sin (t - 2 * PI)). replace (cos t) with (cos (t - 2 * PI)).
  - apply arctan2_polar; lra.
  - rewrite cos_minus, sin_2PI, cos_2PI. ring.
  - rewrite sin_minus, sin_2PI, cos_2PI. ring.
Qed.
Lemma unroll_wind_iff : forall r a p, 0 < r -> wind r a = Ok p -> (unroll_positive r p = a <-> 0 <= snd a < 2 * PI * r).
Proof.
  intros r [x v] p H W. split.
  - intros <-. apply unroll_range. exact H.
  - intros V. unfold wind, fdiv in W. cbn [fst snd] in *. destruct Req_EM_T; [lra|]. cbn [bind] in W. injection W as <-.
    unfold unroll_positive. assert (0 <= v / r < 2 * PI).
    { split; [apply Rmult_le_pos; [lra | apply Rlt_le, Rinv_0_lt_compat; exact H]|]. apply (Rmult_lt_reg_r r); [exact H|]. replace (v / r * r) with v by (field; lra). lra. }
    pose proof PI_RGT_0. destruct (Rle_dec (v / r) PI).
    + rewrite arctan2_polar by lra. destruct Rlt_dec; [lra|]. f_equal. field. lra.
    + rewrite arctan2_neg by lra. destruct Rlt_dec; [|lra]. f_equal. field. lra.
Qed.
Lemma wind_wrap : forall r a p, wind r a = Ok p -> r <> 0 /\ p = wrap r a.
Proof.
  intros r [x v] p. unfold wind, fdiv, wrap. cbn [fst snd]. destruct Req_EM_T; [discriminate|]. cbn [bind]. intros H. injection H as <-. auto.
Qed.
Lemma unroll_distance : forall r p q, 0 < r -> on_cylinder r p -> on_cylinder r q ->
  dist3 p q <= pdist (unroll_positive r p) (unroll_positive r q).
Proof.
  intros r p q H P Q. apply (wind_unroll r p H), wind_wrap in P. apply (wind_unroll r q H), wind_wrap in Q. destruct P as [N P], Q as [_ Q].
  rewrite P at 1. rewrite Q at 1. apply wrap_dist_le. exact N.
Qed.
Lemma no_solution_example : camber_of (mkWire 1 (fun _ => (0, 0, 0)) [] (fun _ => [])) straight = Err AttributeError.
Proof. destruct straight_sound as (A & B & C & D). apply no_solution; [intros; reflexivity | exact A | exact B | exact C | exact D]. Qed.
