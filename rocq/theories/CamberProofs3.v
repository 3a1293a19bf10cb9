(** Proofs about the camber curve: the tear, and the whole section. *)
From Coq Require Import Reals List Bool Lra Lia Arith Permutation.
From Verif Require Import Base ProfileModel ProfileSpec PathModel BladeModel BladeSpec BladeProofs5 ReverseModel ReverseSpec ReverseProofs ReverseProofs3 ReverseProofs4 ReverseProofs5 ReverseProofs6 ReverseProofs7
  ReconstructProofs2 ChordSpec CamberModel CamberSpec CamberProofs CamberProofs2.
Import ListNotations.
Open Scope R_scope.

Lemma wind_ok : forall r a, r <> 0 -> wind r a = Ok (wrap r a).
Proof. intros r [x v] H. unfold wind, fdiv, wrap. cbn [fst snd]. destruct Req_EM_T; [contradiction | reflexivity]. Qed.
Lemma wrap_turn : forall r x v, r <> 0 -> wrap r (x, v + 2 * PI * r) = wrap r (x, v).
Proof.
  intros r x v H. unfold wrap. cbn [fst snd]. replace ((v + 2 * PI * r) / r) with (v / r + 2 * PI) by (field; exact H).
  rewrite sin_plus, cos_plus, sin_2PI, cos_2PI. f_equal; [f_equal|]; ring.
Qed.
Lemma wrap_on_cylinder : forall r a, on_cylinder r (wrap r a).
Proof.
  intros r a. unfold on_cylinder, wrap. pose proof (sin2_cos2 (snd a / r)) as H. unfold Rsqr in H.
  transitivity (r * r * (sin (snd a / r) * sin (snd a / r) + cos (snd a / r) * cos (snd a / r))); [ring | rewrite H; ring].
Qed.
Lemma pdist_vertical : forall x y z, pdist (x, y) (x, z) = Rabs (y - z).
Proof. intros. unfold pdist, pnorm, psub. cbn [fst snd]. rewrite <- sqrt_Rsqr_abs. f_equal. unfold Rsqr. ring. Qed.
Lemma torn : forall r eps, 0 < r -> 0 < eps -> exists p q, on_cylinder r p /\ on_cylinder r q /\ dist3 p q < eps /\
  PI * r <= pdist (unroll_positive r p) (unroll_positive r q).
Proof.
  intros r eps H E. pose proof (Rmult_lt_0_compat PI r PI_RGT_0 H) as P. set (v := Rmin (eps / 4) (PI * r / 2)).
  assert (V : 0 < v) by (apply Rmin_pos; [lra | lra]). assert (V1 : v <= eps / 4) by apply Rmin_l. assert (V2 : v <= PI * r / 2) by apply Rmin_r.
  assert (N : r <> 0) by lra. assert (W : 2 * PI * r = 2 * (PI * r)) by ring. assert (W2 : PI * r / 2 = (PI * r) / 2) by reflexivity. set (h := PI * r) in *.
  exists (wrap r (0, v)), (wrap r (0, - v + 2 * PI * r)). split; [apply wrap_on_cylinder|]. split; [apply wrap_on_cylinder|]. split.
  - rewrite wrap_turn by lra. eapply Rle_lt_trans; [apply wrap_dist_le; lra|]. rewrite pdist_vertical. rewrite Rabs_right by lra. lra.
  - pose proof (unroll_wind_iff r (0, v) _ H (wind_ok _ _ N)) as [_ A]. cbn [snd] in A. rewrite A by lra.
    pose proof (unroll_wind_iff r (0, - v + 2 * PI * r) _ H (wind_ok _ _ N)) as [_ B]. cbn [snd] in B. rewrite B by lra.
    rewrite pdist_vertical. rewrite Rabs_left by lra. lra.
Qed.

Lemma section_wire : forall cubic wires voronoi spline join n radius s,
  section_of_wire cubic wires voronoi spline join n radius = Ok s ->
  exists w c k len at_ T sample air cam cand, wires radius = Ok w /\
  open_sample 1200 w = sample /\ closed_sample 1000 (w_length w) (w_at w) = Ok air /\
  camber_candidates voronoi radius sample = Ok cand /\ spline (map (wrap radius) cand) = Ok c /\ camber_of w c = Ok k /\
  join c k = Ok (len, at_) /\ closed_sample 500 len at_ = Ok cam /\
  let le := unroll_positive radius (leading k) in let te := unroll_positive radius (trailing k) in
  0 < pdist le te /\ mirror_similarity (/ pdist le te) T /\ T le = (0, 0) /\ T te = (1, 0) /\
  s_chord s = pdist le te / 1000 /\ s_airfoil s = map (fun p => T (unroll_positive radius p)) air /\
  (exists m, Permutation (s_camber s) m /\ ordered lex (s_camber s) /\ pinned (map (fun p => T (unroll_positive radius p)) cam) m).
Proof.
  intros cubic wires voronoi spline join n radius s H. unfold section_of_wire in H. apply voronoi_plane in H.
  destruct H as (pts & cand & nodes & le0 & te0 & full & le3 & te3 & cam3 & air3 & T & fc & up & down & A1 & A2 & A3 & A4 & A5 & A7 & A8 & B).
  destruct (wires radius) as [w|] eqn:W; [|discriminate]. cbn [bind] in A1, A8. injection A1 as A1.
  unfold camber_line in A4. rewrite W in A4. cbn [bind] in A4.
  destruct (spline nodes) as [c|] eqn:C; [|discriminate]. cbn [bind] in A4.
  destruct (camber_of w c) as [k|] eqn:K; [|discriminate]. cbn [bind] in A4.
  destruct (join c k) as [[len at_]|] eqn:J; [|discriminate]. cbn [bind fst snd] in A4. injection A4 as E1 E2 E3. subst le0 te0 full.
  pose proof (camber_order _ _ _ K) as O. unfold axial in O.
  assert (nodes = map (wrap radius) cand) as EN.
  { clear - A3. induction A3 as [|x y l m E _ IH]; [reflexivity|]. cbn [map]. rewrite E, IH. reflexivity. }
  rewrite EN in C.
  cbv zeta in B.
  destruct A5 as [(-> & -> & _)|(_ & _ & X)]; [|lra].
  destruct B as (B1 & B2 & B3 & B4 & _ & _ & _ & B5 & B6 & (m & M1 & M2 & M3) & _).
    exists w, c, k, len, at_, T, pts, air3, cam3, cand. split; [reflexivity|]. split; [exact A1|]. split; [exact A8|]. split; [exact A2|]. split; [exact C|]. split; [exact K|]. split; [exact J|].
    split; [exact A7|]. cbv zeta. do 6 (split; [assumption|]).
    exists m. split; [exact M1|]. split; [exact M2|]. apply M3. apply closed_ok in A7. destruct A7 as [-> _]. unfold camber_points_number, airfoil_points_number.
    change (Nat.div 1000 2) with 500%nat. lia.
Qed.

Lemma mapM_wind : forall r l, r <> 0 -> mapM (wind r) l = Ok (map (wrap r) l).
Proof. intros r l N. induction l as [|a l IH]; [reflexivity|]. cbn [mapM map]. rewrite (wind_ok r a N). cbn [bind]. rewrite IH. reflexivity. Qed.
Lemma section_wire_succeeds : forall cubic wires voronoi spline join n radius w vs, total_interpolant cubic -> (2 <= n)%nat -> radius <> 0 ->
  wires radius = Ok w -> voronoi (map (unroll_positive radius) (open_sample 1200 w)) = Ok vs ->
  (forall pts, exists c k full, spline pts = Ok c /\ camber_of w c = Ok k /\ join c k = Ok full /\
     snd (unroll_positive radius (leading k)) <> snd (unroll_positive radius (trailing k))) ->
  exists s, section_of_wire cubic wires voronoi spline join n radius = Ok s.
Proof.
  intros cubic wires voronoi spline join n radius w vs HT HN R0 W V S.
  destruct (candidates_selected voronoi radius (open_sample section_points_number w)) as [_ CS].
  destruct (CS vs) as (cand & EC); [intros X; apply (f_equal (@List.length _)) in X; rewrite open_length in X; discriminate | exact V|].
  destruct (S (map (wrap radius) cand)) as (c & k & full & E1 & E2 & E3 & E4).
  destruct (closed_total camber_points_number (fst full) (snd full)) as (cam & EM); [apply Nat.leb_le; reflexivity|].
  destruct (closed_total airfoil_points_number (w_length w) (w_at w)) as (air & EA); [apply Nat.leb_le; reflexivity|].
  unfold section_of_wire. eapply (voronoi_succeeds cubic _ _ voronoi _ n radius _ cand (map (wrap radius) cand) (leading k) (trailing k) _ (leading k) (trailing k) cam air).
  - exact HT.
  - exact HN.
  - cbv beta. rewrite W. reflexivity.
  - exact EC.
  - apply mapM_wind. exact R0.
  - unfold camber_line. rewrite W. cbn [bind]. rewrite E1. cbn [bind]. rewrite E2. cbn [bind]. rewrite E3. reflexivity.
  - unfold order_edges. pose proof (camber_order _ _ _ E2) as O. unfold axial in O. destruct Rlt_dec; [lra | reflexivity].
  - exact EM.
  - cbv beta. rewrite W. exact EA.
  - exact R0.
  - exact E4.
  - intros X. apply closed_ok in EM. destruct EM as [EM _]. rewrite X in EM. discriminate.
Qed.

(** Edges on the cylinder a quarter turn apart. *)
Definition tilted : wire := mkWire 300 (fun s => (s / 3, 0, 50)) []
  (fun seg => if Rlt_dec (fst (fst (fst seg))) 50 then [(0, 0, 50)] else [(100, 50, 0)]).
Lemma tilted_camber : exists k, camber_of tilted straight = Ok k /\ leading k = (100, 50, 0) /\ trailing k = (0, 0, 50).
Proof.
  exists (result straight (0, 0, 50) (100, 50, 0)). split.
  - apply camber_ok_iff. exists (0, 0, 50), (100, 50, 0). destruct straight_sound as (A & B & C & D). split.
    + unfold sound. split; [exact A|]. split; [exact B|]. split; [exact C|]. split; [exact D|]. split.
      * right. unfold backward. rewrite straight_start. cbn [tilted w_vertices w_nearest fst]. split; [constructor|].
        destruct Rlt_dec as [_|N]; [|lra]. split; [|axial]. exists [], []. repeat split; constructor.
      * unfold found_at_end, forward. rewrite straight_end. cbn [tilted w_nearest fst]. destruct Rlt_dec as [N|_]; [lra|].
        split; [exists [], []; repeat split; constructor|]. unfold dist3, norm3, sub3, dot3.
        apply Rle_lt_trans with (sqrt (100 * 100)); [apply sqrt_le_1; lra | rewrite sqrt_square; lra].
    + rewrite straight_start, straight_end. split; [intros H; injection H; lra|]. split; [intros H; injection H; lra | reflexivity].
  - unfold result. unfold axial at 1 2. cbn [fst]. destruct Rlt_dec as [X|X]; [|lra]. split; reflexivity.
Qed.
Lemma tilted_angles : snd (unroll_positive 50 (100, 50, 0)) <> snd (unroll_positive 50 (0, 0, 50)).
Proof.
  unfold unroll_positive, arctan2. cbn [snd]. repeat (destruct Rlt_dec; try lra); pose proof PI_RGT_0;
    try replace (0 / 50) with 0 in * by field; rewrite ?atan_0 in *; lra.
Qed.
Lemma tilted_section : exists s, section_of_wire table (fun _ => Ok tilted) (fun _ => Ok [(1, 2); (30, 40)]) (fun _ => Ok straight)
  (fun _ _ => Ok (120, fun s => (s * 10 / 12, 0, 50))) 3 50 = Ok s.
Proof.
  apply (section_wire_succeeds table _ _ _ _ 3 50 tilted [(1, 2); (30, 40)] table_total); [lia | lra | reflexivity | reflexivity|].
  intros pts. destruct tilted_camber as (k & K & L & T). exists straight, k, (120, fun s => (s * 10 / 12, 0, 50)).
  split; [reflexivity|]. split; [exact K|]. split; [reflexivity|]. rewrite L, T. exact tilted_angles.
Qed.
