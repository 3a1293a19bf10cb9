(** Proofs about the camber points. *)
From Coq Require Import Reals List ZArith Lra Lia Bool.
From Verif Require Import Base ProfileModel ProfileSpec ProfileProofs ProfileProofs2 BladeModel BladeSpec BladeProofs5 ReverseModel ReverseProofs ChordModel ChordSpec ChordProofs.
Import ListNotations.
Open Scope R_scope.

Section Camber.
Variables (tops bottoms : pt3 -> pt3 -> list pt3) (middle : pt3 -> pt3 -> pt3 -> pt3 -> res pt3).
Notation inner_points := (inner_points tops bottoms middle).
Notation camber_points := (camber_points tops bottoms middle).

Lemma latest_app : forall l old t, latest old (l ++ [t]) = Some t.
Proof. induction l as [|p l IH]; intros old t; cbn; auto. Qed.
Lemma latest_cases : forall l old, (l = [] /\ latest old l = old) \/ exists l' t, l = l' ++ [t] /\ latest old l = Some t.
Proof.
  intros l old. destruct l as [|p l]; [left; auto|]. right. destruct (@exists_last _ (p :: l)) as (l' & t & E); [discriminate|].
  exists l', t. split; auto. rewrite E. apply latest_app.
Qed.

(** What the loop knows when it arrives at station j: [hist] are the earlier cuts. *)
Lemma inner_inv : forall r g ss top bottom l, inner_points r g top bottom ss = Ok l ->
  List.length l = List.length ss /\
  forall j s, nth_error ss j = Some s ->
    let cutt := fun k => match nth_error ss k with Some s => tops (chord_point r g s) (unit_of (tangent_vector r g s)) | None => [] end in
    let cutb := fun k => match nth_error ss k with Some s => bottoms (chord_point r g s) (unit_of (tangent_vector r g s)) | None => [] end in
    exists t b m, nth_error l j = Some m /\
      middle (chord_point r g s) (unit_of (tangent_vector r g s)) t b = Ok m /\
      (last_found cutt j t \/ (top = Some t /\ forall k, (k <= j)%nat -> cutt k = [])) /\
      (last_found cutb j b \/ (bottom = Some b /\ forall k, (k <= j)%nat -> cutb k = [])).
Proof.
  intros r g. induction ss as [|s0 ss IH]; intros top bottom l H.
  - injection H as <-. split; auto. intros [|j] s Hj; discriminate.
  - cbn [ChordModel.inner_points] in H. apply bind_ok in H as (n & Hn & H).
    assert (n = unit_of (tangent_vector r g s0)).
    { unfold gp_dir in Hn. destruct (Req_EM_T _ 0); [discriminate|]. injection Hn as <-. reflexivity. } subst n. clear Hn.
    set (p := chord_point r g s0) in *. set (n := unit_of (tangent_vector r g s0)) in *.
    destruct (latest top (tops p n)) as [t0|] eqn:ET; [|discriminate].
    destruct (latest bottom (bottoms p n)) as [b0|] eqn:EB; [|discriminate].
    apply bind_ok in H as (m & Hm & H). apply bind_ok in H as (l' & Hl & H). injection H as <-.
    destruct (IH _ _ _ Hl) as (L & K). split; [simpl; auto|].
    assert (CT : (exists l0, tops p n = l0 ++ [t0]) \/ (tops p n = [] /\ top = Some t0)).
    { destruct (latest_cases (tops p n) top) as [(E & Q)|(l0 & t & E & Q)]; rewrite Q in ET.
      - right. split; auto.
      - injection ET as ->. left. eauto. }
    assert (CB : (exists l0, bottoms p n = l0 ++ [b0]) \/ (bottoms p n = [] /\ bottom = Some b0)).
    { destruct (latest_cases (bottoms p n) bottom) as [(E & Q)|(l0 & t & E & Q)]; rewrite Q in EB.
      - right. split; auto.
      - injection EB as ->. left. eauto. }
    assert (G : forall (f : pt3 -> pt3 -> list pt3) (old : option pt3) v0 j v,
      ((exists l0, f p n = l0 ++ [v0]) \/ (f p n = [] /\ old = Some v0)) ->
      let cut := fun k => match nth_error ss k with Some s => f (chord_point r g s) (unit_of (tangent_vector r g s)) | None => [] end in
      let cut' := fun k => match nth_error (s0 :: ss) k with Some s => f (chord_point r g s) (unit_of (tangent_vector r g s)) | None => [] end in
      (last_found cut j v \/ (Some v0 = Some v /\ forall k, (k <= j)%nat -> cut k = [])) ->
      (last_found cut' (S j) v \/ (old = Some v /\ forall k, (k <= S j)%nat -> cut' k = []))).
    { intros f old v0 j v C cut cut' [(k & l0 & Hk & E & N)|(E & N)].
      - left. exists (S k), l0. split; [lia|]. split; [exact E|]. intros q Hq. destruct q as [|q]; [lia|]. apply (N q). lia.
      - injection E as <-. destruct C as [(l0 & C)|(C & ->)].
        + left. exists 0%nat, l0. split; [lia|]. split; [exact C|]. intros q Hq. destruct q as [|q]; [lia|]. apply (N q). lia.
        + right. split; auto. intros [|q] Hq; [exact C|apply N; lia]. }
    assert (Z : forall (f : pt3 -> pt3 -> list pt3) (old : option pt3) v0,
      ((exists l0, f p n = l0 ++ [v0]) \/ (f p n = [] /\ old = Some v0)) ->
      let cut' := fun k => match nth_error (s0 :: ss) k with Some s => f (chord_point r g s) (unit_of (tangent_vector r g s)) | None => [] end in
      (last_found cut' 0 v0 \/ (old = Some v0 /\ forall k, (k <= 0)%nat -> cut' k = []))).
    { intros f old v0 [(l0 & C)|(C & ->)] cut'.
      - left. exists 0%nat, l0. split; [lia|]. split; [exact C|]. intros q Hq. lia.
      - right. split; auto. intros q Hq. replace q with 0%nat by lia. exact C. }
    intros [|j] s Hj cutt cutb.
    + injection Hj as <-. exists t0, b0, m. split; [reflexivity|]. split; [exact Hm|]. split; [apply (Z tops top t0 CT)|apply (Z bottoms bottom b0 CB)].
    + cbn in Hj. destruct (K j s Hj) as (t & b & m' & N & M & A & B). exists t, b, m'. split; [exact N|]. split; [exact M|].
      split; [apply (G tops top t0 j t CT A)|apply (G bottoms bottom b0 j b CB B)].
Qed.

Lemma linspace_split : forall n, (2 <= n)%nat -> exists ss, linspace 0 1 n = 0 :: ss ++ [1] /\ List.length ss = (n - 2)%nat /\
  forall j s, nth_error ss j = Some s -> s = INR (S j) / INR (n - 1).
Proof.
  intros n Hn. pose proof (linspace_length 0 1 n) as L. pose proof (linspace_first 0 1 n ltac:(lia)) as F. pose proof (linspace_last 0 1 n Hn) as E.
  assert (NT : forall i s, (i < n)%nat -> nth_error (linspace 0 1 n) i = Some s -> s = INR i / INR (n - 1)).
  { intros i s Hi Hs. rewrite (linspace_nth 0 1 n i Hi) in Hs. injection Hs as <-.
    assert (INR (n - 1) <> 0) by (apply not_0_INR; lia). field; auto. }
  destruct (linspace 0 1 n) as [|x xs]; [simpl in L; lia|]. cbn in F. injection F as ->.
  destruct (@exists_last _ xs) as (ss & y & ->); [intros ->; simpl in L; lia|].
  simpl in L. rewrite app_length in L. simpl in L.
  assert (y = 1).
  { replace (n - 1)%nat with (S (List.length ss)) in E by lia. cbn in E. rewrite nth_error_app2, Nat.sub_diag in E by lia. cbn in E. congruence. }
  subst y. exists ss. split; auto. split; [lia|]. intros j s Hj.
  assert (j < List.length ss)%nat by (apply nth_error_Some; congruence).
  apply (NT (S j) s); [lia|]. cbn. rewrite nth_error_app1 by lia. auto.
Qed.

Lemma camber_inv : forall n r le te l, (2 <= n)%nat -> camber_points n r le te = Ok l ->
  exists g ss m, geodesic_of r le te = Ok g /\ linspace 0 1 n = 0 :: ss ++ [1] /\ inner_points r g None None ss = Ok m /\ l = le :: m ++ [te].
Proof.
  intros n r le te l Hn H. unfold ChordModel.camber_points in H. apply bind_ok in H as (g & Hg & H).
  destruct (linspace_split n Hn) as (ss & E & _ & _). rewrite E in H.
  assert (X : exists x xs, ss ++ [1] = x :: xs) by (destruct ss; cbn; eauto). destruct X as (x & xs & X). rewrite X in H.
  rewrite <- X, removelast_last in H. apply bind_ok in H as (m & Hm & H). injection H as <-. exists g, ss, m. auto.
Qed.

Lemma camber_shape : forall n r le te l, (2 <= n)%nat -> camber_points n r le te = Ok l ->
  List.length l = n /\ first l = Ok le /\ final l = Ok te /\
  ((forall p nv t b m, middle p nv t b = Ok m -> on_cylinder r m) -> on_cylinder r le -> on_cylinder r te -> Forall (on_cylinder r) l).
Proof.
  intros n r le te l Hn H. destruct (camber_inv n r le te l Hn H) as (g & ss & m & _ & E & Hm & ->).
  destruct (inner_inv _ _ _ _ _ _ Hm) as (L & K).
  pose proof (linspace_length 0 1 n) as LL. rewrite E in LL. simpl in LL. rewrite app_length in LL. simpl in LL.
  split; [simpl; rewrite app_length; simpl; lia|]. split; [reflexivity|]. split.
  { clear. revert le. induction m as [|x m IH]; intros le; [reflexivity|]. cbn [app]. cbn [final]. apply IH. }
  intros C CL CT. constructor; auto. apply Forall_app. split; [|constructor; auto].
  apply Forall_forall. intros x Hx. apply In_nth_error in Hx as (j & Hj).
  assert (j < List.length ss)%nat by (rewrite <- L; apply nth_error_Some; congruence).
  destruct (nth_error ss j) as [s|] eqn:Es; [|apply nth_error_None in Es; lia].
  destruct (K j s Es) as (t & b & m' & N & M & _). rewrite Hj in N. injection N as ->. eapply C; eauto.
Qed.

(** Station i of the camber line. *)
Lemma camber_station : forall n r le te l g, (2 <= n)%nat -> camber_points n r le te = Ok l -> geodesic_of r le te = Ok g ->
  forall i, (1 <= i <= n - 2)%nat ->
    let pt_ k := chord_point r g (INR (S k) / INR (n - 1)) in
    let nv k := unit_of (tangent_vector r g (INR (S k) / INR (n - 1))) in
    exists t b m, nth_error l i = Some m /\ middle (pt_ (i - 1)%nat) (nv (i - 1)%nat) t b = Ok m /\
      last_found (fun k => tops (pt_ k) (nv k)) (i - 1) t /\ last_found (fun k => bottoms (pt_ k) (nv k)) (i - 1) b.
Proof.
  intros n r le te l g Hn H Hg i Hi pt_ nv. destruct (camber_inv n r le te l Hn H) as (g' & ss & m & Hg' & E & Hm & ->).
  rewrite Hg in Hg'. injection Hg' as <-.
  destruct (linspace_split n Hn) as (ss' & E' & L' & S'). rewrite E in E'. injection E' as E'. apply app_inj_tail in E' as (E' & _). subst ss'.
  destruct (inner_inv _ _ _ _ _ _ Hm) as (L & K).
  destruct (nth_error ss (i - 1)) as [s|] eqn:Es; [|apply nth_error_None in Es; lia].
  destruct (K _ _ Es) as (t & b & m' & N & M & A & B). rewrite (S' _ _ Es) in M.
  exists t, b, m'. split.
  { destruct i as [|i]; [lia|]. cbn. replace (S i - 1)%nat with i in N by lia. rewrite nth_error_app1 by (apply nth_error_Some; congruence). auto. }
  split; [exact M|].
  assert (X : forall (f : pt3 -> pt3 -> list pt3) v,
    (last_found (fun k => match nth_error ss k with Some s => f (chord_point r g s) (unit_of (tangent_vector r g s)) | None => [] end) (i - 1) v \/
      (None = Some v /\ forall k, (k <= i - 1)%nat -> match nth_error ss k with Some s => f (chord_point r g s) (unit_of (tangent_vector r g s)) | None => [] end = [])) ->
    last_found (fun k => f (pt_ k) (nv k)) (i - 1) v).
  { intros f v [(k & l0 & Hk & F & Z)|(Q & _)]; [|discriminate].
    assert (EQ : forall q, (q <= i - 1)%nat -> match nth_error ss q with Some s => f (chord_point r g s) (unit_of (tangent_vector r g s)) | None => [] end = f (pt_ q) (nv q)).
    { intros q Hq. destruct (nth_error ss q) as [sq|] eqn:Eq; [|apply nth_error_None in Eq; lia]. rewrite (S' _ _ Eq). reflexivity. }
    exists k, l0. split; auto. rewrite <- (EQ k Hk). split; auto. intros q Hq. rewrite <- EQ by lia. apply Z; auto. }
  split; [apply (X tops t A)|apply (X bottoms b B)].
Qed.

(** Nothing found at the first inner station. *)
Lemma camber_first_miss : forall n r le te g, (3 <= n)%nat -> geodesic_of r le te = Ok g -> (g_lam g <> 0 \/ g_a g <> 0) -> 
  let p := chord_point r g (1 / INR (n - 1)) in let nv := unit_of (tangent_vector r g (1 / INR (n - 1))) in
  (tops p nv = [] \/ bottoms p nv = []) -> camber_points n r le te = Err NameError.
Proof.
  intros n r le te g Hn Hg ND p nv Hm. unfold ChordModel.camber_points. rewrite Hg. cbn [bind].
  destruct (linspace_split n ltac:(lia)) as (ss & E & L & S). rewrite E.
  destruct ss as [|s ss]; [simpl in L; lia|]. pose proof (S 0%nat s eq_refl) as Hs. change (INR 1) with 1 in Hs.
  cbn [app]. change (s :: ss ++ [1]) with ((s :: ss) ++ [1]). rewrite removelast_last. cbn [ChordModel.inner_points].
  assert (r <> 0) by (apply geodesic_inv in Hg; tauto).
  unfold gp_dir. destruct (Req_EM_T _ 0) as [Q|Q].
  { exfalso. rewrite tangent_length in Q. assert (g_lam g = 0 /\ r * g_a g = 0) as (Q1 & Q2) by (split; nra).
    apply Rmult_integral in Q2 as [Q2|Q2]; [contradiction|]. destruct ND; contradiction. }
  cbn [bind]. rewrite Hs. fold (unit_of (tangent_vector r g (1 / INR (n - 1)))). fold p. fold nv.
  destruct Hm as [Hm|Hm]; rewrite Hm; cbn [latest]; [reflexivity|]. destruct (latest None (tops p nv)); reflexivity.
Qed.

(** Coinciding edges. *)
Lemma camber_degenerate : forall n r le te g, (3 <= n)%nat -> geodesic_of r le te = Ok g -> g_lam g = 0 -> g_a g = 0 ->
  camber_points n r le te = Err RuntimeError.
Proof.
  intros n r le te g Hn Hg A B. unfold ChordModel.camber_points. rewrite Hg. cbn [bind].
  destruct (linspace_split n ltac:(lia)) as (ss & E & L & S). rewrite E.
  destruct ss as [|s ss]; [simpl in L; lia|]. cbn [app]. change (s :: ss ++ [1]) with ((s :: ss) ++ [1]). rewrite removelast_last. cbn [ChordModel.inner_points].
  unfold gp_dir. destruct (Req_EM_T _ 0) as [Q|Q]; [reflexivity|]. exfalso. apply Q. rewrite tangent_length, A, B. ring.
Qed.
(** Once both sides have been met, every later station has vertices to work with. *)
Lemma latest_some : forall l old, (old <> None \/ l <> []) -> exists t, latest old l = Some t.
Proof.
  intros l old H. destruct (latest_cases l old) as [[-> ->]|(l' & t & _ & ->)]; [|eauto].
  destruct old; [eauto|]. destruct H as [H|H]; contradiction.
Qed.
Lemma inner_total : forall r g ss top bottom, r <> 0 -> (g_lam g <> 0 \/ g_a g <> 0) ->
  (forall p nv t b, exists m, middle p nv t b = Ok m) ->
  (top <> None \/ match ss with [] => True | s :: _ => tops (chord_point r g s) (unit_of (tangent_vector r g s)) <> [] end) ->
  (bottom <> None \/ match ss with [] => True | s :: _ => bottoms (chord_point r g s) (unit_of (tangent_vector r g s)) <> [] end) ->
  exists l, inner_points r g top bottom ss = Ok l.
Proof.
  intros r g ss. induction ss as [|s ss IH]; intros top bottom Hr ND MT A B; cbn [ChordModel.inner_points]; [eauto|].
  unfold gp_dir. destruct (Req_EM_T _ 0) as [Q|Q].
  { exfalso. rewrite tangent_length in Q. assert (g_lam g = 0 /\ r * g_a g = 0) as (Q1 & Q2) by (split; nra).
    apply Rmult_integral in Q2 as [Q2|Q2]; [contradiction|]. destruct ND; contradiction. }
  cbn [bind]. fold (unit_of (tangent_vector r g s)).
  destruct (latest_some _ _ A) as (t & ->). destruct (latest_some _ _ B) as (b & ->).
  destruct (MT (chord_point r g s) (unit_of (tangent_vector r g s)) t b) as (m & ->). cbn [bind].
  destruct (IH (Some t) (Some b)) as (l & ->); auto; try (left; discriminate). cbn [bind]. eauto.
Qed.
Lemma camber_total : forall n r le te g, (3 <= n)%nat -> geodesic_of r le te = Ok g -> (g_lam g <> 0 \/ g_a g <> 0) ->
  (forall p nv t b, exists m, middle p nv t b = Ok m) ->
  let p := chord_point r g (1 / INR (n - 1)) in let nv := unit_of (tangent_vector r g (1 / INR (n - 1))) in
  tops p nv <> [] -> bottoms p nv <> [] -> exists l, camber_points n r le te = Ok l.
Proof.
  intros n r le te g Hn Hg ND MT p nv HT HB. unfold ChordModel.camber_points. rewrite Hg. cbn [bind].
  destruct (linspace_split n ltac:(lia)) as (ss & E & L & S). rewrite E.
  destruct ss as [|s ss]; [simpl in L; lia|]. pose proof (S 0%nat s eq_refl) as Hs. change (INR 1) with 1 in Hs.
  cbn [app]. change (s :: ss ++ [1]) with ((s :: ss) ++ [1]). rewrite removelast_last.
  assert (r <> 0) by (apply geodesic_inv in Hg; tauto).
  destruct (inner_total r g (s :: ss) None None) as (l & ->); auto; try (right; rewrite Hs; assumption). cbn [bind]. eauto.
Qed.
End Camber.

(** A hole in the second cut: the vertex of the first one is used. *)
Definition two_cuts (p n : pt3) : list pt3 := if Rlt_dec (fst (fst p)) (1 / 2) then [(7, 0, 1)] else [].
Definition keep_top (p n t b : pt3) : res pt3 := Ok t.
Lemma stale_vertex : exists l, camber_points two_cuts two_cuts keep_top 4 1 (0, 0, 1) (1, 0, 1) = Ok l /\
  nth_error l 2 = Some (7, 0, 1) /\
  two_cuts (chord_point 1 (mkGeodesic 1 0 0 0) (2 / 3)) (1, 0, 0) = [].
Proof.
  assert (G : geodesic_of 1 (0, 0, 1) (1, 0, 1) = Ok (mkGeodesic 1 0 0 0)).
  { unfold geodesic_of, fdiv. destruct (Req_EM_T 1 0); [lra|]. cbn [bind]. replace (0 / 1) with 0 by field. rewrite arcsin_ok by lra. cbn [bind].
    rewrite asin_0. do 2 f_equal; ring. }
  assert (LS : linspace 0 1 4 = [0; 1 / 3; 2 / 3; 1]).
  { unfold linspace. cbn. repeat apply f_equal2; try reflexivity; field. }
  assert (D : forall s, gp_dir (tangent_vector 1 (mkGeodesic 1 0 0 0) s) = Ok (unit_of (tangent_vector 1 (mkGeodesic 1 0 0 0) s))).
  { intros s. unfold gp_dir. destruct (Req_EM_T _ 0) as [Q|Q]; [|reflexivity]. rewrite tangent_length in Q. cbn in Q. lra. }
  assert (T1 : forall q, two_cuts (chord_point 1 (mkGeodesic 1 0 0 0) (1 / 3)) q = [(7, 0, 1)]).
  { intros q. unfold two_cuts, chord_point; cbn. destruct (Rlt_dec _ _); [reflexivity|lra]. }
  assert (T2 : forall q, two_cuts (chord_point 1 (mkGeodesic 1 0 0 0) (2 / 3)) q = []).
  { intros q. unfold two_cuts, chord_point; cbn. destruct (Rlt_dec _ _); [lra|reflexivity]. }
  exists [(0, 0, 1); (7, 0, 1); (7, 0, 1); (1, 0, 1)]. split; [|split; [reflexivity|apply T2]].
  unfold camber_points. rewrite G, LS. cbn [bind removelast inner_points]. rewrite !D. cbn [bind]. rewrite T1, T2. cbn. reflexivity.
Qed.
