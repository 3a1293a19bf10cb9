(** Proofs about camber: deform_camber_line, max_camber, set_camber_line_max. *)
From Coq Require Import Reals List ZArith Lia Lra Bool String.
From Verif Require Import Base ProfileModel ProfileSpec RbfModel RbfProofs RbfProofs2 SolveProofs ProfileProofs ProfileProofs2.
Import ListNotations.
Open Scope R_scope.

(** ** Camber line *)
Lemma half_mean : forall a b, map2 (fun a b => 0.5 * (a + b)) a b = mean a b.
Proof. intros. apply map2_ext. intros. lra. Qed.
Lemma half_mean_sym : forall a b, map2 (fun a b => 0.5 * (a + b)) a b = mean b a.
Proof. intros. apply map2_comm. intros. lra. Qed.

Lemma camber_line_inv : forall n p xs ys, compute_camber_line n p = Ok (xs, ys) ->
  exists n', resolve_n n p = Ok n' /\
   ((exists z a c d, n' = Some z /\ interpolate_coordinates (PyInt z) 1 p = Ok (a, xs, c, d) /\ ys = mean c d) \/
    ((n' = None \/ n' = Some 0%Z) /\ xs = xup p /\ List.length (xup p) = List.length (yup p) /\
      List.length (yup p) = List.length (ydown p) /\ ys = mean (yup p) (ydown p))).
Proof.
  intros n p xs ys H. unfold compute_camber_line in H. apply bind_ok in H. destruct H as [n' [En H]]. exists n'. split; auto.
  assert (D : (let* ys0 := vzip (fun a b => 0.5 * (a + b)) (ydown p) (yup p) in
      if Nat.eqb (List.length (xup p)) (List.length ys0) then Ok (xup p, ys0) else Err ValueError) = Ok (xs, ys) ->
      xs = xup p /\ List.length (xup p) = List.length (yup p) /\
      List.length (yup p) = List.length (ydown p) /\ ys = mean (yup p) (ydown p)).
  { intros G. apply bind_ok in G. destruct G as [l [El G]]. apply vzip_inv in El. destruct El as [L ->].
    rewrite map2_length in G by auto.
    destruct (Nat.eqb_spec (List.length (xup p)) (List.length (ydown p))); [|discriminate]. injection G as <- <-.
    repeat split; auto; try congruence. apply half_mean_sym. }
  unfold truthy in H. destruct n' as [z|].
  - destruct (Z.eqb_spec z 0) as [->|Nz].
    + right. split; auto.
    + left. apply bind_ok in H. destruct H as [[[[a b] c] d] [Ei H]].
      apply bind_ok in H. destruct H as [l [El H]]. apply vzip_inv in El. destruct El as [L ->]. injection H as <- <-.
      exists z, a, c, d. rewrite half_mean. auto.
  - right. split; auto.
Qed.

Lemma camber_line_direct : forall p, xup p = xdown p -> uniform p ->
  compute_camber_line None p = Ok (xup p, mean (yup p) (ydown p)).
Proof.
  intros p E (L1 & L2 & L3). unfold compute_camber_line. rewrite resolve_n_eq by auto. simpl.
  rewrite vzip_ok by congruence. simpl. rewrite map2_length by congruence.
  replace (List.length (xup p) =? List.length (ydown p))%nat with true by (symmetry; apply Nat.eqb_eq; congruence).
  do 2 f_equal. apply half_mean_sym.
Qed.

Lemma camber_line_interp : forall z p a b c d, (0 < z)%Z -> List.length (xup p) = List.length (xdown p) ->
  interpolate_coordinates (PyInt z) 1 p = Ok (a, b, c, d) ->
  compute_camber_line (Some z) p = Ok (b, mean c d).
Proof.
  intros z p a b c d Hz L H. unfold compute_camber_line.
  assert (R : resolve_n (Some z) p = Ok (Some z)).
  { unfold resolve_n, arrays_equal. rewrite L, Nat.eqb_refl. simpl. destruct (list_eqb _ _); auto. }
  rewrite R. simpl. destruct (Z.eqb_spec z 0); [lia|]. rewrite H. simpl.
  destruct (interpolate_inv _ _ _ _ _ _ _ H) as (_ & _ & S1 & S2).
  apply surface_samples in S1. apply surface_samples in S2. destruct S1 as (_ & Lc & _). destruct S2 as (_ & Ld & _).
  rewrite vzip_ok by congruence. simpl. rewrite half_mean. auto.
Qed.

(** ** deform_camber_line *)
Lemma mean_deformed : forall f a b, List.length a = List.length b ->
  let h := map2 (fun a b => 0.5 * Rabs (a - b)) a b in
  mean (map2 Rplus (vscale f (mean a b)) h) (map2 Rminus (vscale f (mean a b)) h) = vscale f (mean a b) /\
  gap (map2 Rplus (vscale f (mean a b)) h) (map2 Rminus (vscale f (mean a b)) h) = gap a b.
Proof.
  induction a as [|x a IH]; destruct b as [|y b]; intros L; try discriminate; simpl in *; auto.
  injection L as L. destruct (IH b L) as [E1 E2]. unfold mean, gap, vscale in *. simpl. rewrite E1, E2. split; f_equal; try lra.
  match goal with |- Rabs ?t = _ => replace t with (Rabs (x - y)) by lra end. apply Rabs_Rabsolu.
Qed.

Lemma above_deformed : forall cy a b, above
  (map2 Rplus cy (map2 (fun a b => 0.5 * Rabs (a - b)) a b))
  (map2 Rminus cy (map2 (fun a b => 0.5 * Rabs (a - b)) a b)).
Proof.
  intros cy a b i x y Hx Hy. apply map2_nth_inv in Hx. apply map2_nth_inv in Hy.
  destruct Hx as (u & v & Hu & Hv & ->). destruct Hy as (u' & v' & Hu' & Hv' & ->).
  assert (u' = u) by congruence. assert (v' = v) by congruence. subst u' v'.
  apply map2_nth_inv in Hv. destruct Hv as (s & t & _ & _ & ->).
  pose proof (Rabs_pos (s - t)). lra.
Qed.

Lemma deform_inv : forall pc n p q, deform_camber_line pc n p = Ok q ->
  exists n' xs cy src, resolve_n n p = Ok n' /\ compute_camber_line n p = Ok (xs, cy) /\
    (match truthy n' with
     | Some z => interpolate_coordinates (PyInt z) 1 p = Ok (xup src, xdown src, yup src, ydown src)
     | None => src = p end) /\
    cy = mean (yup src) (ydown src) /\ List.length (yup src) = List.length (ydown src) /\
    xup q = xup src /\ xdown q = xdown src /\
    yup q = map2 Rplus (vscale (pc / 100 + 1) cy) (map2 (fun a b => 0.5 * Rabs (a - b)) (yup src) (ydown src)) /\
    ydown q = map2 Rminus (vscale (pc / 100 + 1) cy) (map2 (fun a b => 0.5 * Rabs (a - b)) (yup src) (ydown src)).
Proof.
  intros pc n p q H. unfold deform_camber_line in H.
  apply bind_ok in H. destruct H as [[xs cy] [Ec H]]. apply bind_ok in H. destruct H as [n' [En H]].
  apply bind_ok in H. destruct H as [src [Es H]]. apply bind_ok in H. destruct H as [half [Eh H]].
  apply bind_ok in H. destruct H as [yu [Eu H]]. apply bind_ok in H. destruct H as [yd [Ed H]].
  apply vzip_inv in Eh. destruct Eh as [Lh ->]. apply vzip_inv in Eu. destruct Eu as [Lu ->].
  apply vzip_inv in Ed. destruct Ed as [Ld ->]. simpl in *. injection H as <-. simpl.
  exists n', xs, cy, src. repeat split; auto.
  - destruct (truthy n') as [z|]; [|congruence]. apply bind_ok in Es. destruct Es as [[[[a b] c] d] [Ei Es]].
    injection Es as <-. simpl. auto.
  - apply camber_line_inv in Ec. destruct Ec as (n2 & En2 & Ec). rewrite En in En2. injection En2 as <-.
    destruct Ec as [(z & a & c & d & -> & Ei & ->)|(Hn & _ & _ & _ & ->)].
    + unfold truthy in Es. destruct (Z.eqb_spec z 0).
      * subst z. cbv in Ei. discriminate.
      * rewrite Ei in Es. simpl in Es. injection Es as <-. simpl. auto.
    + replace (truthy n') with (@None Z) in Es by (destruct Hn as [->| ->]; auto). injection Es as <-. auto.
Qed.

Lemma deform_common : forall pc p, uniform p -> xup p = xdown p ->
  exists q, deform_camber_line pc None p = Ok q /\ xup q = xup p /\ xdown q = xdown p /\
    mean (yup q) (ydown q) = vscale (1 + pc / 100) (mean (yup p) (ydown p)) /\
    gap (yup q) (ydown q) = gap (yup p) (ydown p) /\ above (yup q) (ydown q) /\ uniform q.
Proof.
  intros pc p U E. assert (U' := U). destruct U as (L1 & L2 & L3).
  assert (L : List.length (yup p) = List.length (ydown p)) by congruence.
  unfold deform_camber_line. rewrite camber_line_direct by auto. cbn [bind snd].
  rewrite resolve_n_eq by auto. cbn [bind truthy].
  rewrite vzip_ok by auto. cbn [bind].
  set (h := map2 (fun a b => 0.5 * Rabs (a - b)) (yup p) (ydown p)).
  assert (Lh : List.length (vscale (pc / 100 + 1) (mean (yup p) (ydown p))) = List.length h).
  { unfold h, mean. rewrite vscale_length, !map2_length; auto. }
  rewrite !vzip_ok by auto. simpl.
  destruct (mean_deformed (pc / 100 + 1) (yup p) (ydown p) L) as [M G]. fold h in M, G.
  eexists. split; [reflexivity|]. simpl. rewrite (Rplus_comm 1). repeat split; auto.
  - apply above_deformed.
  - simpl. rewrite map2_length by auto. rewrite Lh. unfold h. rewrite map2_length by auto. auto.
  - simpl. rewrite map2_length by auto. rewrite Lh. unfold h. rewrite map2_length by auto. congruence.
Qed.

(** With interpolation the same holds for the resampled profile. *)
Lemma deform_interp : forall pc z p a b c d, (0 < z)%Z -> List.length (xup p) = List.length (xdown p) ->
  interpolate_coordinates (PyInt z) 1 p = Ok (a, b, c, d) ->
  exists q, deform_camber_line pc (Some z) p = Ok q /\ xup q = a /\ xdown q = b /\
    mean (yup q) (ydown q) = vscale (1 + pc / 100) (mean c d) /\
    gap (yup q) (ydown q) = gap c d /\ above (yup q) (ydown q).
Proof.
  intros pc z p a b c d Hz L H. unfold deform_camber_line.
  rewrite (camber_line_interp z p a b c d) by auto. cbn [bind snd].
  assert (R : resolve_n (Some z) p = Ok (Some z)).
  { unfold resolve_n, arrays_equal. rewrite L, Nat.eqb_refl. simpl. destruct (list_eqb _ _); auto. }
  rewrite R. cbn [bind truthy]. destruct (Z.eqb_spec z 0); [lia|]. rewrite H. cbn [bind yup ydown].
  destruct (interpolate_inv _ _ _ _ _ _ _ H) as (_ & _ & S1 & S2).
  apply surface_samples in S1. apply surface_samples in S2. destruct S1 as (_ & Lc & _). destruct S2 as (_ & Ld & _).
  assert (Lcd : List.length c = List.length d) by congruence.
  rewrite vzip_ok by auto. cbn [bind].
  set (h := map2 (fun a b => 0.5 * Rabs (a - b)) c d).
  assert (Lh : List.length (vscale (pc / 100 + 1) (mean c d)) = List.length h).
  { unfold h, mean. rewrite vscale_length, !map2_length; auto. }
  rewrite !vzip_ok by auto. simpl.
  destruct (mean_deformed (pc / 100 + 1) c d Lcd) as [M G]. fold h in M, G.
  eexists. split; [reflexivity|]. simpl. rewrite (Rplus_comm 1). repeat split; auto. apply above_deformed.
Qed.

(** ** argmax *)
Lemma argmax_from_spec : forall l best besti i,
  (argmax_from best besti i l = besti /\ (forall x, In x l -> x <= best)) \/
  (exists j x, argmax_from best besti i l = (i + j)%nat /\ nth_error l j = Some x /\ best < x /\ forall y, In y l -> y <= x).
Proof.
  induction l as [|a l IH]; intros best besti i; simpl.
  - left. split; auto. intros x [].
  - destruct (Rlt_dec best a) as [Hl|Hl].
    + destruct (IH a i (S i)) as [[E M]|(j & x & E & N & Hx & M)].
      * right. exists 0%nat, a. rewrite E, Nat.add_0_r. repeat split; auto. intros y [<-|Hy]; [lra|auto].
      * right. exists (S j), x. rewrite E. repeat split; auto; try lia; try lra. intros y [<-|Hy]; [lra|auto].
    + destruct (IH best besti (S i)) as [[E M]|(j & x & E & N & Hx & M)].
      * left. split; auto. intros x [<-|Hx]; [lra|auto].
      * right. exists (S j), x. rewrite E. repeat split; auto; try lia. intros y [<-|Hy]; [lra|auto].
Qed.

Lemma argmax_vmax : forall l m, vmax l = Ok m -> exists i, argmax l = Ok i /\ nth_error l i = Some m.
Proof.
  intros l m H. apply vmax_spec in H. destruct H as [I M]. destruct l as [|a l]; [destruct I|]. simpl.
  eexists. split; [reflexivity|].
  destruct (argmax_from_spec l a 0 1) as [[E K]|(j & x & E & N & Hx & K)]; rewrite E; simpl.
  - f_equal. apply Rle_antisym; [apply M; simpl; auto|]. destruct I as [<-|I]; [lra|auto].
  - rewrite N. f_equal. apply Rle_antisym; [apply M; right; eapply nth_error_In; eauto|].
    destruct I as [<-|I]; [lra|auto].
Qed.

Lemma argmax_from_scale : forall k l best besti i, 0 < k ->
  argmax_from (k * best) besti i (map (fun x => k * x) l) = argmax_from best besti i l.
Proof.
  intros k l. induction l as [|a l IH]; intros best besti i Hk; simpl; auto.
  destruct (Rlt_dec (k * best) (k * a)) as [H|H], (Rlt_dec best a) as [H'|H']; auto.
  - exfalso. apply H'. eapply Rmult_lt_reg_l; eauto.
  - exfalso. apply H. apply Rmult_lt_compat_l; auto.
Qed.
Lemma argmax_scale : forall k l, 0 < k -> argmax (map (fun x => k * x) l) = argmax l.
Proof. intros k [|a l] Hk; simpl; auto. f_equal. apply argmax_from_scale; auto. Qed.

(** Value returned by max_camber when chord and camber share abscissae: the
    signed deviation of largest magnitude. *)
Definition peak (dev : list R) : res R :=
  let* m := vmax (map Rabs dev) in
  let* i := argmax (map Rabs dev) in
  let* v := item dev i in
  Ok (if Rlt_dec v 0 then m * -1 else m).

Lemma peak_value : forall dev v, peak dev = Ok v -> In v dev /\ forall x, In x dev -> Rabs x <= Rabs v.
Proof.
  intros dev v H. unfold peak in H. apply bind_ok in H. destruct H as [m [Em H]].
  destruct (argmax_vmax _ _ Em) as (i & Ei & Ni). rewrite Ei in H. simpl in H.
  apply bind_ok in H. destruct H as [w [Ew H]]. unfold item in Ew. destruct (nth_error dev i) eqn:N; [|discriminate].
  injection Ew as ->. rewrite (map_nth_error Rabs _ _ N) in Ni. injection Ni as <-. injection H as <-.
  assert (V : (if Rlt_dec w 0 then Rabs w * -1 else Rabs w) = w).
  { destruct (Rlt_dec w 0); [rewrite Rabs_left by auto; ring|apply Rabs_right; lra]. }
  rewrite V. split; [eapply nth_error_In; eauto|].
  intros x Hx. apply vmax_spec in Em. apply Em. apply in_map. auto.
Qed.

Lemma peak_ok : forall dev, dev <> [] -> exists v, peak dev = Ok v.
Proof.
  intros dev N. unfold peak. destruct (vmax_ok (map Rabs dev)) as [m Em].
  { destruct dev; simpl; congruence. }
  rewrite Em. simpl. destruct (argmax_vmax _ _ Em) as (i & Ei & Ni). rewrite Ei. simpl.
  unfold item. destruct (nth_error dev i) eqn:E; simpl; eauto.
  exfalso. apply nth_error_None in E. assert (nth_error (map Rabs dev) i = None) by (apply nth_error_None; rewrite map_length; auto).
  congruence.
Qed.

Lemma peak_scale : forall f dev v, peak dev = Ok v -> peak (vscale f dev) = Ok (f * v).
Proof.
  intros f dev v H. destruct (peak_value _ _ H) as [I M].
  assert (N : vscale f dev <> []) by (destruct dev; [destruct I|simpl; congruence]).
  destruct (Req_dec f 0) as [->|Hf].
  - destruct (peak_ok _ N) as [w Ew]. rewrite Ew. f_equal. apply peak_value in Ew. destruct Ew as [Iw _].
    unfold vscale in Iw. apply in_map_iff in Iw. destruct Iw as (u & <- & _). ring.
  - unfold peak in *. apply bind_ok in H. destruct H as [m [Em H]].
    apply bind_ok in H. destruct H as [i [Ei H]]. apply bind_ok in H. destruct H as [u [Eu H]].
    assert (Ea : map Rabs (vscale f dev) = map (fun x => Rabs f * x) (map Rabs dev)).
    { unfold vscale. rewrite !map_map. apply map_ext. intros. rewrite Rabs_mult. ring. }
    rewrite Ea. assert (Hpos : 0 < Rabs f) by (apply Rabs_pos_lt; auto).
    rewrite (vmax_map_scale _ _ m) by (auto; lra). simpl bind. rewrite argmax_scale by auto. rewrite Ei. simpl bind.
    unfold item in *. destruct (nth_error dev i) eqn:Ni; [|discriminate]. injection Eu as ->.
    unfold vscale. rewrite (map_nth_error (fun x => x * f) _ _ Ni). simpl bind.
    destruct (argmax_vmax _ _ Em) as (i' & Ei' & Nm). rewrite Ei in Ei'. injection Ei' as <-.
    rewrite (map_nth_error Rabs _ _ Ni) in Nm. injection Nm as <-. injection H as <-.
    f_equal.
    assert (Su : (if Rlt_dec u 0 then Rabs u * -1 else Rabs u) = u).
    { destruct (Rlt_dec u 0); [rewrite Rabs_left by auto; ring|apply Rabs_right; lra]. }
    rewrite Su. rewrite <- Rabs_mult. rewrite (Rmult_comm u f).
    destruct (Rlt_dec (f * u) 0); [rewrite Rabs_left by auto; ring|apply Rabs_right; lra].
Qed.

Lemma norm2_vertical : forall d, norm2 0 d = Rabs d.
Proof. intros. unfold norm2. rewrite Rmult_0_l, Rplus_0_l. apply sqrt_Rsqr_abs. Qed.

Lemma max_camber_peak : forall n p xs hy cy,
  compute_chord_line n p = Ok (xs, hy) -> compute_camber_line n p = Ok (xs, cy) ->
  List.length hy = List.length xs -> List.length cy = List.length xs ->
  max_camber n p = peak (map2 Rminus cy hy).
Proof.
  intros n p xs hy cy Hc Hm L1 L2. unfold max_camber. rewrite Hc, Hm. simpl.
  rewrite vzip_ok by auto. simpl. rewrite vzip_ok by congruence. simpl.
  rewrite vzip_ok by (rewrite !map2_length; congruence). simpl.
  assert (E : map2 norm2 (map2 Rminus xs xs) (map2 Rminus hy cy) = map Rabs (map2 Rminus cy hy)).
  { clear Hc Hm. revert hy cy L1 L2. induction xs as [|x xs IH]; destruct hy, cy; simpl; intros; try discriminate; auto.
    rewrite IH by lia. f_equal. rewrite Rminus_diag_eq by auto. rewrite norm2_vertical. apply Rabs_minus_sym. }
  rewrite E. unfold peak. destruct (vmax (map Rabs (map2 Rminus cy hy))) as [m|] eqn:Em; simpl; auto.
  destruct (argmax_vmax _ _ Em) as (i & Ei & Ni). rewrite Ei. simpl.
  rewrite nth_error_map in Ni. destruct (nth_error (map2 Rminus cy hy) i) as [w|] eqn:Nw; [|discriminate].
  apply map2_nth_inv in Nw. destruct Nw as (u & v & Hu & Hv & ->).
  unfold item. rewrite Hu, Hv, (map2_nth _ _ _ _ _ _ Hu Hv). simpl. f_equal.
  destruct (Rlt_dec u v), (Rlt_dec (u - v) 0); auto; lra.
Qed.

(** ** set_camber_line_max in reference position *)
Lemma ref_edges : forall p, xup p = xdown p -> xup p <> [] -> ref_position p ->
  exists lx tx, first (xup p) = Ok lx /\ final (xup p) = Ok tx /\ update_edges p = Ok ((lx, 0), (tx, 0)).
Proof.
  intros p E N (F1 & F2 & yu & yd & F3 & F4 & S). destruct (first_ok _ N) as [lx A]. destruct (final_ok _ N) as [tx B].
  exists lx, tx. repeat split; auto. apply update_edges_iff.
  exists lx, lx, tx, tx, 0, yu, yd. rewrite <- E. repeat split; auto.
  - rewrite Rminus_diag_eq, Rabs_R0 by auto. lra.
  - rewrite Rminus_diag_eq, Rabs_R0 by auto. lra.
  - do 2 f_equal. lra.
Qed.

Lemma linspace_const0 : forall (xs : list R), map (fun x => 0 * (x - 0) + 0) xs = zeros (List.length xs).
Proof. induction xs; simpl; auto. unfold zeros in *. simpl. f_equal; [ring|auto]. Qed.

Lemma mean_nodes_linear : forall a b f, List.length a = List.length b ->
  map2 Rplus (vscale (f/2) a) (vscale (f/2) b) = vscale f (mean a b).
Proof.
  induction a as [|x a IH]; destruct b as [|y b]; intros f L; try discriminate; auto.
  simpl in *. unfold mean, vscale in *. simpl. rewrite IH by lia. f_equal. field.
Qed.

Lemma max_camber_ref : forall z p lx tx, (0 < z)%Z -> xup p = xdown p -> uniform p -> NoDup (xup p) ->
  first (xup p) = Ok lx -> final (xup p) = Ok tx -> lx <> tx -> ref_position p ->
  exists xx s, surface_ok 1 (xup p) (mean (yup p) (ydown p)) (Z.to_nat z) xx s /\
    max_camber (Some z) p = peak s.
Proof.
  intros z p lx tx Hz E U ND A B N P. assert (U' := U). destruct U as (L1 & L2 & L3).
  assert (Nx : xup p <> []) by (intros C; rewrite C in A; discriminate).
  destruct (ref_edges p E Nx P) as (lx' & tx' & A' & B' & Eu). rewrite A in A'. rewrite B in B'. injection A' as <-. injection B' as <-.
  destruct (interpolate_ok z 1 p Hz Rlt_0_1) as (a & b & c & d & Ei); auto; try congruence.
  { split; auto. }
  destruct (interpolate_inv _ _ _ _ _ _ _ Ei) as (_ & _ & S1 & S2). rewrite <- E in S2.
  assert (Sm : surface_ok 1 (xup p) (mean (yup p) (ydown p)) (Z.to_nat z) a (mean c d)).
  { pose proof (surface_linear 1 _ _ _ _ _ _ _ _ (1/2) (1/2) S1 S2) as Sm.
    rewrite !mean_nodes_linear in Sm.
    - rewrite !vscale_one in Sm. auto.
    - apply surface_samples in S1. apply surface_samples in S2. destruct S1 as (_ & -> & _). destruct S2 as (_ & -> & _). auto.
    - congruence. }
  exists a, (mean c d). split; auto.
  assert (Eb : a = b).
  { destruct S1 as (x0 & xn & s & F & L & -> & _). destruct S2 as (x0' & xn' & s' & F' & L' & -> & _). congruence. }
  subst b.
  assert (Ea : a = linspace lx tx (Z.to_nat z)).
  { destruct S1 as (x0 & xn & s & F & L & -> & _). congruence. }
  assert (La : List.length (mean c d) = List.length a).
  { apply surface_samples in Sm. destruct Sm as (-> & -> & _). auto. }
  rewrite (max_camber_peak (Some z) p a (zeros (List.length a)) (mean c d)).
  - f_equal. rewrite <- La. clear. induction (mean c d); simpl; auto. unfold zeros in *; simpl. f_equal; [ring|auto].
  - unfold compute_chord_line. rewrite Eu. simpl. unfold fdiv. destruct (Req_EM_T (tx - lx) 0); [lra|]. simpl.
    assert (R : resolve_n (Some z) p = Ok (Some z)) by (apply resolve_n_eq; auto).
    rewrite R. simpl. destruct (Z.eqb_spec z 0); [lia|]. destruct (Z.ltb_spec z 0); [lia|]. rewrite <- Ea.
    do 2 f_equal. replace ((0 - 0) / (tx - lx)) with 0 by (unfold Rdiv; ring).
    clear. induction a as [|x a IH]; simpl; auto. rewrite IH. unfold zeros. simpl. f_equal. ring.
  - apply (camber_line_interp z p a a c d); auto.
  - apply repeat_length.
  - auto.
Qed.

Lemma surface_len : forall r x y n xx s, surface_ok r x y n xx s -> List.length y = List.length x.
Proof. intros r x y n xx s (x0 & xn & f & _ & _ & _ & <- & _). apply map_length. Qed.

Lemma set_camber_ok : forall c p old, xup p = xdown p -> uniform p -> NoDup (xup p) -> ref_position p ->
  max_camber (Some 500%Z) p = Ok old -> old <> 0 ->
  exists q, set_camber_line_max c p = Ok q /\ max_camber (Some 500%Z) q = Ok c /\
    xup q = xup p /\ xdown q = xdown p /\ gap (yup q) (ydown q) = gap (yup p) (ydown p) /\
    mean (yup q) (ydown q) = vscale (c / old) (mean (yup p) (ydown p)).
Proof.
  intros c p old E U ND P H Nold. assert (U' := U). destruct U as (L1 & L2 & L3).
  assert (Hz : (0 < 500)%Z) by lia.
  (* edges from success *)
  assert (Nx : xup p <> []).
  { intros C. unfold max_camber, compute_chord_line, update_edges in H. rewrite C in H. discriminate. }
  destruct (ref_edges p E Nx P) as (lx & tx & A & B & Eu).
  assert (N : lx <> tx).
  { intros C. unfold max_camber, compute_chord_line in H. rewrite Eu in H. cbn [bind] in H. unfold fdiv in H.
    destruct (Req_EM_T (tx - lx) 0); [discriminate|lra]. }
  destruct (max_camber_ref 500 p lx tx) as (xx & s & Sm & Hm); auto. rewrite Hm in H.
  unfold set_camber_line_max. rewrite Hm, H. cbn [bind]. unfold fdiv. destruct (Req_EM_T old 0); [contradiction|]. cbn [bind].
  destruct (deform_common (100 * (c - old) / old) p U' E) as (q & Hq & X1 & X2 & Mq & Gq & Aq & Uq).
  exists q. split; [exact Hq|].
  replace (1 + 100 * (c - old) / old / 100) with (c / old) in Mq by (field; auto).
  split; [|auto].
  assert (Pq : ref_position q).
  { destruct P as (F1 & F2 & yu & yd & F3 & F4 & S).
    destruct Uq as (M1 & M2 & M3).
    assert (Lq : List.length (yup q) = List.length (ydown q)) by congruence.
    assert (Lp : List.length (yup p) = List.length (ydown p)) by congruence.
    assert (Lqp : List.length (yup q) = List.length (yup p)) by congruence.
    split; [|split].
    - destruct (yup p) as [|u lu], (ydown p) as [|v lv], (yup q) as [|u' lu'], (ydown q) as [|v' lv']; try discriminate.
      simpl in F1, F2. injection F1 as ->. injection F2 as ->. unfold mean, gap in Mq, Gq. simpl in Mq, Gq.
      injection Mq as Mq _. injection Gq as Gq _. rewrite Rminus_0_r, Rabs_R0 in Gq. simpl. f_equal.
      destruct (Req_dec (u' - v') 0) as [D|D]; [lra|]. apply Rabs_no_R0 in D. lra.
    - destruct (yup p) as [|u lu], (ydown p) as [|v lv], (yup q) as [|u' lu'], (ydown q) as [|v' lv']; try discriminate.
      simpl in F1, F2. injection F1 as ->. injection F2 as ->. unfold mean, gap in Mq, Gq. simpl in Mq, Gq.
      injection Mq as Mq _. injection Gq as Gq _. rewrite Rminus_0_r, Rabs_R0 in Gq. simpl. f_equal.
      destruct (Req_dec (u' - v') 0) as [D|D]; [lra|]. apply Rabs_no_R0 in D. lra.
    - clear - F3 F4 S Mq Lq Lp Lqp.
      assert (G : forall a b a' b' f, List.length a = List.length b -> List.length a' = List.length b' -> List.length a = List.length a' ->
        mean a' b' = vscale f (mean a b) -> forall u v, final a = Ok u -> final b = Ok v ->
        exists u' v', final a' = Ok u' /\ final b' = Ok v' /\ u' + v' = f * (u + v)).
      { induction a as [|x a IH]; intros b a' b' f l1 l2 l3 Me u v Fu Fv; [discriminate|].
        destruct b as [|y b], a' as [|x' a'], b' as [|y' b']; try discriminate.
        unfold mean, vscale in Me. simpl in Me. injection Me as Me0 Me.
        destruct a as [|x2 a], b as [|y2 b], a' as [|x2' a'], b' as [|y2' b']; try discriminate.
        - simpl in *. injection Fu as ->. injection Fv as ->. exists x', y'. repeat split; auto. lra.
        - change (final (x2 :: a) = Ok u) in Fu. change (final (y2 :: b) = Ok v) in Fv.
          change (exists u' v', final (x2' :: a') = Ok u' /\ final (y2' :: b') = Ok v' /\ u' + v' = f * (u + v)).
          apply (IH (y2 :: b) (x2' :: a') (y2' :: b') f); auto. }
      destruct (G _ _ _ _ _ Lp Lq (eq_sym Lqp) Mq _ _ F3 F4) as (u' & v' & A1 & A2 & A3).
      exists u', v'. repeat split; auto. rewrite A3, S. ring. }
  destruct (max_camber_ref 500 q lx tx) as (xx' & s' & Sm' & Hm'); auto; try congruence.
  rewrite Hm'. rewrite X1, Mq in Sm'.
  pose proof (surface_scale _ _ _ _ _ _ (c / old) Sm) as Ss.
  destruct (surface_unique _ _ _ _ _ _ _ _ Sm' Ss) as [_ ->].
  rewrite (peak_scale _ _ _ H). f_equal. field. auto.
Qed.

Lemma set_camber_zero : forall c p, max_camber (Some 500%Z) p = Ok 0 -> set_camber_line_max c p = Err NonFinite.
Proof.
  intros c p H. unfold set_camber_line_max. rewrite H. cbn [bind]. unfold fdiv.
  destruct (Req_EM_T 0 0); [auto|congruence].
Qed.

(** The hypotheses of [set_camber_ok] make max_camber defined. *)
Lemma max_camber_defined : forall p lx tx, xup p = xdown p -> uniform p -> NoDup (xup p) -> ref_position p ->
  first (xup p) = Ok lx -> final (xup p) = Ok tx -> lx <> tx -> exists old, max_camber (Some 500%Z) p = Ok old.
Proof.
  intros p lx tx E U ND P A B N.
  destruct (max_camber_ref 500 p lx tx) as (xx & s & Sm & Hm); auto; try lia. rewrite Hm. apply peak_ok.
  apply surface_samples in Sm. destruct Sm as (_ & L & _). intros C. rewrite C in L. simpl in L.
  assert (0 < Z.to_nat 500)%nat by lia. lia.
Qed.
