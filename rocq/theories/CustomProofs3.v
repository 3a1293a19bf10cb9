(** Parameters to coordinates and back; the orthogonal construction. *)
From Coq Require Import Reals List ZArith String Lra Lia.
From Verif Require Import Base SolveProofs ProfileModel ProfileSpec ProfileProofs ProfileProofs2 CustomModel CustomSpec CustomProofs CustomProofs2.
Import ListNotations.
Open Scope R_scope.

Lemma params_eq : forall a b, chord_length a = chord_length b -> chord_percentage a = chord_percentage b ->
  camber_max a = camber_max b -> camber_percentage a = camber_percentage b ->
  thickness_max a = thickness_max b -> thickness_percentage a = thickness_percentage b -> a = b.
Proof. intros [] []; simpl; intros; subst; auto. Qed.

Lemma mean_pm : forall c h, List.length c = List.length h -> mean (map2 Rplus c h) (map2 Rminus c h) = c.
Proof. induction c; destruct h; intros L; try discriminate; simpl; auto. apply (f_equal2 cons); [lra|apply IHc; simpl in L; lia]. Qed.
Lemma gap_pm : forall c h, List.length c = List.length h -> gap (map2 Rplus c h) (map2 Rminus c h) = map (fun x => 2 * Rabs x) h.
Proof. induction c; destruct h; intros L; try discriminate; simpl; auto. apply (f_equal2 cons); [|apply IHc; simpl in L; lia].
  replace (a + r - (a - r)) with (2 * r) by lra. rewrite Rabs_mult, (Rabs_right 2) by lra. auto. Qed.

Lemma vmax_unique : forall l m m', vmax l = Ok m -> vmax l = Ok m' -> m = m'. Proof. congruence. Qed.
Lemma last_map : forall (f : R -> R) l d, last (map f l) (f d) = f (last l d).
Proof. induction l as [|a l IH]; intros; auto. destruct l; auto. simpl in *. apply IH. Qed.
Lemma hd_map : forall (f : R -> R) l d, hd (f d) (map f l) = f (hd d l).
Proof. destruct l; auto. Qed.
Lemma all_zero : forall l, (forall x, In x l -> x = 0) -> l = zeros (List.length l).
Proof. intros l H. rewrite <- (map_zero (fun x => x) l H). symmetry. apply map_id. Qed.

Lemma last_def : forall (l : list R) d d', l <> [] -> last l d = last l d'.
Proof. induction l as [|a l IH]; intros; [congruence|]. destruct l; auto. simpl in *. apply IH. discriminate. Qed.
Lemma last_map2 : forall (f : R -> R -> R) a b da db, List.length a = List.length b ->
  last (map2 f a b) (f da db) = f (last a da) (last b db).
Proof.
  induction a as [|x a IH]; destruct b as [|y b]; intros; try discriminate; auto.
  destruct a, b; try discriminate; auto. apply (IH (r0 :: b) da db). simpl in *; lia.
Qed.

Section A.
Variable american : profile -> R -> list R -> R -> list R -> res (list R).
Notation gp := (generate_parameters american "british").

Lemma params_round_trip : forall q, normalised q -> exists p, coordinates_british q = Ok p /\ gp p = Ok q.
Proof.
  intros q ((C1 & C2 & L1 & L2) & LP & H1 & H2 & POS & A1 & A2 & T1 & CAM & THK).
  set (xs := vscale (chord_length q) (chord_percentage q)).
  set (cam := vscale (camber_max q) (camber_percentage q)).
  set (half := map (fun t => thickness_max q / 2 * t) (thickness_percentage q)).
  assert (LX : List.length xs = List.length (chord_percentage q)) by (unfold xs, vscale; apply map_length).
  assert (LC : List.length cam = List.length (chord_percentage q)) by (unfold cam, vscale; rewrite map_length; auto).
  assert (LH : List.length half = List.length (chord_percentage q)) by (unfold half; rewrite map_length; auto).
  set (p := mkProfile xs xs (map2 Rplus cam half) (map2 Rminus cam half)).
  assert (EP : coordinates_british q = Ok p).
  { unfold coordinates_british. fold xs cam half. rewrite !vzip_ok by lia. auto. }
  exists p. split; auto.
  assert (NP : chord_percentage q <> []) by (intros Z; rewrite Z in H1; simpl in H1; lra).
  assert (LN : forall l : list R, List.length l = List.length (chord_percentage q) -> l <> []).
  { intros l E Z. subst l. destruct (chord_percentage q); [congruence|discriminate]. }
  assert (NX : xs <> []) by auto. assert (NCA : camber_percentage q <> []) by auto.
  assert (NTH : thickness_percentage q <> []) by auto.
  assert (U : uniform p) by (unfold uniform, p; simpl; rewrite !map2_length by lia; lia).
  assert (E : update_edges p = Ok ((0, 0), (chord_length q, 0))).
  { apply update_edges_iff. exists 0, 0, (chord_length q), (chord_length q), 0.
    exists (last (map2 Rplus cam half) 0), (last (map2 Rminus cam half) 0). unfold p; simpl.
    assert (F : first xs = Ok 0).
    { unfold xs, vscale. destruct (chord_percentage q); [congruence|]. simpl in *. subst. f_equal. lra. }
    assert (G : final xs = Ok (chord_length q)).
    { rewrite (final_last _ (0 * chord_length q)) by auto. unfold xs, vscale.
      rewrite (last_map (fun x => x * chord_length q)), H2. f_equal. lra. }
    assert (Y : first (map2 Rplus cam half) = Ok 0).
    { unfold cam, half, vscale. destruct (camber_percentage q); [congruence|]. destruct (thickness_percentage q); [congruence|].
      simpl in *. subst. f_equal. lra. }
    split; auto. split; auto. split; auto. split; auto. split; auto.
    split. { apply final_last. apply LN. rewrite map2_length; lia. }
    split. { apply final_last. apply LN. rewrite map2_length; lia. }
    split; [rewrite Rminus_0_r, Rabs_R0; lra|]. split; [unfold Rminus; rewrite Rplus_opp_r, Rabs_R0; lra|].
    f_equal. apply injective_projections; simpl; auto.
    rewrite (last_def _ 0 (1 * camber_max q + thickness_max q / 2 * 0)) by (apply LN; rewrite map2_length; lia).
    rewrite (last_def (map2 Rminus cam half) 0 (1 * camber_max q - thickness_max q / 2 * 0)) by (apply LN; rewrite map2_length; lia).
    rewrite !last_map2 by lia. unfold cam, half, vscale.
    rewrite (last_map (fun x => x * camber_max q)), (last_map (fun t => thickness_max q / 2 * t)), A2. lra. }
  destruct (gp_ok american p _ _ E) as [q' Eq].
  { intros Z. apply (f_equal fst) in Z. simpl in Z. lra. } { auto. }
  rewrite Eq. f_equal. apply gp_inv in Eq.
  destruct Eq as (le & te & mn & cm & tm & Ee & Emn & CL & CN & CP & _ & Ecm & CM & CAP & Etm & TM & TP).
  rewrite E in Ee. injection Ee as <- <-.
  assert (CL' : chord_length q' = chord_length q).
  { rewrite CL. unfold pdist, pnorm, psub. simpl. replace (_ + _) with (chord_length q * chord_length q) by ring.
    apply sqrt_square. lra. }
  rewrite CL' in *.
  assert (mn = 0) as ->.
  { apply (f_equal (fun r => match r with Ok v => v | _ => 0 end)) in Emn as E'. simpl in E'.
    assert (vmin xs = Ok 0) as V. { apply vmin_spec. split.
      - unfold xs, vscale. apply in_map_iff. exists 0. split; [lra|]. destruct (chord_percentage q); [congruence|]. simpl in *. auto.
      - intros x I. unfold xs, vscale in I. apply in_map_iff in I. destruct I as (y & <- & I). specialize (POS y I).
        apply Rmult_le_pos; lra. }
    unfold p in Emn. simpl in Emn. congruence. }
  unfold p in Ecm, Etm, CAP, TP. simpl in Ecm, Etm, CAP, TP.
  rewrite mean_pm in Ecm, CAP by lia. rewrite gap_pm in Etm, TP by lia.
  assert (cm = camber_max q /\ (camber_percentage q' = camber_percentage q)) as [-> CAP'].
  { destruct CAM as [(P & I1 & LE1)|(P & ZZ)].
    - assert (V : vmax cam = Ok (camber_max q)).
      { apply vmax_spec. split.
        - unfold cam, vscale. apply in_map_iff. exists 1. split; [lra|auto].
        - intros x I. unfold cam, vscale in I. apply in_map_iff in I. destruct I as (y & <- & I).
          specialize (LE1 y I). nra. }
      rewrite V in Ecm. injection Ecm as <-. split; auto. rewrite CAP.
      destruct (Req_EM_T _ _) as [Z|Z]; [rewrite Rabs_right in Z; lra|].
      unfold cam, vscale. rewrite map_map, Rabs_right by lra.
      transitivity (map (fun x : R => x) (camber_percentage q)); [apply map_ext; intros; field; lra|apply map_id].
    - assert (cam = zeros (List.length cam)) as Z.
      { unfold cam, vscale. rewrite map_length. apply map_zero. intros x I. rewrite P. lra. }
      apply vmax_spec in Ecm. destruct Ecm as [I _]. rewrite Z in I. apply repeat_spec in I. subst cm.
      split; auto. rewrite CAP. rewrite Rabs_R0. destruct (Req_EM_T 0 0); [|congruence].
      etransitivity; [|symmetry; apply all_zero; exact ZZ]. f_equal. lia. }
  assert (tm = thickness_max q /\ thickness_percentage q' = thickness_percentage q) as [-> TP'].
  { destruct THK as [(P & I1 & LE1)|(P & ZZ)].
    - assert (V : vmax (map (fun x => 2 * Rabs x) half) = Ok (thickness_max q)).
      { apply vmax_spec. split.
        - apply in_map_iff. exists (thickness_max q / 2 * 1). split; [rewrite Rabs_right by lra; lra|].
          unfold half. apply (in_map (fun t => thickness_max q / 2 * t)). auto.
        - intros x I. apply in_map_iff in I. destruct I as (y & <- & I). unfold half in I.
          apply in_map_iff in I. destruct I as (z & <- & I). specialize (LE1 z I). rewrite Rabs_right by nra. nra. }
      rewrite V in Etm. injection Etm as <-. split; auto. rewrite TP.
      destruct (Req_EM_T (thickness_max q) 0) as [Z|Z]; [lra|].
      unfold half. rewrite !map_map.
      transitivity (map (fun x : R => x) (thickness_percentage q)); [|apply map_id].
      apply map_ext_in. intros a I. specialize (LE1 a I). rewrite Rabs_right by nra. field. lra.
    - assert (Z : half = zeros (List.length half)).
      { unfold half. rewrite map_length. apply map_zero. intros x _. rewrite P. field. }
      apply vmax_spec in Etm. destruct Etm as [I _]. rewrite Z in I. apply in_map_iff in I. destruct I as (y & Ey & I).
      apply repeat_spec in I. subst y. rewrite Rabs_R0 in Ey. assert (tm = 0) as -> by lra.
      split; auto. rewrite TP. destruct (Req_EM_T 0 0); [|congruence].
      etransitivity; [|symmetry; apply all_zero; exact ZZ]. f_equal. lia. }
  apply params_eq; auto.
  - rewrite CP. unfold p; simpl. unfold xs, vscale. rewrite map_map.
    transitivity (map (fun x : R => x) (chord_percentage q)); [apply map_ext; intros; field; lra|apply map_id].
  - rewrite CM. apply Rabs_right. lra.
Qed.
End A.

(** Slopes. *)
Lemma slopes_from_spec : forall cm L cs xs c0 x0 m, slopes_from cm L c0 x0 cs xs = Ok m -> List.length cs = List.length xs ->
  List.length m = List.length cs /\
  forall i, (i < List.length cs)%nat ->
    let a := nth i (c0 :: cs) 0 in let b := nth (S i) (c0 :: cs) 0 in
    let u := nth i (x0 :: xs) 0 in let v := nth (S i) (x0 :: xs) 0 in
    v - u <> 0 /\ L <> 0 /\ nth i m 0 = (b - a) * cm / (v - u) / L.
Proof.
  induction cs as [|c cs IH]; intros xs c0 x0 m H E; destruct xs as [|x xs]; try discriminate; simpl in H.
  - injection H as <-. split; auto. simpl; intros; lia.
  - unfold fdiv in H at 1. destruct (Req_EM_T (x - x0) 0) as [|NX]; [discriminate|]. cbn [bind] in H.
    unfold fdiv in H at 1. destruct (Req_EM_T L 0) as [|NL]; [discriminate|]. cbn [bind] in H.
    apply bind_ok in H. destruct H as [r [Er H]]. injection H as <-.
    destruct (IH _ _ _ _ Er) as [Lr Sr]; [simpl in E; lia|]. split; [simpl; auto|].
    intros i Hi. destruct i as [|i]; simpl in *; [auto|]. apply Sr. lia.
Qed.
Lemma slopes_spec : forall q m, slopes q = Ok m -> List.length (camber_percentage q) = List.length (chord_percentage q) ->
  List.length m = List.length (chord_percentage q) /\ nth 0 m 0 = 0 /\
  forall j, (S j < List.length m)%nat ->
    let dx := nth (S j) (chord_percentage q) 0 - nth j (chord_percentage q) 0 in
    dx <> 0 /\ chord_length q <> 0 /\
    nth (S j) m 0 = (nth (S j) (camber_percentage q) 0 - nth j (camber_percentage q) 0) * camber_max q / dx / chord_length q.
Proof.
  intros q m H E. unfold slopes in H. destruct (camber_percentage q) as [|c cs]; destruct (chord_percentage q) as [|x xs]; try discriminate.
  - injection H as <-. split; auto. split; auto. simpl; intros; lia.
  - apply bind_ok in H. destruct H as [r [Er H]]. injection H as <-.
    destruct (slopes_from_spec _ _ _ _ _ _ _ Er) as [Lr Sr]; [simpl in E; lia|].
    split; [simpl in *; lia|]. split; auto. intros j Hj. simpl in Hj.
    apply (Sr j). lia.
Qed.

Lemma nth_map2 : forall {A B C} (f : A -> B -> C) a b i da db dc, (i < List.length a)%nat -> (i < List.length b)%nat ->
  nth i (map2 f a b) dc = f (nth i a da) (nth i b db).
Proof. induction a; destruct b; intros; simpl in *; try lia. destruct i; auto. apply IHa; lia. Qed.
Lemma nth_map : forall {A B} (f : A -> B) a i d d', (i < List.length a)%nat -> nth i (map f a) d' = f (nth i a d).
Proof. induction a; intros; simpl in *; try lia. destruct i; auto. apply IHa; lia. Qed.
Lemma item_nth : forall (l : list R) i x, item l i = Ok x -> (i < List.length l)%nat /\ nth i l 0 = x.
Proof.
  intros l i x H. unfold item in H. destruct (nth_error l i) eqn:E; [|discriminate]. injection H as ->.
  split; [apply nth_error_Some; congruence|]. apply nth_error_nth. auto.
Qed.
Lemma set1_nth : forall v l i, nth i (set1 v l) 0 = match i with 1%nat => (if Nat.leb 2 (List.length l) then v else nth 1 l 0) | _ => nth i l 0 end.
Proof. intros v l i. destruct l as [|a [|b l]]; destruct i as [|[|i]]; auto. Qed.
Lemma set1_length : forall v l, List.length (set1 v l) = List.length l.
Proof. destruct l as [|a [|b l]]; auto. Qed.

(** Before the second-point correction. *)
Lemma ortho_geometry : forall q m p, slopes q = Ok m -> consistent_params q ->
  List.length (xup p) = List.length m -> List.length (xdown p) = List.length m ->
  (forall i, (i < List.length m)%nat ->
     let t := nth i (thickness_percentage q) 0 in let a := atan (nth i m 0) in
     nth i (xup p) 0 = fst (camber_point q i) - t * sin a * thickness_max q / 2 /\
     nth i (xdown p) 0 = fst (camber_point q i) + t * sin a * thickness_max q / 2 /\
     nth i (yup p) 0 = snd (camber_point q i) + thickness_max q / 2 * t * cos a /\
     nth i (ydown p) 0 = snd (camber_point q i) - thickness_max q / 2 * t * cos a) ->
  forall i, (i < List.length m)%nat -> orthogonal_at q p i.
Proof.
  intros q m p Em (C1 & C2 & L1 & L2) LU LD F i Hi. specialize (F i Hi). cbv zeta in F. destruct F as (X1 & X2 & Y1 & Y2).
  destruct (slopes_spec _ _ Em L1) as (LM & M0 & MS).
  unfold orthogonal_at, up_at, down_at. rewrite X1, X2, Y1, Y2.
  set (t := nth i (thickness_percentage q) 0) in *. set (a := atan (nth i m 0)) in *.
  split; [apply injective_projections; simpl; field|]. split.
  { unfold pdist, pnorm, psub; simpl.
    replace (_ + _) with ((thickness_max q * t) * (thickness_max q * t) * (Rsqr (sin a) + Rsqr (cos a))) by (unfold Rsqr; field).
    rewrite sin2_cos2, Rmult_1_r. change (sqrt (Rsqr (thickness_max q * t)) = thickness_max q * Rabs t).
    rewrite sqrt_Rsqr_abs, Rabs_mult, (Rabs_right (thickness_max q)) by lra. auto. }
  destruct i as [|j].
  - unfold a. rewrite M0, atan_0, sin_0. simpl. lra.
  - destruct (MS j Hi) as (DX & DL & MV). cbv zeta in *.
    assert (SA : sin a = nth (S j) m 0 * cos a).
    { pose proof (tan_atan (nth (S j) m 0)) as T. fold a in T. unfold tan in T.
      assert (cos a <> 0). { pose proof (atan_bound (nth (S j) m 0)). fold a in H. apply Rgt_not_eq, cos_gt_0; lra. }
      rewrite <- T at 1. field. auto. }
    unfold pdot, psub. cbn [fst snd].
    set (dx := nth (S j) (chord_percentage q) 0 - nth j (chord_percentage q) 0) in *.
    set (dc := nth (S j) (camber_percentage q) 0 - nth j (camber_percentage q) 0) in *.
    unfold camber_point; cbn [fst snd].
    replace (nth (S j) (chord_percentage q) 0 * chord_length q - nth j (chord_percentage q) 0 * chord_length q) with (dx * chord_length q) by (unfold dx; ring).
    replace (nth (S j) (camber_percentage q) 0 * camber_max q - nth j (camber_percentage q) 0 * camber_max q) with (dc * camber_max q) by (unfold dc; ring).
    rewrite SA, MV. field. auto.
Qed.

Lemma orth_camber_geometry : forall q o, consistent_params q -> orth_camber_coordinates q = Ok o ->
  (2 <= List.length (chord_percentage q))%nat /\
  List.length (xup o) = List.length (chord_percentage q) /\ List.length (xdown o) = List.length (chord_percentage q) /\
  List.length (yup o) = List.length (chord_percentage q) /\ List.length (ydown o) = List.length (chord_percentage q) /\
  (forall i, (i < List.length (chord_percentage q))%nat -> i <> 1%nat -> orthogonal_at q o i) /\
  ((orthogonal_at q o 1 /\ 0 <= fst (up_at o 1)) \/
   (nudged (up_at o 1) (up_at o 2) /\ nudged (down_at o 1) (down_at o 2))).
Proof.
  intros q o (C1 & C2 & L1 & L2) H. unfold orth_camber_coordinates in H.
  apply bind_ok in H. destruct H as [m [Em H]].
  destruct (slopes_spec _ _ Em L1) as (LM & _ & _).
  assert (LA : List.length (map atan m) = List.length m) by apply map_length.
  rewrite !vzip_ok in H by (unfold vscale; rewrite ?map_length; lia). cbn [bind] in H.
  set (ts := map2 (fun t a => t * sin a * thickness_max q / 2) (thickness_percentage q) (map atan m)) in *.
  set (tc := map2 (fun t a => thickness_max q / 2 * t * cos a) (thickness_percentage q) (map atan m)) in *.
  assert (LTS : List.length ts = List.length m) by (unfold ts; rewrite map2_length by lia; lia).
  assert (LTC : List.length tc = List.length m) by (unfold tc; rewrite map2_length by lia; lia).
  set (xs := vscale (chord_length q) (chord_percentage q)) in *.
  set (cam := vscale (camber_max q) (camber_percentage q)) in *.
  assert (LX : List.length xs = List.length m) by (unfold xs, vscale; rewrite map_length; lia).
  assert (LC : List.length cam = List.length m) by (unfold cam, vscale; rewrite map_length; lia).
  rewrite !vzip_ok in H by lia. cbn [bind] in H.
  apply bind_ok in H. destruct H as [x1 [Ex1 H]].
  set (p := mkProfile (map2 Rminus xs ts) (map2 Rplus xs ts) (map2 Rplus cam tc) (map2 Rminus cam tc)).
  assert (G : forall i, (i < List.length m)%nat -> orthogonal_at q p i).
  { apply ortho_geometry; auto.
    - repeat split; auto.
    - simpl. rewrite map2_length; lia.
    - simpl. rewrite map2_length; lia.
    - intros i Hi. unfold p; cbn [xup xdown yup ydown]. cbv zeta.
      rewrite !(nth_map2 _ _ _ i 0 0) by lia.
      assert (TS : nth i ts 0 = nth i (thickness_percentage q) 0 * sin (atan (nth i m 0)) * thickness_max q / 2).
      { unfold ts. rewrite (nth_map2 _ _ _ i 0 0) by lia. rewrite (nth_map _ _ i 0) by lia. auto. }
      assert (TC : nth i tc 0 = thickness_max q / 2 * nth i (thickness_percentage q) 0 * cos (atan (nth i m 0))).
      { unfold tc. rewrite (nth_map2 _ _ _ i 0 0) by lia. rewrite (nth_map _ _ i 0) by lia. auto. }
      rewrite TS, TC. unfold xs, cam, vscale.
      rewrite !(nth_map _ _ i 0) by lia. unfold camber_point. simpl. auto. }
  assert (LPU : List.length (map2 Rminus xs ts) = List.length m) by (rewrite map2_length; lia).
  assert (LPD : List.length (map2 Rplus xs ts) = List.length m) by (rewrite map2_length; lia).
  assert (LYU : List.length (map2 Rplus cam tc) = List.length m) by (rewrite map2_length; lia).
  assert (LYD : List.length (map2 Rminus cam tc) = List.length m) by (rewrite map2_length; lia).
  apply item_nth in Ex1. destruct Ex1 as [B1 V1].
  split; [lia|].
  destruct (Rlt_dec x1 0) as [NEG|POS].
  - apply bind_ok in H. destruct H as [a [Ea H]]. apply bind_ok in H. destruct H as [b [Eb H]].
    apply bind_ok in H. destruct H as [c [Ec H]]. apply bind_ok in H. destruct H as [d [Ed H]].
    apply item_nth in Ea, Eb, Ec, Ed. destruct Ea as [B2 Ea], Eb as [_ Eb], Ec as [_ Ec], Ed as [_ Ed].
    injection H as <-. cbn [xup xdown yup ydown]. rewrite !set1_length.
    split; [lia|]. split; [lia|]. split; [lia|]. split; [lia|]. split.
    + intros i Hi N1. specialize (G i ltac:(lia)).
      unfold orthogonal_at, up_at, down_at in *. cbn [xup xdown yup ydown] in *. rewrite !set1_nth.
      destruct i as [|[|i]]; [exact G|congruence|exact G].
    + right. unfold nudged, up_at, down_at, psub. cbn [xup xdown yup ydown fst snd]. rewrite !set1_nth.
      rewrite LPU, LPD, LYU, LYD. replace (Nat.leb 2 (List.length m)) with true by (symmetry; apply Nat.leb_le; lia).
      rewrite Ea, Eb, Ec, Ed. split; apply injective_projections; simpl; lra.
  - injection H as <-. fold p. cbn [xup xdown yup ydown p].
    split; [lia|]. split; [lia|]. split; [lia|]. split; [lia|]. split; [intros; apply G; lia|].
    left. split; [apply G; lia|]. unfold up_at, p. cbn [xup fst]. lra.
Qed.

Lemma american_midpoint : forall curve q p o, orth_camber_coordinates q = Ok o -> coordinates_american curve q = Ok p ->
  xup p = xup o /\ xdown p = xdown o /\
  curve (xdown o) (ydown o) (map (fun c => c * chord_length q) (chord_percentage q)) = Ok (ydown p) /\
  mean (yup p) (ydown p) = map (fun c => c * camber_max q) (camber_percentage q).
Proof.
  intros curve q p o Eo H. unfold coordinates_american in H. rewrite Eo in H. cbn [bind] in H.
  apply bind_ok in H. destruct H as [yd [Ed H]]. apply bind_ok in H. destruct H as [yu [Eu H]].
  injection H as <-. simpl. apply vzip_inv in Eu. destruct Eu as [L ->].
  repeat split; auto. clear Ed. revert yd L. induction (camber_percentage q) as [|c l IH]; destruct yd; intros L; try discriminate; auto.
  simpl. apply (f_equal2 cons); [lra|apply IH; simpl in L; lia].
Qed.

(** Without camber the two constructions agree. *)
Lemma slopes_zero : forall q m, slopes q = Ok m -> camber_max q = 0 ->
  List.length (camber_percentage q) = List.length (chord_percentage q) ->
  m = zeros (List.length (chord_percentage q)).
Proof.
  intros q m H Z E. destruct (slopes_spec q m H E) as (L & M0 & MS). rewrite <- L. apply all_zero.
  intros x I. apply (In_nth _ _ 0) in I. destruct I as (i & Hi & <-). destruct i as [|j]; auto.
  destruct (MS j Hi) as (A & B & ->). rewrite Z. unfold Rdiv. ring.
Qed.
Lemma map2_zero_r : forall (f : R -> R -> R) a b, List.length a = List.length b -> (forall x, In x b -> x = 0) ->
  map2 f a b = map (fun x => f x 0) a.
Proof. induction a; destruct b; intros L H; try discriminate; auto. simpl. rewrite (H r) by (left; auto). f_equal. apply IHa; [simpl in L; lia|]. intros; apply H; right; auto. Qed.

Lemma orth_uncambered : forall q o, consistent_params q -> camber_max q = 0 ->
  orth_camber_coordinates q = Ok o -> 0 <= nth 1 (chord_percentage q) 0 * chord_length q ->
  coordinates_british q = Ok o.
Proof.
  intros q o (C1 & C2 & L1 & L2) Z H P. unfold orth_camber_coordinates in H.
  apply bind_ok in H. destruct H as [m [Em H]]. pose proof (slopes_zero _ _ Em Z L1) as ->.
  set (n := List.length (chord_percentage q)) in *.
  assert (LZ : List.length (zeros n) = n) by apply repeat_length.
  rewrite !vzip_ok in H by (unfold vscale; rewrite ?map_length; lia). cbn [bind] in H.
  set (A := map atan (zeros n)) in *.
  assert (LA : List.length A = n) by (unfold A; rewrite map_length; auto).
  assert (ZA : forall x, In x A -> x = 0).
  { intros x I. unfold A in I. apply in_map_iff in I. destruct I as (y & <- & I). apply repeat_spec in I. subst. apply atan_0. }
  rewrite (map2_zero_r _ _ A) in H by (auto; lia). rewrite (map2_zero_r _ _ A) in H by (auto; lia).
  unfold vscale in *.
  rewrite sin_0, cos_0 in H.
  assert (K1 : map (fun x => x * 0 * thickness_max q / 2) (thickness_percentage q) = zeros n).
  { rewrite <- L2. apply map_zero. intros; lra. }
  rewrite K1 in H.
  replace (map (fun x => thickness_max q / 2 * x * 1) (thickness_percentage q)) with (map (fun x => thickness_max q / 2 * x) (thickness_percentage q)) in H
    by (apply map_ext; intros; lra).
  rewrite !vzip_ok in H by (rewrite ?map_length; lia). cbn [bind] in H.
  rewrite !(map2_zero_r _ _ (zeros n)) in H by (first [rewrite map_length; lia | intros x I; apply repeat_spec in I; auto]).
  rewrite !map_map in H.
  replace (map (fun x => x * chord_length q - 0) (chord_percentage q)) with (map (fun x => x * chord_length q) (chord_percentage q)) in H by (apply map_ext; intros; lra).
  replace (map (fun x => x * chord_length q + 0) (chord_percentage q)) with (map (fun x => x * chord_length q) (chord_percentage q)) in H by (apply map_ext; intros; lra).
  apply bind_ok in H. destruct H as [x1 [Ex1 H]]. apply item_nth in Ex1. destruct Ex1 as [B1 V1].
  rewrite map_length in B1. rewrite (nth_map _ _ 1%nat 0) in V1 by auto.
  destruct (Rlt_dec x1 0) as [N|N]; [lra|]. injection H as <-.
  unfold coordinates_british, vscale. rewrite !vzip_ok by (rewrite ?map_length; lia). auto.
Qed.
