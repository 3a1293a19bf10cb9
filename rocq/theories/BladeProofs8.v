(** Proofs: blades whose lower surfaces have another number of points than the upper ones. *)
From Coq Require Import String Reals List ZArith Lra Lia Bool.
From Verif Require Import Base ProfileModel ProfileSpec ProfileProofs ProfileProofs2 
  BladeModel BladeSpec BladeProofs BladeProofs2 BladeProofs6.
Import ListNotations.
Open Scope R_scope.

Section Sizes.
Variables n m : nat.

Lemma translate_points : forall v p, counted n m p -> counted n m (translate v p).
Proof. intros v p (A & B & C & D). unfold counted, translate, vshift. cbn [xup yup xdown ydown]. rewrite !map_length. auto. Qed.
Lemma coords_points : forall k p, counted n m p -> counted n m (scale_coords k p).
Proof. intros k p (A & B & C & D). unfold counted, scale_coords, vscale. cbn [xup yup xdown ydown]. rewrite !map_length. auto. Qed.
Lemma map2_length : forall (f : R -> R -> R) a b, List.length a = List.length b -> List.length (map2 f a b) = List.length a.
Proof. intros f a. induction a as [|x a IH]; intros [|y b] H; cbn in *; try discriminate; auto. Qed.
Lemma rotate_points : forall t p, (n <= m)%nat -> counted n m p -> exists q, rotate (Some t) None p = Ok q /\ counted n m q.
Proof.
  intros t p L (A & B & C & D). unfold rotate. cbn [rotation_angle bind fst snd]. rewrite A, B, C, D, !Nat.eqb_refl. cbn [negb].
  replace (Nat.ltb m n) with false by (symmetry; apply Nat.ltb_ge; lia). eexists. split; [reflexivity|].
  unfold counted. cbn [xup xdown yup ydown].
  assert (F : List.length (firstn n (xdown p)) = n /\ List.length (firstn n (ydown p)) = n) by (rewrite !firstn_length; lia). destruct F as (F1 & F2).
  rewrite !app_length. unfold zeros. rewrite !repeat_length, !map2_length by (rewrite ?F1, ?F2, ?A, ?B; auto). lia.
Qed.
Lemma rotate_short : forall t p, (m < n)%nat -> counted n m p -> rotate (Some t) None p = Err IndexError.
Proof.
  intros t p L (A & B & C & D). unfold rotate. cbn [rotation_angle bind fst snd]. rewrite A, B, C, D, !Nat.eqb_refl. cbn [negb].
  replace (Nat.ltb m n) with true by (symmetry; apply Nat.ltb_lt; lia). reflexivity.
Qed.
Lemma size_points : forall c p ref, counted n m p -> reference_point p = Ok ref -> exists q,
  run_steps [ (fun p => let* ref := reference_point p in Ok (translate (- fst ref, - snd ref) p)); (fun p => scale c true p) ] p = (q, Ok tt) /\ counted n m q.
Proof.
  intros c p ref P Hr. cbn [run_steps]. rewrite Hr. cbn [bind]. unfold scale.
  assert (E : reference_point (translate (- fst ref, - snd ref) p) = Ok (padd ref (- fst ref, - snd ref))) by (apply translate_reference; exact Hr).
  rewrite E. cbn [bind]. eexists. split; [reflexivity|]. apply translate_points, coords_points, translate_points, translate_points, P.
Qed.

Lemma section_points : forall b (refl : bool) i s r c P k sk p ref, station b i s r c P k sk -> r <> 0 -> thickness b = None -> camber b = None ->
  counted n m p -> reference_point p = Ok ref ->
  ((n <= m)%nat -> exists q, run_steps (section_steps b refl i) p = (q, Ok tt) /\ counted n m q) /\
  ((m < n)%nat -> exists q, run_steps (section_steps b refl i) p = (q, Err IndexError) /\ counted n m q).
Proof.
  intros b refl i s r c P k sk p ref S Hr T K PP R. rewrite (section_steps_split _ _ _ _ _ _ _ _ _ S).
  destruct (size_points c p ref PP R) as (p1 & -> & P1). rewrite T, K. cbn [run_steps].
  assert (Q : exists p2, run_steps (if refl then [ fun p => Ok (reflect p) ] else []) p1 = (p2, Ok tt) /\ counted n m p2).
  { destruct refl; cbn [run_steps]; eexists; (split; [reflexivity|]); [apply coords_points|]; exact P1. }
  destruct Q as (p2 & E2 & P2). rewrite run_steps_app, E2. cbn [run_steps].
  rewrite (pitch_angle_at_ok _ _ _ _ _ _ _ _ S Hr), (induced_rake_at_ok _ _ _ _ _ _ _ _ S Hr).
  unfold item. rewrite (st_radius _ _ _ _ _ _ _ _ S), (st_skew _ _ _ _ _ _ _ _ S), (st_rake _ _ _ _ _ _ _ _ S). cbn [bind]. split; intros L.
  - destruct (rotate_points (PI / 2 - atan (P / (2 * PI * r))) p2 L P2) as (p3 & -> & P3). eexists. split; [reflexivity|].
    apply translate_points, translate_points, P3.
  - rewrite (rotate_short _ _ L P2). eauto.
Qed.
End Sizes.

(** ** apply_transformations *)
Lemma transform_short : forall (n m : nat) b (refl : bool) st, (m < n)%nat -> consistent b -> sections b <> [] -> Forall (fun r => r <> 0) (radii b) ->
  thickness b = None -> camber b = None -> (forall s, In s (sections b) -> counted n m (st s) /\ exists ref, reference_point (st s) = Ok ref) ->
  exists st', apply_transformations refl st b = (st', b, Err IndexError) /\ forall s, nth_error (sections b) 0 <> Some s -> st' s = st s.
Proof.
  intros n m b refl st L C NE F T K H. destruct (sections b) as [|s0 ss] eqn:ES; [contradiction|].
  destruct (consistent_station b 0 C) as (s & r & c & P & k & sk & S); [rewrite ES; cbn; lia|].
  pose proof (st_section _ _ _ _ _ _ _ _ S) as Hs. rewrite ES in Hs. injection Hs as <-.
  assert (Hr : r <> 0) by (rewrite Forall_forall in F; apply F; eapply nth_error_In, (st_radius _ _ _ _ _ _ _ _ S)).
  destruct (H s0 (or_introl eq_refl)) as (PP & ref & R).
  destruct (section_points n m b refl 0 s0 r c P k sk (st s0) ref S Hr T K PP R) as (_ & Q). destruct (Q L) as (q & E & _).
  exists (upd st s0 q). unfold apply_transformations. rewrite ES. cbn [List.length seq transform_sections]. rewrite ES. cbn [nth_error]. rewrite E.
  split; [reflexivity|]. intros s N. unfold upd. destruct (Nat.eqb_spec s s0); [subst; contradiction|reflexivity].
Qed.

Lemma coords_counted : forall n m st b, consistent b -> sections b <> [] ->
  (forall i s r c P k sk, station b i s r c P k sk -> r <> 0 /\ counted n m (st s)) ->
  exists up down, cylinder_coords st b = Ok (up, down) /\ Forall (fun l => List.length l = n) up /\ Forall (fun l => List.length l = m) down.
Proof.
  intros n m st b C NE H. unfold cylinder_coords.
  assert (K : forall s r, In (s, r) (combine (rev (sections b)) (rev (radii b))) -> r <> 0 /\ counted n m (st s)).
  { intros s r HIn. apply In_nth_error in HIn as (j & Hj).
    assert (J : nth_error (rev (sections b)) j = Some s /\ nth_error (rev (radii b)) j = Some r).
    { revert j Hj. generalize (rev (sections b)) (rev (radii b)). induction l as [|x l IH]; intros [|y l0] [|j] Hj; cbn in *; try discriminate; [injection Hj as <- <-; auto|auto]. }
    destruct J as (J1 & J2). apply nth_rev in J1, J2. rewrite rev_involutive, rev_length in J1, J2.
    assert (L : (List.length (sections b) - 1 - j < List.length (sections b))%nat).
    { apply nth_error_Some. rewrite J1. discriminate. }
    destruct (consistent_station b _ C L) as (s' & r' & c & P & k & sk & S).
    destruct C as (C1 & _). rewrite C1 in J2.
    rewrite (st_section _ _ _ _ _ _ _ _ S) in J1. rewrite (st_radius _ _ _ _ _ _ _ _ S) in J2.
    injection J1 as <-. injection J2 as <-. eapply H; eauto. }
  match goal with |- context [mapM ?f ?l] => destruct (mapM_total f l) as (ud & E) end.
  { intros (s, r) HIn. destruct (K s r HIn) as (Hr & U1 & U2 & U3 & U4). cbn [fst snd].
    destruct (cylinder_section_total r (xup (st s)) (yup (st s)) Hr ltac:(congruence)) as (u & ->).
    destruct (cylinder_section_total r (xdown (st s)) (ydown (st s)) Hr ltac:(congruence)) as (d & ->). cbn. eauto. }
  rewrite E. cbn [bind]. apply mapM_nth in E as (L & _ & Y).
  assert (LEN : forall u d, In (u, d) ud -> List.length u = n /\ List.length d = m).
  { intros u d HIn. apply In_nth_error in HIn as (j & Hj). apply Y in Hj as ((s, r) & Hx & F). apply nth_error_In in Hx.
    destruct (K s r Hx) as (Hr & U1 & U2 & U3 & U4). cbn [fst snd] in F.
    apply bind_ok in F as (u' & U & F). apply bind_ok in F as (d' & D & F). injection F as -> ->.
    apply cylinder_section_ok in U as (_ & _ & ->). apply cylinder_section_ok in D as (_ & _ & ->).
    rewrite !map_length. unfold pt. rewrite !combine_length. lia. }
  assert (N : ud <> []).
  { intros ->. rewrite combine_length, !rev_length in L. destruct C as (C1 & _). rewrite C1, Nat.min_id in L.
    destruct (sections b); [contradiction|discriminate]. }
  rewrite (stackable_const (map snd ud) m), (stackable_const (map fst ud) n).
  - cbn. exists (map fst ud), (map snd ud). split; [reflexivity|]. split; apply Forall_forall; intros x HIn; apply in_map_iff in HIn as ((u, d) & <- & HIn); apply (LEN u d HIn).
  - destruct ud; [contradiction|discriminate].
  - intros s HIn. apply in_map_iff in HIn as ((u, d) & <- & HIn). apply (LEN u d HIn).
  - destruct ud; [contradiction|discriminate].
  - intros s HIn. apply in_map_iff in HIn as ((u, d) & <- & HIn). apply (LEN u d HIn).
Qed.

Theorem apply_counted : forall (n m : nat) b (refl : bool) st, (n <= m)%nat -> consistent b -> sections b <> [] -> NoDup (sections b) ->
  Forall (fun r => r <> 0) (radii b) -> thickness b = None -> camber b = None ->
  (forall s, In s (sections b) -> counted n m (st s) /\ exists ref, reference_point (st s) = Ok ref) ->
  exists st' up down, apply_transformations refl st b = (st', set_coords (Built up down) b, Ok tt) /\
    List.length up = List.length (sections b) /\ List.length down = List.length (sections b) /\
    Forall (fun l => List.length l = n) up /\ Forall (fun l => List.length l = m) down.
Proof.
  intros n m b refl st L C NE ND F T K U.
  assert (R0 : forall i s r c P k sk, station b i s r c P k sk -> r <> 0).
  { intros i s r c P k sk S. rewrite Forall_forall in F. apply F. eapply nth_error_In. apply (st_radius _ _ _ _ _ _ _ _ S). }
  destruct (transform_total b refl (seq 0 (List.length (sections b))) st) as (st' & HT).
  - apply seq_NoDup.
  - intros; eapply nodup_inj; eauto.
  - intros i Hi. apply in_seq in Hi. destruct (consistent_station b i C ltac:(lia)) as (s & r & c & P & k & sk & S).
    exists s. split; [apply (st_section _ _ _ _ _ _ _ _ S)|].
    destruct (U s) as (Us & ref & R); [eapply nth_error_In, (st_section _ _ _ _ _ _ _ _ S)|].
    destruct (section_points n m b refl i s r c P k sk _ _ S (R0 _ _ _ _ _ _ _ S) T K Us R) as (Q & _). destruct (Q L) as (q & E & _). eauto.
  - pose proof HT as HT0.
    apply transform_nodup in HT as (A & _); [|apply seq_NoDup|intros; eapply nodup_inj; eauto].
    destruct (coords_counted n m st' b C NE) as (up & down & E & LU & LD).
    { intros i s r c P k sk S. pose proof (st_section _ _ _ _ _ _ _ _ S) as Hs.
      assert (I : (i < List.length (sections b))%nat) by (apply nth_error_Some; rewrite Hs; discriminate).
      specialize (A i s ltac:(apply in_seq; lia) Hs).
      destruct (U s) as (Us & ref & R); [eapply nth_error_In; eauto|].
      destruct (section_points n m b refl i s r c P k sk _ _ S (R0 _ _ _ _ _ _ _ S) T K Us R) as (Q & _). destruct (Q L) as (q & E & P2).
      rewrite E in A. injection A as <-. split; [eauto|exact P2]. }
    exists st', up, down.
    assert (AP : apply_transformations refl st b = (st', set_coords (Built up down) b, Ok tt)).
    { unfold apply_transformations. rewrite HT0. unfold planar_to_cylindrical. rewrite E. reflexivity. }
    split; [exact AP|]. destruct (apply_sections _ _ _ _ _ C AP) as (_ & _ & up' & down' & Hc & L1 & L2 & _).
    cbn [coordinates set_coords] in Hc. injection Hc as <- <-. auto.
Qed.

(** ** build *)
Theorem build_counted : forall surface (n m : nat) b (refl : bool) st, (forall g, exists f, surface g = Ok f) -> (n < m)%nat ->
  consistent b -> sections b <> [] -> NoDup (sections b) ->
  Forall (fun r => r <> 0) (radii b) -> thickness b = None -> camber b = None ->
  (forall s, In s (sections b) -> counted n m (st s) /\ exists ref, reference_point (st s) = Ok ref) ->
  exists st' up down b', build surface refl st b = (st', b', Err ValueError) /\ coordinates b' = Built up down /\
    (exists u, surface (grid_map (scale3 1000) up) = Ok u /\ upper_face b' = Some u) /\
    (exists l, surface (grid_map (scale3 1000) down) = Ok l /\ lower_face b' = Some l) /\
    tip_face b' = tip_face b /\ root_face b' = root_face b.
Proof.
  intros surface n m b refl st TS L C NE ND F T K U.
  destruct (apply_counted n m b refl st ltac:(lia) C NE ND F T K U) as (st' & up & down & AP & L1 & L2 & FU & FD).
  destruct (TS (grid_map (scale3 1000) up)) as (u & EU). destruct (TS (grid_map (scale3 1000) down)) as (l & EL).
  unfold build. rewrite AP. cbn [coordinates set_coords]. unfold make_faces. change conversion_factor with 1000. rewrite EU, EL.
  assert (N : sections b <> []) by exact NE.
  assert (X : exists a up', up = up' ++ [a]) by (destruct (@exists_last _ up) as (x & a & ->); [intros ->; destruct (sections b); [contradiction|discriminate]|eauto]).
  assert (Y : exists a down', down = down' ++ [a]) by (destruct (@exists_last _ down) as (x & a & ->); [intros ->; destruct (sections b); [contradiction|discriminate]|eauto]).
  destruct X as (a & up' & ->). destruct Y as (d & down' & ->).
  apply Forall_app in FU as (_ & FU). apply Forall_app in FD as (_ & FD). inversion FU; subst. inversion FD; subst.
  assert (FS : forall (l : list (list pt3)) x, final (l ++ [x]) = Ok x).
  { intros l0 x. induction l0 as [|y l0 IH]; [reflexivity|]. cbn. destruct (l0 ++ [x]) eqn:Q; [destruct l0; discriminate|]. exact IH. }
  unfold grid_map at 1 2 3. rewrite !map_app. cbn [map]. rewrite !FS. unfold pair_grid. cbn [bind stackable forallb]. rewrite !map_length.
  destruct (Nat.eqb_spec (List.length d) (List.length a)) as [Q|Q]; [lia|]. cbn [andb bind].
  exists st', (up' ++ [a]), (down' ++ [d]). eexists. split; [reflexivity|]. cbn [coordinates set_faces set_coords upper_face lower_face tip_face root_face]. eauto 10.
Qed.

(** Two upper and three lower points. *)
Definition odd_foil : profile := mkProfile [0; 1] [0; 1 / 2; 1] [0; 0] [0; -1 / 10; 0].
Definition odd_blade : blade := mkBlade [0%nat] [1] [1] [1] [0] [0] None None NoCoords None None None None.
Lemma odd_reference : reference_point odd_foil = Ok (1 / 2, 0).
Proof.
  unfold reference_point, update_edges, odd_foil. cbn [xup yup xdown ydown first final bind].
  assert (Z : forall x, ~ edge_tol < Rabs (x - x)).
  { intros x. unfold edge_tol. rewrite Rminus_diag_eq, Rabs_R0 by reflexivity. lra. }
  destruct (Rlt_dec edge_tol (Rabs (0 - 0))) as [Q|_]; [exfalso; exact (Z _ Q)|].
  destruct (Rlt_dec edge_tol (Rabs (1 - 1))) as [Q|_]; [exfalso; exact (Z _ Q)|].
  destruct (Req_EM_T 0 0) as [_|Q]; [|contradiction]. cbn [bind fst snd]. apply (f_equal Ok), f_equal2; lra.
Qed.
