(** Proofs: applying the transformations to sections that share arrays raises no error. *)
From Coq Require Import Reals List ZArith Lra Lia Bool String.
From Verif Require Import Base ProfileModel ProfileSpec PpgModel HeapModel HeapSpec HeapProofs HeapProofs2 HeapProofs3
  BladeModel BladeSpec ProfileProofs BladeProofs BladeProofs2 BladeProofs3 HeapBladeModel HeapBladeSpec HeapBladeProofs HeapBladeProofs2 HeapBladeProofs3 HeapBladeProofs4.
Import ListNotations.
Open Scope R_scope.

Definition store_of (w : world) : store := fun s =>
  match nth_error (snd w) s with
  | Some o => match read (fst w, o) with Ok q => q | Err _ => mkProfile [] [] [] [] end
  | None => mkProfile [] [] [] []
  end.

Lemma object_coords_total w b m : consistent b -> sections b <> [] -> Forall (fun r => r <> 0) (radii b) ->
  (forall i s r c P k sk, station b i s r c P k sk -> exists o q, nth_error (snd w) s = Some o /\ read (fst w, o) = Ok q /\
     uniform q /\ List.length (xup q) = m) ->
  exists up down, object_coords w b = Ok (up, down).
Proof.
  intros Co NE Fr H.
  assert (H2 : forall s, In s (sections b) -> exists o q, nth_error (snd w) s = Some o /\ read (fst w, o) = Ok q /\
     uniform q /\ List.length (xup q) = m).
  { intros s Hs. apply In_nth_error in Hs as [i Ei].
    assert (L : (i < List.length (sections b))%nat) by (apply nth_error_Some; congruence).
    destruct (consistent_station b i Co L) as (s' & r & c & P & k & sk & S).
    assert (s' = s) by (pose proof (st_section _ _ _ _ _ _ _ _ S); congruence). subst s'. exact (H _ _ _ _ _ _ _ S). }
  assert (X : object_coords w b = cylinder_coords (store_of w) b).
  { unfold object_coords, cylinder_coords. f_equal. apply mapM_ext_in. intros [s r] Hin. cbn [fst snd].
    destruct (H2 s) as (o & q & A & B & _).
    { apply in_rev. exact (in_combine_l _ _ _ _ Hin). }
    unfold store_of. rewrite A, B. reflexivity. }
  rewrite X. apply (cylinder_coords_total (store_of w) b m Co NE).
  intros i s r c P k sk S. destruct (H _ _ _ _ _ _ _ S) as (o & q & A & B & D & E).
  split; [rewrite Forall_forall in Fr; apply Fr; eapply nth_error_In; exact (st_radius _ _ _ _ _ _ _ _ S)|].
  unfold store_of. rewrite A, B. auto.
Qed.

Lemma closed_refers p : uniform p -> closed p -> exists ref, reference_point p = Ok ref.
Proof. intros U (le & te & A & B & C & D). eexists. eapply closed_reference; eauto. Qed.

Lemma transform_same_total b refl p o : thickness b = None -> camber b = None -> NoDup (sections b) ->
  closed p -> Forall (fun r => r <> 0) (radii b) -> consistent b ->
  forall m j0 h os A f,
  (j0 + m <= List.length (sections b))%nat -> Forall (fun s => (s < List.length os)%nat) (sections b) ->
  (forall j s o', (j0 <= j < j0 + m)%nat -> nth_error (sections b) j = Some s -> nth_error os s = Some o' -> o' = o) ->
  owns h o -> read (h, o) = Ok A -> moved f p A ->
  exists w, transform_objects b refl (seq j0 m) (h, os) = (w, Ok tt).
Proof.
  intros T C Ns Cl Fr Co. induction m as [|m IH]; intros j0 h os A f L Bd Same Ow Rd M; [eexists; reflexivity|].
  cbn [seq transform_objects].
  assert (L0 : (j0 < List.length (sections b))%nat) by lia.
  destruct (consistent_station b j0 Co L0) as (s0 & r0 & c0 & P0 & k0 & sk0 & S0).
  pose proof (st_section _ _ _ _ _ _ _ _ S0) as Es. rewrite Es. cbn [fst snd].
  assert (Ls : (s0 < List.length os)%nat) by (rewrite Forall_forall in Bd; apply Bd; eapply nth_error_In; eauto).
  destruct (nth_error os s0) as [o0|] eqn:Eo; [|apply nth_error_None in Eo; lia].
  assert (o0 = o) by (apply (Same j0 s0 o0); auto; lia). subst o0.
  assert (R0 : r0 <> 0).
  { rewrite Forall_forall in Fr. apply Fr. eapply nth_error_In. exact (st_radius _ _ _ _ _ _ _ _ S0). }
  destruct (closed_refers A (proj1 M) (closed_moved _ _ _ Cl M)) as [refA HA].
  destruct (section_runs b refl j0 s0 r0 c0 P0 k0 sk0 h o A _ S0 R0 (proj1 M) T C Ow Rd HA)
    as (h1 & o1 & p1 & q & E1 & R1 & M1 & O1 & R2 & M2 & O2 & N2 & G1 & G2).
  rewrite E1.
  refine (IH (Datatypes.S j0) h1 (replace_at os s0 o1) p1 _ _ _ _ O1 R1 (moved_compose _ _ _ _ _ M M1)); [lia| |].
  - rewrite replace_length. exact Bd.
  - intros j s' o' Hj Hs Ho. rewrite replace_nth in Ho. destruct (Nat.eqb_spec s0 s') as [<-|N].
    + pose proof (nodup_inj _ Ns j0 j s0 Es Hs). lia.
    + apply (Same j s' o'); auto; lia.
Qed.

Theorem same_arrays_total refl h o os b p :
  owns h o -> read (h, o) = Ok p -> uniform p -> closed p -> Forall (fun o' => o' = o) os ->
  consistent b -> sections b <> [] -> NoDup (sections b) -> Forall (fun s => (s < List.length os)%nat) (sections b) ->
  Forall (fun r => r <> 0) (radii b) -> thickness b = None -> camber b = None ->
  exists w' b', h_apply_transformations refl (h, os) b = (w', b', Ok tt).
Proof.
  intros Ow Rd U Cl Fo Co NE Ns Bd Fr T C.
  destruct (closed_refers p U Cl) as [ref Hr].
  assert (Same : forall j s o', (0 <= j < 0 + List.length (sections b))%nat -> nth_error (sections b) j = Some s -> nth_error os s = Some o' -> o' = o).
  { intros j s o' _ _ Ho. rewrite Forall_forall in Fo. apply Fo. eapply nth_error_In; eauto. }
  destruct (transform_same_total b refl p o T C Ns Cl Fr Co (List.length (sections b)) 0 h os p (fun a => a) ltac:(lia) Bd Same Ow Rd (moved_id p U)) as [w E].
  destruct (object_coords_total w b (List.length (xup p)) Co NE Fr) as (up & down & X).
  { intros i s r c P k sk S.
    assert (Li : (0 <= i < 0 + List.length (sections b))%nat).
    { split; [lia|]. cbn. apply nth_error_Some. rewrite (st_section _ _ _ _ _ _ _ _ S). discriminate. }
    assert (M0 : moved (fun a => padd (off ref 0) (pscale (wear refl (chords b) 0) (psub a ref))) p p).
    { eapply moved_ext; [|apply moved_id; exact U]. intros [x y]. unfold wear. cbn [firstn map fold_right off].
      unfold padd, pscale, psub. cbn [fst snd]. f_equal; ring. }
    destruct (transform_same b refl p ref o T C Ns U Hr Fr Co _ 0 h os w p Same Ow Rd M0 E i s r c P k sk Li S) as (o' & q & A & B & M).
    exists o', q. split; [exact A|]. split; [exact B|]. split; [apply M|]. eapply moved_length; eauto. }
  exists w, (set_coords (Built up down) b). unfold h_apply_transformations. rewrite E, X. reflexivity.
Qed.

Definition ready (h : heap) (o : object) : Prop :=
  shares_abscissae h o /\ exists p ref, read (h, o) = Ok p /\ uniform p /\ reference_point p = Ok ref.

Lemma ready_unchanged h h' o : (forall a, In a (addresses o) -> nth_error h' a = nth_error h a) -> ready h o -> ready h' o.
Proof.
  intros K ((A & B & C) & p & ref & R & U & Hr). split.
  - split; [exact A|]. split; [exact B|]. rewrite Forall_forall in *. intros a Ha. destruct (C a Ha) as [l El]. exists l. rewrite K; auto.
  - exists p, ref. split; [rewrite <- R; apply read_unchanged; exact K|auto].
Qed.

Lemma shares_bound h o a : shares_abscissae h o -> In a (addresses o) -> (a < List.length h)%nat.
Proof. intros (_ & _ & F) Ha. rewrite Forall_forall in F. destruct (F a Ha) as [l E]. apply nth_error_Some. congruence. Qed.

Lemma transform_shared_total b refl : thickness b = None -> camber b = None -> NoDup (sections b) ->
  Forall (fun r => r <> 0) (radii b) -> consistent b ->
  forall is h os, NoDup is -> (forall i, In i is -> (i < List.length (sections b))%nat) ->
  (forall i s, In i is -> nth_error (sections b) i = Some s -> exists o, nth_error os s = Some o /\ ready h o) ->
  (forall i j s t o o' a, In i is -> In j is -> nth_error (sections b) i = Some s -> nth_error (sections b) j = Some t -> s <> t ->
     nth_error os s = Some o -> nth_error os t = Some o' -> In a (addresses o) -> ~ In a (addresses o')) ->
  exists w, transform_objects b refl is (h, os) = (w, Ok tt).
Proof.
  intros T C Ns Fr Co. induction is as [|i is IH]; intros h os Ni Bd Rdy Dis; [eexists; reflexivity|].
  cbn [transform_objects].
  destruct (consistent_station b i Co (Bd i (or_introl eq_refl))) as (s & r & c & P & k & sk & S).
  pose proof (st_section _ _ _ _ _ _ _ _ S) as Es. rewrite Es. cbn [fst snd].
  destruct (Rdy i s (or_introl eq_refl) Es) as (o & Eo & Sh & p & ref & Rd & U & Hr). rewrite Eo.
  assert (R0 : r <> 0).
  { rewrite Forall_forall in Fr. apply Fr. eapply nth_error_In. exact (st_radius _ _ _ _ _ _ _ _ S). }
  rewrite (calls_split b refl i T C), run_calls_app.
  destruct (head_shared b refl i s r c P k sk h o p ref S U Sh Rd Hr) as (h2 & p1 & E2 & R2 & M2 & G1 & G2 & G3).
  rewrite E2.
  destruct (tail_runs b i s r c P k sk h2 o p1 S R0 (proj1 M2) R2) as (h3 & o3 & q & E3 & R3 & M3 & O3 & N3 & K1 & K2).
  rewrite E3. inversion Ni as [|? ? Ni1 Ni2]; subst.
  assert (Other : forall j t, In j is -> nth_error (sections b) j = Some t -> s <> t).
  { intros j t Hj Ej ->. apply Ni1. rewrite (nodup_inj _ Ns i j t Es Ej). exact Hj. }
  apply IH; auto.
  - intros j Hj. apply Bd. right; auto.
  - intros j t Hj Ej. destruct (Rdy j t (or_intror Hj) Ej) as (o' & Eo' & Ry).
    exists o'. split.
    + rewrite replace_nth. destruct (Nat.eqb_spec s t) as [X|]; [exfalso; exact (Other j t Hj Ej X)|exact Eo'].
    + apply (ready_unchanged h); [|exact Ry]. intros a Ha. pose proof (shares_bound _ _ _ (proj1 Ry) Ha).
      rewrite K1 by lia. apply G1; [lia|]. intros Hin.
      exact (Dis i j s t o o' a (or_introl eq_refl) (or_intror Hj) Es Ej (Other j t Hj Ej) Eo Eo' Hin Ha).
  - intros j1 j2 t1 t2 o1 o2 a H1 H2 E1 E2' N Eo1 Eo2. rewrite replace_nth in Eo1, Eo2.
    destruct (Nat.eqb_spec s t1) as [X|_]; [exfalso; exact (Other _ _ H1 E1 X)|].
    destruct (Nat.eqb_spec s t2) as [X|_]; [exfalso; exact (Other _ _ H2 E2' X)|].
    exact (Dis j1 j2 t1 t2 o1 o2 a (or_intror H1) (or_intror H2) E1 E2' N Eo1 Eo2).
Qed.

Lemma three_disjoint h os : Forall (shares_abscissae h) os -> NoDup (flat_map three_arrays os) ->
  forall s t o o' a, s <> t -> nth_error os s = Some o -> nth_error os t = Some o' -> In a (addresses o) -> ~ In a (addresses o').
Proof.
  intros Sh Nd s t o o' a Ne Eo Eo' Ha Ha'.
  assert (A3 : forall z, In z os -> In a (addresses z) -> In a (three_arrays z)).
  { intros z Hz Hin. rewrite Forall_forall in Sh. destruct (Sh z Hz) as (Hx & _). unfold addresses in Hin. unfold three_arrays.
    rewrite Hx in *. cbn in *. tauto. }
  pose proof (A3 o (nth_error_In _ _ Eo) Ha) as B1. pose proof (A3 o' (nth_error_In _ _ Eo') Ha') as B2.
  clear - Nd Ne Eo Eo' B1 B2. revert s t Ne Eo Eo'. induction os as [|z os IH]; intros s t Ne Eo Eo'.
  - destruct s; discriminate.
  - cbn [flat_map] in Nd. destruct (nodup_split _ _ Nd) as (X1 & X2 & X3).
    destruct s as [|s], t as [|t]; cbn in Eo, Eo'.
    + congruence.
    + injection Eo as ->. apply (X3 a B1). apply in_flat_map. exists o'. split; [eapply nth_error_In; eauto|auto].
    + injection Eo' as ->. apply (X3 a B2). apply in_flat_map. exists o. split; [eapply nth_error_In; eauto|auto].
    + apply (IH X2 s t); auto.
Qed.

Theorem shared_abscissae_total refl h os b m :
  Forall (shares_abscissae h) os -> NoDup (flat_map three_arrays os) ->
  consistent b -> sections b <> [] -> NoDup (sections b) -> Forall (fun s => (s < List.length os)%nat) (sections b) ->
  Forall (fun r => r <> 0) (radii b) -> thickness b = None -> camber b = None ->
  (forall s o, In s (sections b) -> nth_error os s = Some o -> exists p ref, read (h, o) = Ok p /\ uniform p /\
     List.length (xup p) = m /\ reference_point p = Ok ref) ->
  exists w' b', h_apply_transformations refl (h, os) b = (w', b', Ok tt).
Proof.
  intros Sh Nd Co NE Ns Bd Fr T C H.
  assert (Obj : forall s, In s (sections b) -> exists o, nth_error os s = Some o /\ In o os).
  { intros s Hs. rewrite Forall_forall in Bd. specialize (Bd s Hs). destruct (nth_error os s) as [o|] eqn:Eo; [|apply nth_error_None in Eo; lia].
    exists o. split; [reflexivity|]. eapply nth_error_In; eauto. }
  destruct (transform_shared_total b refl T C Ns Fr Co (seq 0 (List.length (sections b))) h os) as [w E].
  - apply seq_NoDup.
  - intros i Hi. apply in_seq in Hi. lia.
  - intros i s _ Ei. destruct (Obj s (nth_error_In _ _ Ei)) as (o & Eo & Io). exists o. split; [exact Eo|]. split.
    + rewrite Forall_forall in Sh. auto.
    + destruct (H s o (nth_error_In _ _ Ei) Eo) as (p & ref & A & B & _ & D). eauto.
  - intros i j s t o o' a _ _ _ _ N Eo Eo'. exact (three_disjoint h os Sh Nd s t o o' a N Eo Eo').
  - assert (X : forall up down, object_coords w b = Ok (up, down) -> h_apply_transformations refl (h, os) b = (w, set_coords (Built up down) b, Ok tt)).
    { intros up down Q. unfold h_apply_transformations. rewrite E, Q. reflexivity. }
    destruct (object_coords_total w b m Co NE Fr) as (up & down & Q); [|eauto].
    intros i s r c P k sk S. pose proof (st_section _ _ _ _ _ _ _ _ S) as Es.
    destruct (Obj s (nth_error_In _ _ Es)) as (o & Eo & Io).
    destruct (H s o (nth_error_In _ _ Es) Eo) as (p & ref & A & B & D & F).
    assert (R0 : r <> 0).
    { rewrite Forall_forall in Fr. apply Fr. eapply nth_error_In. exact (st_radius _ _ _ _ _ _ _ _ S). }
    destruct (shared_transformed refl h os b w Sh Nd Ns T C E i s r c P k sk o p ref S R0 Eo A B F) as (o' & q & Y1 & Y2 & Y3).
    exists o', q. split; [exact Y1|]. split; [exact Y2|]. split; [apply Y3|]. rewrite <- D. eapply moved_length; eauto.
Qed.

(** The coordinates of the blade are those of the section objects. *)
Theorem coordinates_of_objects refl w b w' b' : consistent b ->
  h_apply_transformations refl w b = (w', b', Ok tt) ->
  same_parameters b b' /\ same_faces b b' /\
  exists up down, coordinates b' = Built up down /\
    List.length up = List.length (sections b) /\ List.length down = List.length (sections b) /\
    forall i s r c P k sk, station b i s r c P k sk -> exists o q, nth_error (snd w') s = Some o /\ read (fst w', o) = Ok q /\
      nth_error up (List.length (sections b) - 1 - i) = Some (map (wrap r) (upper q)) /\
      nth_error down (List.length (sections b) - 1 - i) = Some (map (wrap r) (lower q)).
Proof.
  intros Co E. apply apply_transforms in E as [_ (up & down & E & ->)].
  split; [repeat split|]. split; [repeat split|]. exists up, down. split; [reflexivity|].
  assert (Rd : forall i s r c P k sk, station b i s r c P k sk -> exists o q, nth_error (snd w') s = Some o /\ read (fst w', o) = Ok q).
  { intros i s r c P k sk S. unfold object_coords in E. apply bind_ok in E as (ud & HM & _). apply mapM_nth in HM as (_ & X & _).
    destruct Co as (C1 & _).
    destruct (X (List.length (sections b) - 1 - i)%nat (s, r)) as (y & _ & Q).
    { apply nth_combine; [apply nth_rev, (st_section _ _ _ _ _ _ _ _ S)|].
      rewrite <- C1. apply nth_rev, (st_radius _ _ _ _ _ _ _ _ S). }
    cbn [fst snd] in Q. destruct (nth_error (snd w') s) as [o|]; [|discriminate].
    destruct (read (fst w', o)) as [q|] eqn:Eq; [|discriminate]. eauto. }
  assert (X : object_coords w' b = cylinder_coords (store_of w') b).
  { unfold object_coords, cylinder_coords. f_equal. apply mapM_ext_in. intros [s r] Hin. cbn [fst snd].
    apply in_combine_l, in_rev, In_nth_error in Hin as [i Ei].
    assert (L : (i < List.length (sections b))%nat) by (apply nth_error_Some; congruence).
    destruct (consistent_station b i Co L) as (s' & r' & c & P & k & sk & S).
    assert (s' = s) by (pose proof (st_section _ _ _ _ _ _ _ _ S); congruence). subst s'.
    destruct (Rd _ _ _ _ _ _ _ S) as (o & q & A & B). unfold store_of. rewrite A, B. reflexivity. }
  rewrite X in E. apply cylinder_coords_inv in E as (A & B & _ & K); auto.
  split; [exact A|]. split; [exact B|]. intros i s r c P k sk S.
  destruct (Rd _ _ _ _ _ _ _ S) as (o & q & Y1 & Y2). destruct (K _ _ _ _ _ _ _ S) as (_ & _ & _ & Z1 & Z2).
  unfold store_of in Z1, Z2. rewrite Y1, Y2 in Z1, Z2. exists o, q. auto.
Qed.
