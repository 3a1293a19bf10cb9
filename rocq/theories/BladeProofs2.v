(** Proofs: all sections, and the winding on cylinders (C44 - C49). *)
From Coq Require Import Reals List ZArith String Lra Lia Bool.
From Verif Require Import Base ProfileModel ProfileSpec ProfileProofs ProfileProofs2 ProfileProofs3 BladeModel BladeSpec BladeProofs.
Import ListNotations.
Open Scope R_scope.

Lemma upd_same : forall st s p, upd st s p s = p.
Proof. intros. unfold upd. rewrite Nat.eqb_refl. reflexivity. Qed.
Lemma upd_other : forall st s p k, k <> s -> upd st s p k = st k.
Proof. intros. unfold upd. destruct (Nat.eqb_spec k s); [contradiction|reflexivity]. Qed.

(** ** The loop over the sections *)
Lemma transform_nodup : forall b refl is st st',
  NoDup is ->
  (forall i j s, In i is -> In j is -> nth_error (sections b) i = Some s -> nth_error (sections b) j = Some s -> i = j) ->
  transform_sections b refl is st = (st', Ok tt) ->
  (forall i s, In i is -> nth_error (sections b) i = Some s ->
     run_steps (section_steps b refl i) (st s) = (st' s, Ok tt)) /\
  (forall s, (forall i, In i is -> nth_error (sections b) i <> Some s) -> st' s = st s).
Proof.
  intros b refl is. induction is as [|i is IH]; intros st st' ND INJ H; cbn [transform_sections] in H.
  - injection H as <-. split; [intros i s []|auto].
  - destruct (nth_error (sections b) i) as [s0|] eqn:E0; [|discriminate].
    destruct (run_steps (section_steps b refl i) (st s0)) as [p r] eqn:ER.
    destruct r as [[]|e]; [|discriminate].
    inversion ND as [|? ? NI ND']; subst.
    destruct (IH (upd st s0 p) st' ND') as (A & B); [intros; eapply INJ; eauto; right; auto|exact H|].
    assert (OUT : forall j, In j is -> nth_error (sections b) j <> Some s0).
    { intros j Hj Q. apply NI. rewrite (INJ i j s0); auto; [left; auto|right; auto]. }
    split.
    + intros j s [<-|Hj] Q.
      * rewrite E0 in Q. injection Q as <-. rewrite (B s0 OUT), upd_same. exact ER.
      * specialize (A j s Hj Q). rewrite upd_other in A; auto.
        intros ->. exact (OUT j Hj Q).
    + intros s Hs. rewrite B; [|intros j Hj; apply Hs; right; auto].
      apply upd_other. intros ->. apply (Hs i); [left; auto|auto].
Qed.

Lemma transform_total : forall b refl is st,
  NoDup is ->
  (forall i j s, In i is -> In j is -> nth_error (sections b) i = Some s -> nth_error (sections b) j = Some s -> i = j) ->
  (forall i, In i is -> exists s, nth_error (sections b) i = Some s /\
     exists q, run_steps (section_steps b refl i) (st s) = (q, Ok tt)) ->
  exists st', transform_sections b refl is st = (st', Ok tt).
Proof.
  intros b refl is. induction is as [|i is IH]; intros st ND INJ H; cbn [transform_sections]; [eauto|].
  destruct (H i (or_introl eq_refl)) as (s & E & q & R). rewrite E, R.
  inversion ND as [|? ? NI ND']; subst. apply IH; auto.
  - intros; eapply INJ; eauto; right; auto.
  - intros j Hj. destruct (H j (or_intror Hj)) as (s' & E' & q' & R'). exists s'. split; auto. exists q'.
    rewrite upd_other; auto. intros ->. apply NI. rewrite (INJ i j s); auto; [left; auto|right; auto].
Qed.

Lemma nodup_inj : forall {A} (l : list A), NoDup l -> forall i j s,
  nth_error l i = Some s -> nth_error l j = Some s -> i = j.
Proof.
  intros A l ND i j s Hi Hj. eapply NoDup_nth_error; eauto; [|congruence].
  apply nth_error_Some. rewrite Hi. discriminate.
Qed.

(** ** Cylinders *)
Lemma mapM_nth : forall {A B} (f : A -> res B) l l', mapM f l = Ok l' ->
  List.length l' = List.length l /\
  (forall i x, nth_error l i = Some x -> exists y, nth_error l' i = Some y /\ f x = Ok y) /\
  (forall i y, nth_error l' i = Some y -> exists x, nth_error l i = Some x /\ f x = Ok y).
Proof.
  intros A B f. induction l as [|a l IH]; intros l' H; cbn [mapM] in H.
  - injection H as <-. repeat split; intros [|i] x; discriminate.
  - apply bind_ok in H as (b & Hb & H). apply bind_ok in H as (bs & Hbs & H). injection H as <-.
    destruct (IH _ Hbs) as (L & X & Y). split; [simpl; lia|]. split; intros [|i] x Q; cbn [nth_error] in *.
    + injection Q as <-. eauto.
    + auto.
    + injection Q as <-. eauto.
    + auto.
Qed.

Lemma mapM_total : forall {A B} (f : A -> res B) l, (forall x, In x l -> exists y, f x = Ok y) -> exists l', mapM f l = Ok l'.
Proof.
  intros A B f. induction l as [|a l IH]; intros H; cbn [mapM]; [eauto|].
  destruct (H a (or_introl eq_refl)) as (y & ->). destruct IH as (l' & ->); [intros; apply H; right; auto|]. cbn. eauto.
Qed.

Lemma nth_combine : forall {A B} (a : list A) (b : list B) i x y,
  nth_error a i = Some x -> nth_error b i = Some y -> nth_error (combine a b) i = Some (x, y).
Proof.
  intros A B a. induction a as [|u a IH]; intros [|v b] [|i] x y H1 H2; cbn in *; try discriminate; [congruence|auto].
Qed.

Lemma nth_rev : forall {A} (l : list A) i x, nth_error l i = Some x ->
  nth_error (rev l) (List.length l - 1 - i) = Some x.
Proof.
  intros A l i x H.
  assert (L : (i < List.length l)%nat) by (apply nth_error_Some; rewrite H; discriminate).
  rewrite (nth_error_nth' (rev l) x) by (rewrite rev_length; lia).
  f_equal. rewrite rev_nth by lia. replace (List.length l - S (List.length l - 1 - i))%nat with i by lia.
  apply nth_error_nth. exact H.
Qed.

Lemma cylinder_section_ok : forall r xs ys l, cylinder_section r xs ys = Ok l ->
  r <> 0 /\ List.length xs = List.length ys /\ l = map (wrap r) (combine xs ys).
Proof.
  intros r xs ys l H. unfold cylinder_section in H. destruct (Req_EM_T r 0); [discriminate|].
  apply vzip_inv in H as (L & ->). split; auto. split; auto.
  clear L. revert ys. induction xs as [|x xs IH]; intros [|y ys]; cbn; try reflexivity. f_equal. apply IH.
Qed.

Lemma cylinder_section_total : forall r xs ys, r <> 0 -> List.length xs = List.length ys ->
  exists l, cylinder_section r xs ys = Ok l.
Proof.
  intros r xs ys Hr L. unfold cylinder_section. destruct (Req_EM_T r 0); [contradiction|].
  rewrite vzip_ok by auto. eauto.
Qed.

Lemma cylinder_coords_inv : forall st b up down, consistent b -> cylinder_coords st b = Ok (up, down) ->
  List.length up = List.length (sections b) /\ List.length down = List.length (sections b) /\
  (0 < List.length (sections b))%nat /\
  forall i s r c P k sk, station b i s r c P k sk ->
    r <> 0 /\ List.length (xup (st s)) = List.length (yup (st s)) /\
    List.length (xdown (st s)) = List.length (ydown (st s)) /\
    nth_error up (List.length (sections b) - 1 - i) = Some (map (wrap r) (upper (st s))) /\
    nth_error down (List.length (sections b) - 1 - i) = Some (map (wrap r) (lower (st s))).
Proof.
  intros st b up down C H. unfold cylinder_coords in H.
  apply bind_ok in H as (ud & HM & H).
  destruct (stackable (map snd ud) && stackable (map fst ud)) eqn:ST; [|discriminate].
  injection H as <- <-. apply mapM_nth in HM as (L & X & _).
  destruct C as (C1 & _).
  rewrite combine_length, !rev_length in L. rewrite C1, Nat.min_id in L. rewrite !map_length.
  split; auto. split; auto. split.
  { destruct ud; [discriminate|]. simpl in L. lia. }
  intros i s r c P k sk S.
  destruct (X (List.length (sections b) - 1 - i)%nat (s, r)) as ((u & d) & Q1 & Q2).
  { apply nth_combine; [apply nth_rev, (st_section _ _ _ _ _ _ _ _ S)|].
    rewrite <- C1. apply nth_rev, (st_radius _ _ _ _ _ _ _ _ S). }
  cbn [fst snd] in Q2. apply bind_ok in Q2 as (u' & U & Q2). apply bind_ok in Q2 as (d' & D & Q2). injection Q2 as -> ->.
  apply cylinder_section_ok in U as (Hr & LU & ->). apply cylinder_section_ok in D as (_ & LD & ->).
  split; auto. split; auto. split; auto.
  split; erewrite map_nth_error by exact Q1; reflexivity.
Qed.

Lemma stackable_const : forall l m, l <> [] -> (forall s, In s l -> List.length s = m) -> stackable l = true.
Proof.
  intros [|s l] m NE H; [contradiction|]. cbn. apply forallb_forall. intros t Ht. apply Nat.eqb_eq.
  rewrite (H s), (H t); auto; [right; auto|left; auto].
Qed.

Lemma stackable_inv : forall l, stackable l = true -> l <> [] /\ forall s t, In s l -> In t l -> List.length s = List.length t.
Proof.
  intros [|a l] H; [discriminate|]. split; [discriminate|]. cbn in H. rewrite forallb_forall in H.
  assert (K : forall t, In t (a :: l) -> List.length t = List.length a).
  { intros t [<-|Ht]; auto. apply Nat.eqb_eq. auto. }
  intros s t Hs Ht. rewrite (K s Hs), (K t Ht). reflexivity.
Qed.

Lemma cylinder_coords_total : forall st b m, consistent b -> sections b <> [] ->
  (forall i s r c P k sk, station b i s r c P k sk -> r <> 0 /\ uniform (st s) /\ List.length (xup (st s)) = m) ->
  exists up down, cylinder_coords st b = Ok (up, down).
Proof.
  intros st b m C NE H. unfold cylinder_coords.
  assert (K : forall s r, In (s, r) (combine (rev (sections b)) (rev (radii b))) -> r <> 0 /\ uniform (st s) /\ List.length (xup (st s)) = m).
  { intros s r HIn. apply In_nth_error in HIn as (j & Hj).
    assert (J : nth_error (rev (sections b)) j = Some s /\ nth_error (rev (radii b)) j = Some r).
    { revert j Hj. generalize (rev (sections b)) (rev (radii b)). induction l as [|x l IH]; intros [|y l0] [|j] Hj; cbn in *; try discriminate; [injection Hj as <- <-; auto|auto]. }
    destruct J as (J1 & J2). apply nth_rev in J1, J2. rewrite rev_involutive, rev_length in J1, J2.
    assert (L : (List.length (sections b) - 1 - j < List.length (sections b))%nat).
    { apply nth_error_Some. rewrite J1. discriminate. }
    destruct (consistent_station b _ C L) as (s' & r' & c & P & k & sk & S).
    destruct C as (C1 & _). rewrite C1 in J2.
    rewrite (st_section _ _ _ _ _ _ _ _ S) in J1. rewrite (st_radius _ _ _ _ _ _ _ _ S) in J2.
    injection J1 as <-. injection J2 as <-. eapply H; eauto. }
  match goal with |- context [mapM ?f ?l] => destruct (mapM_total f l) as (ud & E) end.
  { intros (s, r) HIn. destruct (K s r HIn) as (Hr & (U1 & U2 & U3) & _). cbn [fst snd].
    destruct (cylinder_section_total r (xup (st s)) (yup (st s)) Hr U1) as (u & ->).
    destruct (cylinder_section_total r (xdown (st s)) (ydown (st s)) Hr U2) as (d & ->). cbn. eauto. }
  rewrite E. cbn [bind]. apply mapM_nth in E as (L & _ & Y).
  assert (LEN : forall u d, In (u, d) ud -> List.length u = m /\ List.length d = m).
  { intros u d HIn. apply In_nth_error in HIn as (j & Hj). apply Y in Hj as ((s, r) & Hx & F). apply nth_error_In in Hx.
    destruct (K s r Hx) as (Hr & (U1 & U2 & U3) & Um). cbn [fst snd] in F.
    apply bind_ok in F as (u' & U & F). apply bind_ok in F as (d' & D & F). injection F as -> ->.
    apply cylinder_section_ok in U as (_ & _ & ->). apply cylinder_section_ok in D as (_ & _ & ->).
    rewrite !map_length. unfold pt. rewrite !combine_length. lia. }
  assert (N : ud <> []).
  { intros ->. rewrite combine_length, !rev_length in L. destruct C as (C1 & _). rewrite C1, Nat.min_id in L.
    destruct (sections b); [contradiction|discriminate]. }
  rewrite (stackable_const (map snd ud) m), (stackable_const (map fst ud) m).
  - cbn. eauto.
  - destruct ud; [contradiction|discriminate].
  - intros s HIn. apply in_map_iff in HIn as ((u, d) & <- & HIn). apply (LEN u d HIn).
  - destruct ud; [contradiction|discriminate].
  - intros s HIn. apply in_map_iff in HIn as ((u, d) & <- & HIn). apply (LEN u d HIn).
Qed.

(** ** apply_transformations *)
Lemma apply_inv : forall refl st b st' b', apply_transformations refl st b = (st', b', Ok tt) ->
  exists up down, transform_sections b refl (seq 0 (List.length (sections b))) st = (st', Ok tt) /\
    cylinder_coords st' b = Ok (up, down) /\ b' = set_coords (Built up down) b.
Proof.
  intros refl st b st' b' H. unfold apply_transformations in H.
  destruct (transform_sections b refl _ st) as [s1 [[]|e]]; [|discriminate].
  unfold planar_to_cylindrical in H. destruct (cylinder_coords s1 b) as [[up down]|e] eqn:E; [|discriminate].
  injection H as <- <-. exists up, down. auto.
Qed.

Lemma apply_sections : forall refl st b st' b', consistent b -> apply_transformations refl st b = (st', b', Ok tt) ->
  same_parameters b b' /\ same_faces b b' /\
  exists up down, coordinates b' = Built up down /\
    List.length up = List.length (sections b) /\ List.length down = List.length (sections b) /\
    forall i s r c P k sk, station b i s r c P k sk ->
      nth_error up (List.length (sections b) - 1 - i) = Some (map (wrap r) (upper (st' s))) /\
      nth_error down (List.length (sections b) - 1 - i) = Some (map (wrap r) (lower (st' s))).
Proof.
  intros refl st b st' b' C H. apply apply_inv in H as (up & down & _ & HC & ->).
  split; [repeat split|]. split; [repeat split|]. exists up, down. split; [reflexivity|].
  apply cylinder_coords_inv in HC as (A & B & _ & K); auto.
  split; auto. split; auto. intros i s r c P k sk S. destruct (K _ _ _ _ _ _ _ S) as (_ & _ & _ & X). exact X.
Qed.

Lemma wrap_on_cylinder : forall r a, let '(x, y, z) := wrap r a in x = fst a /\ y * y + z * z = r * r.
Proof.
  intros r a. unfold wrap. split; auto.
  pose proof (sin2_cos2 (snd a / r)) as Q. unfold Rsqr in Q.
  transitivity (r * r * (sin (snd a / r) * sin (snd a / r) + cos (snd a / r) * cos (snd a / r))); [ring|rewrite Q; ring].
Qed.

Lemma apply_on_cylinder : forall refl st b st' b' up down, consistent b ->
  apply_transformations refl st b = (st', b', Ok tt) -> coordinates b' = Built up down ->
  forall i s r c P k sk x y z, station b i s r c P k sk ->
   (exists l, (nth_error up (List.length (sections b) - 1 - i) = Some l \/
               nth_error down (List.length (sections b) - 1 - i) = Some l) /\ In (x, y, z) l) ->
   y * y + z * z = r * r /\ In x (xup (st' s) ++ xdown (st' s)).
Proof.
  intros refl st b st' b' up down C H Hc i s r c P k sk x y z S (l & Hl & HIn).
  destruct (apply_sections _ _ _ _ _ C H) as (_ & _ & up' & down' & Hc' & _ & _ & K).
  rewrite Hc in Hc'. injection Hc' as <- <-. destruct (K _ _ _ _ _ _ _ S) as (K1 & K2).
  assert (Q : exists a, In a (upper (st' s) ++ lower (st' s)) /\ (x, y, z) = wrap r a).
  { destruct Hl as [Hl|Hl]; rewrite Hl in *; [injection K1 as ->|injection K2 as ->];
    apply in_map_iff in HIn as (a & E & HIn); exists a; (split; [apply in_or_app|]); auto. }
  destruct Q as (a & Ha & E). pose proof (wrap_on_cylinder r a) as W. rewrite <- E in W. destruct W as (-> & W).
  split; auto. destruct a as (u, v). cbn [fst]. apply in_or_app. apply in_app_or in Ha as [Ha|Ha]; apply in_combine_l in Ha; auto.
Qed.

(** No overrides: every section is its profile, sized and seated. *)
Lemma apply_places : forall refl st b st' b', consistent b -> NoDup (sections b) ->
  Forall (fun r => r <> 0) (radii b) -> thickness b = None -> camber b = None ->
  (forall s, In s (sections b) -> uniform (st s)) ->
  apply_transformations refl st b = (st', b', Ok tt) ->
  (forall i s r c P k sk, station b i s r c P k sk ->
     exists ref, reference_point (st s) = Ok ref /\
       moved (fun a => seat r P k sk refl (sized c ref a)) (st s) (st' s)) /\
  (forall s, ~ In s (sections b) -> st' s = st s).
Proof.
  intros refl st b st' b' C ND F T K U H. apply apply_inv in H as (up & down & HT & _ & _).
  apply transform_nodup in HT as (A & B); [|apply seq_NoDup|intros; eapply nodup_inj; eauto].
  split.
  - intros i s r c P k sk S. pose proof (st_section _ _ _ _ _ _ _ _ S) as Hs.
    assert (L : (i < List.length (sections b))%nat) by (apply nth_error_Some; rewrite Hs; discriminate).
    specialize (A i s ltac:(apply in_seq; lia) Hs).
    assert (Hr : r <> 0) by (rewrite Forall_forall in F; apply F; eapply nth_error_In, (st_radius _ _ _ _ _ _ _ _ S)).
    assert (Us : uniform (st s)) by (apply U; eapply nth_error_In; eauto).
    destruct (section_inv b refl i s r c P k sk _ _ S Hr Us A) as (ref & p1 & p2 & p3 & R & M1 & E2 & E3 & M).
    rewrite T in E2. rewrite K in E3. subst p3 p2. exists ref. split; auto.
    eapply moved_compose; [exact M1|apply M, M1].
  - intros s Hs. apply B. intros i _ Q. apply Hs. eapply nth_error_In; eauto.
Qed.

Lemma moved_length : forall f p q, uniform p -> moved f p q -> List.length (xup q) = List.length (xup p).
Proof.
  intros f p q (A & B & C) ((A' & B' & C') & E & _).
  apply (f_equal (@List.length _)) in E. rewrite map_length in E. unfold upper, pt in E. rewrite !combine_length in E. lia.
Qed.

Lemma apply_succeeds : forall refl st b m, consistent b -> sections b <> [] -> NoDup (sections b) ->
  Forall (fun r => r <> 0) (radii b) -> thickness b = None -> camber b = None ->
  (forall s, In s (sections b) -> uniform (st s) /\ List.length (xup (st s)) = m /\
     exists ref, reference_point (st s) = Ok ref) ->
  exists st' b', apply_transformations refl st b = (st', b', Ok tt).
Proof.
  intros refl st b m C NE ND F T K U.
  assert (R0 : forall i s r c P k sk, station b i s r c P k sk -> r <> 0).
  { intros i s r c P k sk S. rewrite Forall_forall in F. apply F. eapply nth_error_In. apply (st_radius _ _ _ _ _ _ _ _ S). }
  destruct (transform_total b refl (seq 0 (List.length (sections b))) st) as (st' & HT).
  - apply seq_NoDup.
  - intros; eapply nodup_inj; eauto.
  - intros i Hi. apply in_seq in Hi. destruct (consistent_station b i C ltac:(lia)) as (s & r & c & P & k & sk & S).
    exists s. split; [apply (st_section _ _ _ _ _ _ _ _ S)|].
    destruct (U s) as (Us & _ & ref & R); [eapply nth_error_In, (st_section _ _ _ _ _ _ _ _ S)|].
    destruct (section_plain b refl i s r c P k sk _ _ S (R0 _ _ _ _ _ _ _ S) Us T K R) as (q & E & _). eauto.
  - pose proof HT as HT0.
    apply transform_nodup in HT as (A & _); [|apply seq_NoDup|intros; eapply nodup_inj; eauto].
    destruct (cylinder_coords_total st' b m C NE) as (up & down & E).
    { intros i s r c P k sk S. pose proof (st_section _ _ _ _ _ _ _ _ S) as Hs.
      assert (L : (i < List.length (sections b))%nat) by (apply nth_error_Some; rewrite Hs; discriminate).
      specialize (A i s ltac:(apply in_seq; lia) Hs).
      destruct (U s) as (Us & Um & ref & R); [eapply nth_error_In; eauto|].
      destruct (section_plain b refl i s r c P k sk _ _ S (R0 _ _ _ _ _ _ _ S) Us T K R) as (q & E & M).
      rewrite E in A. injection A as <-. split; [eauto|]. split; [apply M|].
      erewrite moved_length; eauto. }
    exists st', (set_coords (Built up down) b). unfold apply_transformations. rewrite HT0.
    unfold planar_to_cylindrical. rewrite E. reflexivity.
Qed.
