(** Refinement of the heap model to the pure model, framing, several profiles. *)
From Coq Require Import Reals List ZArith Lra Lia.
From Verif Require Import Base ProfileModel CustomModel PpgModel ProfileProofs HeapModel HeapSpec HeapProofs.
Import ListNotations.
Open Scope R_scope.

(** What is common to all outcomes of a call. *)
Definition framed (h h' : heap) (o o' : object) : Prop :=
  (forall b, (b < List.length h)%nat -> ~ In b (addresses o) -> nth_error h' b = nth_error h b) /\
  (forall b, In b (addresses o') -> In b (addresses o) \/ (List.length h <= b)%nat) /\
  (List.length h <= List.length h')%nat.

Lemma framed_refl h o : framed h h o o.
Proof. split; [|split]; auto. Qed.

Lemma framed_trans h1 h2 h3 o1 o2 o3 : framed h1 h2 o1 o2 -> framed h2 h3 o2 o3 -> framed h1 h3 o1 o3.
Proof.
  intros (A1 & A2 & A3) (B1 & B2 & B3). split; [|split].
  - intros b Hb Hn. rewrite B1; [apply A1; auto|lia|].
    intros Hi. destruct (A2 b Hi); [contradiction|lia].
  - intros b Hb. destruct (B2 b Hb) as [H|H]; [apply A2; auto|right; lia].
  - lia.
Qed.

Lemma framed_app h l o o' : (forall b, In b (addresses o') -> In b (addresses o) \/ (List.length h <= b)%nat) ->
  framed h (h ++ l) o o'.
Proof.
  intros H. split; [|split].
  - intros b Hb _. apply nth_old. exact Hb.
  - exact H.
  - rewrite app_length. lia.
Qed.

Lemma four_framed h h' o : List.length h' = List.length h ->
  (forall b, ~ In b (addresses o) -> nth_error h' b = nth_error h b) -> framed h h' o o.
Proof. intros L H. split; [|split]; auto. lia. Qed.

Lemma pair_inv {A B} (x y : A) (u v : B) : (x, u) = (y, v) -> x = y /\ v = u.
Proof. intros [= -> ->]. auto. Qed.

Definition refined (c : call) (h h' : heap) (o o' : object) (p : profile) (r : res unit) : Prop :=
  match value_call c p with
  | Ok p' => r = Ok tt /\ read (h', o') = Ok p'
  | Err e => r = Err e /\ h' = h /\ o' = o
  end /\ owns h' o' /\ framed h h' o o'.

Lemma deform_refined pc n h o p h' o' r :
  owns h o -> read (h, o) = Ok p -> h_deform_camber_line pc n (h, o) = ((h', o'), r) ->
  refined (DeformCamberLine pc n) h h' o o' p r.
Proof.
  intros O Rd H. unfold h_deform_camber_line in H. rewrite Rd in H. unfold refined. cbn [value_call].
  destruct (deform_camber_line pc n p) as [p'|e] eqn:Ed.
  2:{ injection H as <- <- <-. auto using framed_refl. }
  cbn [fst snd] in H. destruct (interpolates n p) eqn:Ei.
  - apply pair_inv in H; destruct H as [H ->]. destruct (alloc4_reads _ _ _ _ H) as (A1 & A2 & A3 & l & ->).
    split; [auto|]. split; [auto|]. apply framed_app. rewrite Forall_forall in A3. auto.
  - apply pair_inv in H; destruct H as [H ->]. destruct (deform_keeps_x _ _ _ _ Ed Ei) as [X1 X2].
    destruct (alloc_y_reads _ _ _ _ _ _ H Rd O X1 X2) as (A1 & A2 & A3 & A4 & A5 & A6 & l & ->).
    split; [auto|]. split; [auto|]. apply framed_app.
    unfold addresses. rewrite A3, A4. cbn. intros b [<-|[<-|[<-|[<-|[]]]]]; auto.
Qed.

Lemma perform_refined c h o p h' o' r :
  owns h o -> read (h, o) = Ok p -> perform c (h, o) = ((h', o'), r) -> refined c h h' o o' p r.
Proof.
  intros O Rd H. destruct c as [v| |k t|rad deg|pc n|m|t]; cbn [perform] in H.
  - destruct (four_read Rplus (fst v) (fst v) (snd v) (snd v) h o p O Rd) as (h1 & E & L & O1 & R1 & Fr).
    unfold h_translate in H. rewrite E in H. injection H as <- <- <-.
    split; [|auto using four_framed]. cbn [value_call]. split; [auto|]. exact R1.
  - destruct (four_read Rmult (PyInt (-1)) (PyInt (-1)) (PyInt (-1)) (PyInt (-1)) h o p O Rd) as (h1 & E & L & O1 & R1 & Fr).
    unfold h_reflect, h_scale_coords in H. rewrite E in H. injection H as <- <- <-.
    split; [|auto using four_framed]. cbn [value_call]. split; [auto|]. exact R1.
  - unfold h_scale in H. destruct t.
    + rewrite Rd in H. cbn [bind] in H. unfold refined. cbn [value_call]. unfold scale.
      destruct (reference_point p) as [ref|e]; cbn [bind].
      2:{ injection H as <- <- <-. auto using framed_refl. }
      destruct (four_read Rplus (PyFloat (- fst ref)) (PyFloat (- fst ref)) (PyFloat (- snd ref)) (PyFloat (- snd ref)) h o p O Rd)
        as (h1 & E1 & L1 & O1 & R1 & F1).
      destruct (four_read Rmult k k k k h1 o _ O1 R1) as (h2 & E2 & L2 & O2 & R2 & F2).
      destruct (four_read Rplus (PyFloat (fst ref)) (PyFloat (fst ref)) (PyFloat (snd ref)) (PyFloat (snd ref)) h2 o _ O2 R2)
        as (h3 & E3 & L3 & O3 & R3 & F3).
      rewrite (then_ok _ _ _ _ (E1 : h_translate (PyFloat (- fst ref), PyFloat (- snd ref)) (h, o) = _)) in H.
      rewrite (then_ok _ _ _ _ (E2 : h_scale_coords k (h1, o) = _)) in H.
      rewrite (E3 : h_translate (PyFloat (fst ref), PyFloat (snd ref)) (h2, o) = _) in H.
      injection H as <- <- <-. split; [split; [reflexivity|exact R3]|]. split; [exact O3|].
      apply (framed_trans _ h1 _ _ o); [auto using four_framed|].
      apply (framed_trans _ h2 _ _ o); auto using four_framed.
    + destruct (four_read Rmult k k k k h o p O Rd) as (h1 & E & L & O1 & R1 & Fr).
      unfold h_scale_coords in H. rewrite E in H. injection H as <- <- <-.
      split; [|auto using four_framed]. cbn [value_call scale]. split; [auto|]. exact R1.
  - unfold h_rotate in H. rewrite Rd in H. cbn [bind fst] in H. unfold refined. cbn [value_call].
    destruct (rotate rad deg p) as [p'|e].
    2:{ injection H as <- <- <-. auto using framed_refl. }
    apply pair_inv in H; destruct H as [H ->]. destruct (alloc4_reads _ _ _ _ H) as (A1 & A2 & A3 & l & ->).
    split; [auto|]. split; [auto|]. apply framed_app. rewrite Forall_forall in A3. auto.
  - eapply deform_refined; eauto.
  - unfold h_set_camber_line_max in H. rewrite Rd in H. cbn [bind] in H.
    unfold refined. cbn [value_call]. unfold set_camber_line_max.
    destruct (max_camber (Some 500%Z) p) as [old|e]; cbn [bind] in *.
    2:{ injection H as <- <- <-. auto using framed_refl. }
    destruct (fdiv (100 * (m - old)) old) as [pc|e]; cbn [bind] in *.
    2:{ injection H as <- <- <-. auto using framed_refl. }
    exact (deform_refined _ _ _ _ _ _ _ _ O Rd H).
  - unfold h_set_thickness_max in H. rewrite Rd in H. cbn [bind] in H.
    unfold refined. cbn [value_call]. unfold set_thickness_max.
    destruct (max_thickness None p) as [old|e]; cbn [bind] in *.
    2:{ injection H as <- <- <-. auto using framed_refl. }
    set (ratio := if Req_EM_T old 0 then 0 else t / old) in *.
    destruct (two_read Rmult (PyFloat ratio) (PyFloat ratio) h o p O Rd) as (h1 & E & L & O1 & R1 & Fr).
    rewrite E in H. injection H as <- <- <-. split; [|auto using four_framed]. split; [auto|]. exact R1.
Qed.

(** ** Framing without any assumption on the arrays. *)
Lemma inplace_framed f v fld h o h' o' r :
  In (fld o) (addresses o) -> inplace f v fld (h, o) = ((h', o'), r) -> o' = o /\ framed h h' o o.
Proof.
  intros Hi. unfold inplace. cbn [fst snd].
  destruct (nth_error h (fld o)) as [a|]; [|intros [= <- <- <-]; auto using framed_refl].
  assert (X : forall k l, framed h (store_at h (fld o) (mkArray k l)) o o).
  { intros k l. apply four_framed; [apply store_length|]. intros b Hb. apply store_other. intros E. apply Hb. rewrite <- E. exact Hi. }
  destruct (kind a), v; intros [= <- <- <-]; auto using framed_refl.
Qed.

Definition keeps (m : state -> state * res unit) (o : object) : Prop :=
  forall h h' o' r, m (h, o) = ((h', o'), r) -> o' = o /\ framed h h' o o.

Lemma keeps_then m k o : keeps m o -> keeps k o -> keeps (m ;; k) o.
Proof.
  intros M K h h' o' r. unfold then_. destruct (m (h, o)) as [[h1 o1] [u|e]] eqn:E.
  - destruct (M _ _ _ _ E) as [-> F1]. intros H. destruct (K _ _ _ _ H) as [-> F2].
    split; auto. eapply framed_trans; eauto.
  - intros [= <- <- <-]. eapply M; eauto.
Qed.

Lemma keeps_inplace f v fld o : In (fld o) (addresses o) -> keeps (inplace f v fld) o.
Proof. intros Hi h h' o' r H. eapply inplace_framed; eauto. Qed.

Lemma keeps_translate v o : keeps (h_translate v) o.
Proof. unfold h_translate. repeat apply keeps_then; apply keeps_inplace; cbn; auto. Qed.
Lemma keeps_scale k o : keeps (h_scale_coords k) o.
Proof. unfold h_scale_coords. repeat apply keeps_then; apply keeps_inplace; cbn; auto. Qed.

Lemma keeps_in_place c o : in_place c -> keeps (perform c) o.
Proof.
  destruct c as [v| |k t|rad deg|pc n|m|t]; cbn [in_place perform]; try tauto; intros _.
  - apply keeps_translate.
  - apply keeps_scale.
  - intros h h' o' r. unfold h_scale. destruct t; [|apply keeps_scale].
    destruct (let* p := read (h, o) in reference_point p) as [ref|e].
    + apply keeps_then; [apply keeps_translate|]. apply keeps_then; [apply keeps_scale|apply keeps_translate].
    + intros [= <- <- <-]. auto using framed_refl.
  - intros h h' o' r. unfold h_set_thickness_max.
    destruct (let* p := read (h, o) in max_thickness None p) as [old|e].
    + apply keeps_then; apply keeps_inplace; cbn; auto.
    + intros [= <- <- <-]. auto using framed_refl.
Qed.

Lemma deform_framed pc n h o h' o' r : h_deform_camber_line pc n (h, o) = ((h', o'), r) -> framed h h' o o'.
Proof.
  unfold h_deform_camber_line. destruct (read (h, o)) as [p|e]; [|intros [= <- <- <-]; apply framed_refl].
  destruct (deform_camber_line pc n p) as [p'|e]; [|intros [= <- <- <-]; apply framed_refl].
  destruct (interpolates n p).
  - intros [= <- <- <-]. apply framed_app. unfold addresses. cbn. intros b Hb. right. lia.
  - intros [= <- <- <-]. apply framed_app. unfold addresses. cbn. intros b Hb. intuition lia.
Qed.

Lemma perform_framed c h o h' o' r : perform c (h, o) = ((h', o'), r) -> framed h h' o o'.
Proof.
  destruct c as [v| |k t|rad deg|pc n|m|t]; intros H.
  - destruct (keeps_in_place (Translate v) o I _ _ _ _ H) as [-> F]; exact F.
  - destruct (keeps_in_place Reflect o I _ _ _ _ H) as [-> F]; exact F.
  - destruct (keeps_in_place (Scale k t) o I _ _ _ _ H) as [-> F]; exact F.
  - cbn [perform] in H. unfold h_rotate in H.
    destruct (let* p := read (h, o) in rotate rad deg p) as [p|e].
    + injection H as <- <- <-. apply framed_app. unfold addresses. cbn. intros b Hb. right. lia.
    + injection H as <- <- <-. apply framed_refl.
  - eapply deform_framed; eauto.
  - cbn [perform] in H. unfold h_set_camber_line_max in H.
    match type of H with match ?x with _ => _ end = _ => destruct x end.
    + eapply deform_framed; eauto.
    + injection H as <- <- <-. apply framed_refl.
  - destruct (keeps_in_place (SetThicknessMax t) o I _ _ _ _ H) as [-> F]; exact F.
Qed.

(** ** Several profiles. *)
Lemma replace_nth os i o j : nth_error (replace_at os i o) j =
  if Nat.eqb i j then option_map (fun _ => o) (nth_error os j) else nth_error os j.
Proof.
  revert i j; induction os as [|x os IH]; intros [|i] [|j]; simpl; auto.
  destruct (Nat.eqb i j); reflexivity.
Qed.

Lemma replace_length os i o : List.length (replace_at os i o) = List.length os.
Proof. revert i; induction os as [|x os IH]; intros [|i]; simpl; auto. Qed.

(** Separation, said of positions. *)
Definition apart (h : heap) (os : list object) : Prop :=
  (forall i o, nth_error os i = Some o -> owns h o) /\
  (forall i j o1 o2 b, i <> j -> nth_error os i = Some o1 -> nth_error os j = Some o2 ->
     In b (addresses o1) -> ~ In b (addresses o2)).

Lemma owns_bound h o b : owns h o -> In b (addresses o) -> (b < List.length h)%nat.
Proof.
  intros [_ F] Hb. rewrite Forall_forall in F. destruct (F b Hb) as [l E]. apply nth_error_Some. congruence.
Qed.

Lemma read_unchanged h h' o : (forall b, In b (addresses o) -> nth_error h' b = nth_error h b) ->
  read (h', o) = read (h, o).
Proof.
  intros H. unfold read, contents. cbn [fst snd].
  rewrite !H by (cbn; auto). reflexivity.
Qed.

Lemma owns_unchanged h h' o : (forall b, In b (addresses o) -> nth_error h' b = nth_error h b) ->
  owns h o -> owns h' o.
Proof.
  intros H [N F]. split; [exact N|]. rewrite Forall_forall in *. intros b Hb. unfold is_float. rewrite H by auto.
  apply F; auto.
Qed.

(** One call in a world of separate profiles. *)
Lemma call_apart h os i c w r :
  apart h os -> call_on (h, os) i c = (w, r) ->
  apart (fst w) (snd w) /\ List.length (snd w) = List.length os /\
  (List.length h <= List.length (fst w))%nat /\
  (forall j o o' p, nth_error os j = Some o -> nth_error (snd w) j = Some o' -> read (h, o) = Ok p ->
     read (fst w, o') = Ok (if Nat.eqb i j then (match value_call c p with Ok p' => p' | Err _ => p end) else p)) /\
  (forall b, (b < List.length h)%nat -> (forall j o, nth_error os j = Some o -> ~ In b (addresses o)) ->
     nth_error (fst w) b = nth_error h b /\ (forall j o, nth_error (snd w) j = Some o -> ~ In b (addresses o))).
Proof.
  intros [Ow Sp] H. unfold call_on in H. cbn [fst snd] in H.
  destruct (nth_error os i) as [o|] eqn:Eo.
  2:{ injection H as <- <-. cbn [fst snd]. split; [split; auto|]. split; [auto|]. split; [auto|]. split.
      - intros j o o' p E1 E2 Rd. rewrite E1 in E2. injection E2 as <-.
        destruct (Nat.eqb_spec i j) as [<-|]; [congruence|]. exact Rd.
      - intros b Hb Hn. auto. }
  destruct (perform c (h, o)) as [[h' o'] r'] eqn:Ep. injection H as <- <-. cbn [fst snd].
  destruct (owns_read _ _ (Ow _ _ Eo)) as [p Rd].
  destruct (perform_refined _ _ _ _ _ _ _ (Ow _ _ Eo) Rd Ep) as (V & O' & Fr).
  destruct Fr as (F1 & F2 & F3).
  assert (Other : forall j o2, i <> j -> nth_error os j = Some o2 ->
            forall b, In b (addresses o2) -> nth_error h' b = nth_error h b).
  { intros j o2 N E b Hb. apply F1; [eapply owns_bound; eauto|]. intros Hb'. eapply (Sp i j); eauto. }
  split; [split|split; [apply replace_length|split; [exact F3|split]]].
  - intros j o2. rewrite replace_nth. destruct (Nat.eqb_spec i j) as [<-|N].
    + rewrite Eo. intros [= <-]. exact O'.
    + intros E. eapply owns_unchanged; [|eapply Ow; eauto]. eapply Other; eauto.
  - intros j1 j2 o1 o2 b N E1 E2 H1 H2. rewrite replace_nth in E1, E2.
    destruct (Nat.eqb_spec i j1) as [<-|N1].
    + rewrite Eo in E1. injection E1 as <-.
      destruct (Nat.eqb_spec i j2) as [|N2]; [congruence|].
      destruct (F2 b H1) as [H|H]; [eapply (Sp i j2); eauto|].
      pose proof (owns_bound _ _ _ (Ow _ _ E2) H2). lia.
    + destruct (Nat.eqb_spec i j2) as [<-|N2]; [|eapply (Sp j1 j2); eauto].
      rewrite Eo in E2. injection E2 as <-.
      destruct (F2 b H2) as [H|H]; [eapply (Sp j1 i); eauto|].
      pose proof (owns_bound _ _ _ (Ow _ _ E1) H1). lia.
  - intros j o1 o2 q E1 E2 Rq. rewrite replace_nth in E2. destruct (Nat.eqb_spec i j) as [<-|N].
    + rewrite Eo in E1, E2. injection E1 as <-. injection E2 as <-.
      rewrite Rd in Rq. injection Rq as <-.
      destruct (value_call c p) as [p'|e]; [apply V|]. destruct V as (_ & -> & ->). exact Rd.
    + rewrite E1 in E2. injection E2 as <-. rewrite <- Rq. apply read_unchanged. eapply Other; eauto.
  - intros b Hb Hn. split; [apply F1; eauto|].
    intros j o2. rewrite replace_nth. destruct (Nat.eqb_spec i j) as [<-|N].
    + rewrite Eo. intros [= <-] Hi. destruct (F2 b Hi) as [H|H]; [eapply Hn; eauto|lia].
    + intros E. eapply Hn; eauto.
Qed.

Lemma execute_apart calls : forall h os,
  apart h os ->
  apart (fst (execute (h, os) calls)) (snd (execute (h, os) calls)) /\
  List.length (snd (execute (h, os) calls)) = List.length os /\
  (forall j o o' p, nth_error os j = Some o -> nth_error (snd (execute (h, os) calls)) j = Some o' ->
     read (h, o) = Ok p -> read (fst (execute (h, os) calls), o') = Ok (after (calls_of j calls) p)) /\
  (forall b, (b < List.length h)%nat -> (forall j o, nth_error os j = Some o -> ~ In b (addresses o)) ->
     nth_error (fst (execute (h, os) calls)) b = nth_error h b).
Proof.
  induction calls as [|[i c] calls IH]; intros h os A.
  - cbn. split; [exact A|]. split; [auto|]. split; [|auto].
    intros j o o' p E1 E2 Rd. rewrite E1 in E2. injection E2 as <-. exact Rd.
  - cbn [execute]. destruct (call_on (h, os) i c) as [[h1 os1] r] eqn:Ec.
    destruct (call_apart _ _ _ _ _ _ A Ec) as (A1 & L1 & L2 & V1 & F1). cbn [fst snd] in *.
    destruct (IH h1 os1 A1) as (A2 & L3 & V2 & F2).
    split; [exact A2|]. split; [congruence|]. split.
    + intros j o o' p E1 E2 Rd.
      destruct (nth_error os1 j) as [o1|] eqn:E3.
      2:{ apply nth_error_None in E3. assert (j < List.length os)%nat by (apply nth_error_Some; congruence). lia. }
      pose proof (V1 j o o1 p E1 E3 Rd) as R1. rewrite (V2 j o1 o' _ E3 E2 R1).
      unfold calls_of, after. cbn [filter fst]. destruct (Nat.eqb i j); reflexivity.
    + intros b Hb Hn. destruct (F1 b Hb Hn) as [G1 G2]. rewrite F2; auto. lia.
Qed.

(** Separation as NoDup. *)
Lemma nodup_split {A} (l1 l2 : list A) : NoDup (l1 ++ l2) -> NoDup l1 /\ NoDup l2 /\ forall x, In x l1 -> ~ In x l2.
Proof.
  induction l1 as [|a l1 IH]; cbn; intros H.
  - split; [constructor|]. split; [auto|]. tauto.
  - inversion H as [|? ? N1 N2]; subst. destruct (IH N2) as (A1 & A2 & A3).
    rewrite in_app_iff in N1. split; [constructor; tauto|]. split; [auto|].
    intros x [<-|Hx]; [tauto|auto].
Qed.

Lemma separate_apart h os :
  separate os -> Forall (fun o => Forall (is_float h) (addresses o)) os -> apart h os.
Proof.
  induction os as [|o os IH]; intros S F.
  - split; intros [|i]; discriminate.
  - unfold separate in S. cbn [flat_map] in S. destruct (nodup_split _ _ S) as (S1 & S2 & S3).
    inversion F as [|? ? F1 F2]; subst. destruct (IH S2 F2) as [Ow Sp].
    assert (X : forall j o2 b, nth_error os j = Some o2 -> In b (addresses o) -> ~ In b (addresses o2)).
    { intros j o2 b E H1 H2. apply (S3 b H1). apply in_flat_map. exists o2. split; [eapply nth_error_In; eauto|auto]. }
    split.
    + intros [|i] o1 E; cbn in E; [injection E as <-; split; auto|eauto].
    + intros [|i] [|j] o1 o2 b N E1 E2 H1 H2; cbn in *.
      * congruence.
      * injection E1 as <-. eapply X; eauto.
      * injection E2 as <-. eapply X; eauto.
      * apply (Sp i j o1 o2 b); auto.
Qed.

Theorem separate_profiles h os calls h' os' i o p :
  separate os -> Forall (fun o => Forall (is_float h) (addresses o)) os ->
  execute (h, os) calls = (h', os') ->
  nth_error os i = Some o -> read (h, o) = Ok p ->
  exists o', nth_error os' i = Some o' /\ read (h', o') = Ok (after (calls_of i calls) p).
Proof.
  intros S F E Eo Rd. destruct (execute_apart calls h os (separate_apart _ _ S F)) as (A & L & V & _).
  rewrite E in *. cbn [fst snd] in *.
  destruct (nth_error os' i) as [o'|] eqn:E'.
  - exists o'. split; auto. eapply V; eauto.
  - apply nth_error_None in E'. assert (i < List.length os)%nat by (apply nth_error_Some; congruence). lia.
Qed.

Theorem other_arrays_untouched h os calls h' os' b :
  separate os -> Forall (fun o => Forall (is_float h) (addresses o)) os ->
  execute (h, os) calls = (h', os') ->
  (b < List.length h)%nat -> (forall o, In o os -> ~ In b (addresses o)) ->
  nth_error h' b = nth_error h b.
Proof.
  intros S F E Hb Hn. destruct (execute_apart calls h os (separate_apart _ _ S F)) as (_ & _ & _ & U).
  rewrite E in U. cbn [fst] in U. apply U; auto. intros j o Hj. apply Hn. eapply nth_error_In; eauto.
Qed.

(** ** Two profiles on the same arrays. *)
Lemma after_app l1 l2 p : after (l1 ++ l2) p = after l2 (after l1 p).
Proof. unfold after. apply fold_left_app. Qed.

Theorem shared_profiles : forall calls h o h' os' p,
  owns h o -> read (h, o) = Ok p -> Forall (fun x => (fst x < 2)%nat /\ in_place (snd x)) calls ->
  execute (h, [o; o]) calls = (h', os') ->
  os' = [o; o] /\ read (h', o) = Ok (after (map snd calls) p).
Proof.
  induction calls as [|[i c] calls IH]; intros h o h' os' p O Rd F H.
  - cbn in H. injection H as <- <-. auto.
  - inversion F as [|? ? [Hi Hc] F2]; subst. cbn [fst snd] in Hi, Hc.
    cbn [execute] in H. unfold call_on in H. cbn [fst snd] in H.
    assert (E : nth_error [o; o] i = Some o) by (destruct i as [|[|i]]; cbn; auto; lia).
    rewrite E in H. destruct (perform c (h, o)) as [[h1 o1] r] eqn:Ep. cbn [fst] in H.
    destruct (keeps_in_place c o Hc _ _ _ _ Ep) as [-> _].
    destruct (perform_refined _ _ _ _ _ _ _ O Rd Ep) as (V & O1 & _).
    assert (X : replace_at [o; o] i o = [o; o]) by (destruct i as [|[|i]]; cbn; auto; lia).
    rewrite X in H.
    assert (R1 : read (h1, o) = Ok (match value_call c p with Ok p' => p' | Err _ => p end)).
    { destruct (value_call c p); [apply V|]. destruct V as (_ & -> & _). exact Rd. }
    destruct (IH h1 o h' os' _ O1 R1 F2 H) as [-> R2]. split; auto.
Qed.

(** ** Arrays used several times by one profile. *)
Lemma map_map_R (f g : R -> R) l : map g (map f l) = map (fun x => g (f x)) l.
Proof. apply map_map. Qed.

Lemma touch4_plus v1 v2 o b l :
  touch4 (fun x => x + v1) (fun x => x + v1) (fun x => x + v2) (fun x => x + v2) o b (mkArray Float64 l)
  = mkArray Float64 (map (fun x => x + (INR (x_uses o b) * v1 + INR (y_uses o b) * v2)) l).
Proof.
  unfold touch4, touch, x_uses, y_uses, times.
  destruct (Nat.eqb (axu o) b), (Nat.eqb (axd o) b), (Nat.eqb (ayu o) b), (Nat.eqb (ayd o) b);
    cbn [kind data INR Nat.add]; f_equal; rewrite ?map_map_R;
    try (apply map_ext; intros x; ring);
    (transitivity (map (fun x : R => x) l); [symmetry; apply map_id|apply map_ext; intros x; ring]).
Qed.

Lemma touch4_mult k o b l :
  touch4 (fun x => x * k) (fun x => x * k) (fun x => x * k) (fun x => x * k) o b (mkArray Float64 l)
  = mkArray Float64 (map (fun x => x * k ^ (x_uses o b + y_uses o b)) l).
Proof.
  unfold touch4, touch, x_uses, y_uses, times.
  destruct (Nat.eqb (axu o) b), (Nat.eqb (axd o) b), (Nat.eqb (ayu o) b), (Nat.eqb (ayd o) b);
    cbn [kind data Nat.add pow]; f_equal; rewrite ?map_map_R;
    try (apply map_ext; intros x; ring);
    (transitivity (map (fun x : R => x) l); [symmetry; apply map_id|apply map_ext; intros x; ring]).
Qed.

Theorem translate_any_aliasing h o v b l :
  Forall (is_float h) (addresses o) -> nth_error h b = Some (mkArray Float64 l) ->
  exists h', perform (Translate v) (h, o) = ((h', o), Ok tt) /\
    nth_error h' b = Some (mkArray Float64
      (map (fun x => x + (INR (x_uses o b) * num_value (fst v) + INR (y_uses o b) * num_value (snd v))) l)).
Proof.
  intros F E. destruct (four_inplace Rplus (fst v) (fst v) (snd v) (snd v) h o F) as (h' & H & _ & T).
  exists h'. split; [exact H|]. rewrite T, E. cbn [option_map]. f_equal.
  exact (touch4_plus (num_value (fst v)) (num_value (snd v)) o b l).
Qed.

Theorem scale_any_aliasing h o k b l :
  Forall (is_float h) (addresses o) -> nth_error h b = Some (mkArray Float64 l) ->
  exists h', perform (Scale k false) (h, o) = ((h', o), Ok tt) /\
    nth_error h' b = Some (mkArray Float64 (map (fun x => x * num_value k ^ (x_uses o b + y_uses o b)) l)).
Proof.
  intros F E. destruct (four_inplace Rmult k k k k h o F) as (h' & H & _ & T).
  exists h'. split; [exact H|]. rewrite T, E. cbn [option_map]. f_equal. apply touch4_mult.
Qed.

Theorem reflect_any_aliasing h o b l :
  Forall (is_float h) (addresses o) -> nth_error h b = Some (mkArray Float64 l) ->
  exists h', perform Reflect (h, o) = ((h', o), Ok tt) /\
    nth_error h' b = Some (mkArray Float64 (map (fun x => x * (-1) ^ (x_uses o b + y_uses o b)) l)).
Proof. intros F E. exact (scale_any_aliasing h o (PyInt (-1)) b l F E). Qed.

(** scale(k) about the reference point with one array for both abscissae. *)
Theorem scale_shared_abscissae h o k p ref :
  axu o = axd o -> NoDup [axu o; ayu o; ayd o] -> Forall (is_float h) (addresses o) ->
  read (h, o) = Ok p -> reference_point p = Ok ref ->
  exists h', perform (Scale k true) (h, o) = ((h', o), Ok tt) /\
    read (h', o) = Ok (mkProfile
      (map (fun x => (x - 2 * fst ref) * (num_value k) ^ 2 + 2 * fst ref) (xup p))
      (map (fun x => (x - 2 * fst ref) * (num_value k) ^ 2 + 2 * fst ref) (xdown p))
      (map (fun y => (y - snd ref) * num_value k + snd ref) (yup p))
      (map (fun y => (y - snd ref) * num_value k + snd ref) (ydown p))).
Proof.
  intros Hs N F Rd Hr.
  destruct o as [a a' c d]. cbn [axu axd ayu ayd] in *. subst a'.
  assert (D : a <> c /\ a <> d /\ c <> d).
  { inversion N as [|? ? N1 N2]; subst. inversion N2 as [|? ? N3 N4]; subst. cbn in N1, N3. repeat split; intro E; symmetry in E; tauto. }
  destruct D as (D1 & D2 & D3).
  set (o := mkObject a a c d) in *.
  destruct (four_inplace Rplus (PyFloat (- fst ref)) (PyFloat (- fst ref)) (PyFloat (- snd ref)) (PyFloat (- snd ref)) h o F) as (h1 & E1 & _ & T1).
  assert (F1 : Forall (is_float h1) (addresses o)).
  { rewrite Forall_forall in *. intros b Hb. destruct (F b Hb) as [l El]. unfold is_float. rewrite T1, El. cbn [option_map].
    cbn [num_value]. eexists. f_equal. exact (touch4_plus (- fst ref) (- snd ref) o b l). }
  destruct (four_inplace Rmult k k k k h1 o F1) as (h2 & E2 & _ & T2).
  assert (F2 : Forall (is_float h2) (addresses o)).
  { rewrite Forall_forall in *. intros b Hb. destruct (F1 b Hb) as [l El]. unfold is_float. rewrite T2, El. cbn [option_map].
    eexists. f_equal. exact (touch4_mult (num_value k) o b l). }
  destruct (four_inplace Rplus (PyFloat (fst ref)) (PyFloat (fst ref)) (PyFloat (snd ref)) (PyFloat (snd ref)) h2 o F2) as (h3 & E3 & _ & T3).
  exists h3. split.
  - cbn [perform]. unfold h_scale. rewrite Rd. cbn [bind]. rewrite Hr.
    rewrite (then_ok _ _ _ _ (E1 : h_translate (PyFloat (- fst ref), PyFloat (- snd ref)) (h, o) = _)).
    rewrite (then_ok _ _ _ _ (E2 : h_scale_coords k (h1, o) = _)). exact E3.
  - assert (G : forall b l, nth_error h b = Some (mkArray Float64 l) ->
      nth_error h3 b = Some (mkArray Float64 (map (fun x =>
        (x + (INR (x_uses o b) * - fst ref + INR (y_uses o b) * - snd ref)) * num_value k ^ (x_uses o b + y_uses o b)
        + (INR (x_uses o b) * fst ref + INR (y_uses o b) * snd ref)) l))).
    { intros b l El. rewrite T3, T2, T1, El. cbn [option_map num_value].
      rewrite (touch4_plus (- fst ref) (- snd ref) o b l), touch4_mult, touch4_plus.
      f_equal. f_equal. rewrite !map_map_R. reflexivity. }
    apply read_ok in Rd. destruct Rd as (k1 & k2 & k3 & k4 & R1 & R2 & R3 & R4).
    cbn [axu axd ayu ayd o] in R1, R2, R3, R4.
    unfold addresses in F. cbn [axu axd ayu ayd o] in F. rewrite !Forall_cons_iff in F. destruct F as ([l1 G1] & _ & [l3 G3] & [l4 G4] & _).
    assert (k1 = Float64) by congruence. assert (k2 = Float64) by congruence.
    assert (k3 = Float64) by congruence. assert (k4 = Float64) by congruence. subst k1 k2 k3 k4.
    apply read_ok. exists Float64, Float64, Float64, Float64. cbn [axu axd ayu ayd o xup xdown yup ydown].
    rewrite (G _ _ R1). rewrite R1 in R2. injection R2 as R2. rewrite R2, (G _ _ R3), (G _ _ R4).
    unfold x_uses, y_uses, times. cbn [axu axd ayu ayd o].
    rewrite !Nat.eqb_refl.
    replace (Nat.eqb c a) with false by (symmetry; apply Nat.eqb_neq; congruence).
    replace (Nat.eqb d a) with false by (symmetry; apply Nat.eqb_neq; congruence).
    replace (Nat.eqb a c) with false by (symmetry; apply Nat.eqb_neq; congruence).
    replace (Nat.eqb d c) with false by (symmetry; apply Nat.eqb_neq; congruence).
    replace (Nat.eqb a d) with false by (symmetry; apply Nat.eqb_neq; congruence).
    replace (Nat.eqb c d) with false by (symmetry; apply Nat.eqb_neq; congruence).
    cbn [Nat.add INR]. repeat split; f_equal; f_equal; apply map_ext; intros x; ring.
Qed.
