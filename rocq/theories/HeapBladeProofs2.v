(** Proofs: what the loop over the sections does to arrays, owned and shared. *)
From Coq Require Import Reals List ZArith Lra Lia Bool String.
From Verif Require Import Base ProfileModel ProfileSpec PpgModel HeapModel HeapSpec HeapProofs HeapProofs2 HeapProofs3
  BladeModel BladeSpec ProfileProofs BladeProofs BladeProofs2 HeapBladeModel HeapBladeSpec HeapBladeProofs.
Import ListNotations.
Open Scope R_scope.

Lemma run_calls_app l1 l2 s : run_calls (l1 ++ l2) s =
  match run_calls l1 s with (s', Ok _) => run_calls l2 s' | (s', Err e) => (s', Err e) end.
Proof.
  revert s. induction l1 as [|m l1 IH]; intros s; cbn [app run_calls]; [reflexivity|].
  destruct (bind (read s) m); [|reflexivity]. destruct (perform a s) as [s' [[]|]]; [apply IH|reflexivity].
Qed.

(** The calls before and after the profile gets new arrays. *)
Definition head_calls (b : blade) (refl : bool) (i : nat) : list (profile -> res call) :=
  [ (fun p => let* ref := reference_point p in
              Ok (Translate (PyFloat (- fst ref), PyFloat (- snd ref))));
    (fun _ => let* c := item (chords b) i in Ok (Scale (PyFloat c) true)) ]
  ++ (if refl then [ fun _ => Ok Reflect ] else []).
Definition tail_calls (b : blade) (i : nat) : list (profile -> res call) :=
  [ (fun _ => let* a := pitch_angle_at b i in Ok (Rotate (Some (PI / 2 - a)) None));
       (fun _ => let* r := item (radii b) i in
                 let* s := item (skew b) i in
                 Ok (Translate (PyInt 0, PyFloat (- r * radians s))));
       (fun _ => let* k := item (rake b) i in
                 let* ir := induced_rake_at b i in
                 Ok (Translate (PyFloat (- (k + ir)), PyInt 0))) ].

Lemma calls_split b refl i : thickness b = None -> camber b = None ->
  section_calls b refl i = head_calls b refl i ++ tail_calls b i.
Proof. intros T C. unfold section_calls. rewrite T, C. destruct refl; reflexivity. Qed.

Lemma run_calls_keeps ms : (forall m p c, In m ms -> m p = Ok c -> in_place c) ->
  forall h o h' o' r, run_calls ms (h, o) = ((h', o'), r) -> o' = o /\ framed h h' o o.
Proof.
  induction ms as [|m ms IH]; intros H h o h' o' r E; cbn [run_calls] in E.
  - injection E as <- <- <-. split; [reflexivity|apply framed_refl].
  - destruct (read (h, o)) as [p|e]; cbn [bind] in E; [|injection E as <- <- <-; split; [reflexivity|apply framed_refl]].
    destruct (m p) as [c|e] eqn:Em; [|injection E as <- <- <-; split; [reflexivity|apply framed_refl]].
    destruct (perform c (h, o)) as [[h1 o1] r1] eqn:Ep.
    assert (I : in_place c) by (eapply H; eauto; left; auto).
    destruct (keeps_in_place c o I _ _ _ _ Ep) as [-> F1].
    destruct r1 as [[]|e]; [|injection E as <- <- <-; auto].
    destruct (IH (fun m' p' c' K => H m' p' c' (or_intror K)) _ _ _ _ _ E) as [-> F2].
    split; [reflexivity|]. eapply framed_trans; eauto.
Qed.

Lemma tail_runs b i s r c P k sk h o p : station b i s r c P k sk -> r <> 0 -> uniform p -> read (h, o) = Ok p ->
  exists h' o' q, run_calls (tail_calls b i) (h, o) = ((h', o'), Ok tt) /\ read (h', o') = Ok q /\
    moved (seat r P k sk false) p q /\ owns h' o' /\ Forall (new_in h) (addresses o') /\
    (forall a, (a < List.length h)%nat -> nth_error h' a = nth_error h a) /\ (List.length h <= List.length h')%nat.
Proof.
  intros S Hr U Rd.
  destruct (seat_steps b i s r c P k sk false p S Hr U) as (q & E & M). cbn [app run_steps] in E.
  unfold tail_calls. cbn [run_calls]. rewrite Rd. cbn [bind].
  destruct (pitch_angle_at b i) as [a|e]; cbn [bind] in *; [|discriminate].
  destruct (rotate (Some (PI / 2 - a)) None p) as [p2|e] eqn:E2; [|discriminate].
  destruct (alloc4 p2 h) as [h2 o2] eqn:A.
  assert (P2 : perform (Rotate (Some (PI / 2 - a)) None) (h, o) = ((h2, o2), Ok tt)).
  { cbn [perform]. unfold h_rotate. rewrite Rd. cbn [bind]. rewrite E2. cbn [fst]. rewrite A. reflexivity. }
  rewrite P2.
  destruct (alloc4_reads _ _ _ _ A) as (O2 & R2 & N2 & l & Eh). subst h2.
  match goal with |- context [read (h ++ l, o2)] => idtac end.
  set (ms := [ (fun _ : profile => let* r := item (radii b) i in let* s := item (skew b) i in
                 Ok (Translate (PyInt 0, PyFloat (- r * radians s))));
       (fun _ : profile => let* k := item (rake b) i in let* ir := induced_rake_at b i in
                 Ok (Translate (PyFloat (- (k + ir)), PyInt 0))) ]).
  change (exists h' o' q, run_calls ms (h ++ l, o2) = ((h', o'), Ok tt) /\ read (h', o') = Ok q /\
    moved (seat r P k sk false) p q /\ owns h' o' /\ Forall (new_in h) (addresses o') /\
    (forall a, (a < List.length h)%nat -> nth_error h' a = nth_error h a) /\ (List.length h <= List.length h')%nat).
  destruct (run_calls ms (h ++ l, o2)) as [[h' o'] rr] eqn:Er.
  assert (Ag : Forall2 agrees ms [ (fun p => let* r := item (radii b) i in let* s := item (skew b) i in
                 Ok (translate (0, - r * radians s) p));
       (fun p => let* k := item (rake b) i in let* ir := induced_rake_at b i in
                 Ok (translate (- (k + ir), 0) p)) ]).
  { repeat constructor; intros z.
    - destruct (item (radii b) i); [|reflexivity]. destruct (item (skew b) i); reflexivity.
    - destruct (item (rake b) i); [|reflexivity]. destruct (induced_rake_at b i); reflexivity. }
  destruct (run_calls_refined _ _ Ag _ _ _ _ _ _ O2 R2 Er) as (q' & E' & Rq & Oq & F1 & F2 & F3).
  cbn [run_steps] in E'. rewrite E in E'. injection E' as <- <-.
  assert (K : o' = o2).
  { eapply (run_calls_keeps ms); [|exact Er]. intros m z c0 [<-|[<-|[]]] Hm.
    - destruct (item (radii b) i); [|discriminate]. destruct (item (skew b) i); [|discriminate]. injection Hm as <-. exact I.
    - destruct (item (rake b) i); [|discriminate]. destruct (induced_rake_at b i); [|discriminate]. injection Hm as <-. exact I. }
  subst o'. exists h', o2, q. split; [reflexivity|]. split; [exact Rq|]. split; [exact M|]. split; [exact Oq|]. split; [exact N2|].
  rewrite app_length in F1, F3. split; [|lia].
  intros d Hd. rewrite F1; [apply nth_old; exact Hd|lia|].
  intros Hi. rewrite Forall_forall in N2. specialize (N2 _ Hi). lia.
Qed.

Lemma head_in_place b refl i m p c : In m (head_calls b refl i) -> m p = Ok c -> in_place c.
Proof.
  intros H E. unfold head_calls in H. apply in_app_iff in H as [[<-|[<-|[]]]|H].
  - destruct (reference_point p); [|discriminate]. injection E as <-. exact I.
  - destruct (item (chords b) i); [|discriminate]. injection E as <-. exact I.
  - destruct refl; [destruct H as [<-|[]]|destruct H]. injection E as <-. exact I.
Qed.

Definition flip (refl : bool) (a : pt) : pt := if refl then pneg a else a.

Lemma head_runs b refl i s r c P k sk h o p ref : station b i s r c P k sk -> uniform p ->
  owns h o -> read (h, o) = Ok p -> reference_point p = Ok ref ->
  exists h' p1, run_calls (head_calls b refl i) (h, o) = ((h', o), Ok tt) /\ read (h', o) = Ok p1 /\
    moved (fun a => flip refl (sized c ref a)) p p1 /\ owns h' o /\ framed h h' o o.
Proof.
  intros S U Ow Rd Hr.
  destruct (size_steps_ok c p ref U Hr) as (p1 & E1 & M1).
  set (fs := [ (fun p => let* ref := reference_point p in Ok (translate (- fst ref, - snd ref) p));
              (fun p => let* c := item (chords b) i in scale c true p) ] ++ (if refl then [ fun p => Ok (reflect p) ] else [])).
  assert (Ag : Forall2 agrees (head_calls b refl i) fs).
  { unfold head_calls, fs. apply Forall2_app; [repeat constructor; intros z|destruct refl; repeat constructor].
    - destruct (reference_point z); reflexivity.
    - destruct (item (chords b) i); reflexivity. }
  assert (V : exists p2, run_steps fs p = (p2, Ok tt) /\ moved (fun a => flip refl (sized c ref a)) p p2).
  { unfold fs. rewrite run_steps_app. cbn [run_steps] in *. unfold item. rewrite (st_chord _ _ _ _ _ _ _ _ S). cbn [bind].
    rewrite E1. destruct refl; cbn [run_steps flip].
    - exists (reflect p1). split; [reflexivity|]. eapply moved_compose; [exact M1|]. apply reflect_moved, (proj1 M1).
    - exists p1. split; [reflexivity|]. exact M1. }
  destruct V as (p2 & V & M2).
  destruct (run_calls (head_calls b refl i) (h, o)) as [[h' o'] rr] eqn:Er.
  destruct (run_calls_keeps _ (head_in_place b refl i) _ _ _ _ _ Er) as [-> F].
  destruct (run_calls_refined _ _ Ag _ _ _ _ _ _ Ow Rd Er) as (q & E' & Rq & Oq & _).
  rewrite V in E'. injection E' as <- <-. exists h', p2. auto.
Qed.

(** One section that owns its arrays: they are left centred, scaled and
    reflected; the section continues with new ones. *)
Lemma section_runs b refl i s r c P k sk h o p ref : station b i s r c P k sk -> r <> 0 -> uniform p ->
  thickness b = None -> camber b = None ->
  owns h o -> read (h, o) = Ok p -> reference_point p = Ok ref ->
  exists h' o' p1 q, run_calls (section_calls b refl i) (h, o) = ((h', o'), Ok tt) /\
    read (h', o) = Ok p1 /\ moved (fun a => flip refl (sized c ref a)) p p1 /\ owns h' o /\
    read (h', o') = Ok q /\ moved (seat r P k sk false) p1 q /\ owns h' o' /\ Forall (new_in h) (addresses o') /\
    (forall a, (a < List.length h)%nat -> ~ In a (addresses o) -> nth_error h' a = nth_error h a) /\
    (List.length h <= List.length h')%nat.
Proof.
  intros S Hr U T C Ow Rd Href. rewrite (calls_split b refl i T C).
  destruct (head_runs b refl i s r c P k sk h o p ref S U Ow Rd Href) as (h1 & p1 & E1 & R1 & M1 & O1 & F1 & F2 & F3).
  destruct (tail_runs b i s r c P k sk h1 o p1 S Hr (proj1 M1) R1) as (h2 & o2 & q & E2 & R2 & M2 & O2 & N2 & G1 & G2).
  assert (Keep : forall a, In a (addresses o) -> nth_error h2 a = nth_error h1 a).
  { intros a Ha. apply G1. eapply owns_bound; eauto. }
  exists h2, o2, p1, q. rewrite run_calls_app, E1. split; [exact E2|]. split; [exact (eq_trans (read_unchanged h1 h2 o Keep) R1)|].
  split; [exact M1|]. split; [eapply owns_unchanged; eauto|]. split; [exact R2|]. split; [exact M2|]. split; [exact O2|].
  split; [|split; [|lia]].
  - eapply Forall_impl; [|exact N2]. unfold new_in. intros a Ha. lia.
  - intros a Ha Hn. rewrite G1 by lia. apply F1; auto.
Qed.

Lemma arrays_hold_read h o p : arrays_hold h o p <-> read (h, o) = Ok p.
Proof.
  unfold arrays_hold, read. cbn [fst snd]. split.
  - intros (A & B & C & D). rewrite A, B, C, D. destruct p; reflexivity.
  - destruct (contents h (axu o)); cbn [bind]; [|discriminate].
    destruct (contents h (axd o)); cbn [bind]; [|discriminate].
    destruct (contents h (ayu o)); cbn [bind]; [|discriminate].
    destruct (contents h (ayd o)); cbn [bind]; [|discriminate]. intros E. injection E as <-. auto.
Qed.

(** ** Separate sections: what is left in the arrays they had. *)
Lemma run_calls_framed ms : forall h o h' o' r, run_calls ms (h, o) = ((h', o'), r) -> framed h h' o o'.
Proof.
  induction ms as [|m ms IH]; intros h o h' o' r E; cbn [run_calls] in E.
  - injection E as <- <- <-. apply framed_refl.
  - destruct (bind (read (h, o)) m) as [c|e]; [|injection E as <- <- <-; apply framed_refl].
    destruct (perform c (h, o)) as [[h1 o1] r1] eqn:Ep. pose proof (perform_framed _ _ _ _ _ _ Ep) as F1.
    destruct r1 as [[]|e]; [|injection E as <- <- <-; exact F1].
    eapply framed_trans; [exact F1|eauto].
Qed.

Lemma transform_framed b refl : forall is h os w r,
  transform_objects b refl is (h, os) = (w, r) ->
  (List.length h <= List.length (fst w))%nat /\
  forall a, (a < List.length h)%nat ->
    (forall i s o, In i is -> nth_error (sections b) i = Some s -> nth_error os s = Some o -> ~ In a (addresses o)) ->
    nth_error (fst w) a = nth_error h a.
Proof.
  induction is as [|i is IH]; intros h os w r E; cbn [transform_objects] in E.
  - injection E as <- <-. auto.
  - destruct (nth_error (sections b) i) as [s|] eqn:Es; [|injection E as <- <-; auto].
    cbn [fst snd] in E. destruct (nth_error os s) as [o|] eqn:Eo; [|injection E as <- <-; auto].
    destruct (run_calls (section_calls b refl i) (h, o)) as [[h1 o1] r1] eqn:Er.
    pose proof (run_calls_framed _ _ _ _ _ _ Er) as (F1 & F2 & F3).
    assert (A1 : forall a, (a < List.length h)%nat ->
      (forall j s' o', In j (i :: is) -> nth_error (sections b) j = Some s' -> nth_error os s' = Some o' -> ~ In a (addresses o')) ->
      nth_error h1 a = nth_error h a).
    { intros a La Ha. apply F1; auto. eapply Ha; [left; reflexivity|eauto|eauto]. }
    destruct r1 as [[]|e].
    + destruct (IH _ _ _ _ E) as [L1 G1]. split; [lia|]. intros a La Ha. rewrite G1; [apply A1; auto|lia|].
      intros j s' o' Hj Hs Ho. rewrite replace_nth in Ho. destruct (Nat.eqb_spec s s') as [<-|N].
      * rewrite Eo in Ho. cbn in Ho. injection Ho as <-. intros Hi. destruct (F2 _ Hi) as [Hi'|Hi']; [|lia].
        apply (Ha i s o) in Hi'; auto. left; reflexivity.
      * eapply Ha; eauto. right; auto.
    + injection E as <- <-. cbn [fst]. split; [lia|]. intros a La Ha. apply A1; auto.
Qed.

Lemma transform_left b refl : thickness b = None -> camber b = None ->
  forall is h os w, apart h os -> NoDup is -> NoDup (sections b) ->
  transform_objects b refl is (h, os) = (w, Ok tt) ->
  forall i s r c P k sk o p ref, In i is -> station b i s r c P k sk -> r <> 0 ->
    nth_error os s = Some o -> read (h, o) = Ok p -> uniform p -> reference_point p = Ok ref ->
    exists o' p1, nth_error (snd w) s = Some o' /\ Forall (new_in h) (addresses o') /\
      arrays_hold (fst w) o p1 /\ moved (fun a => flip refl (sized c ref a)) p p1.
Proof.
  intros T C. induction is as [|i is IH]; intros h os w Ap Ni Ns E j s r c P k sk o p ref Hin S Hr Eo Rd U Href; [destruct Hin|].
  cbn [transform_objects] in E. destruct (nth_error (sections b) i) as [si|] eqn:Es; [|discriminate].
  cbn [fst snd] in E. destruct (nth_error os si) as [oi|] eqn:Ei; [|discriminate].
  destruct (run_calls (section_calls b refl i) (h, oi)) as [[h1 o1] r1] eqn:Er.
  destruct r1 as [[]|]; [|discriminate].
  inversion Ni as [|? ? Ni1 Ni2]; subst.
  destruct Hin as [<-|Hin].
  - rewrite (st_section _ _ _ _ _ _ _ _ S) in Es. injection Es as <-. rewrite Eo in Ei. injection Ei as <-.
    destruct (section_runs b refl i s r c P k sk h o p ref S Hr U T C (proj1 Ap _ _ Eo) Rd Href)
      as (h1' & o1' & p1 & q & E1 & R1 & M1 & O1 & R2 & M2 & O2 & N2 & G1 & G2).
    rewrite Er in E1. injection E1 as <- <-.
    destruct (transform_framed _ _ _ _ _ _ _ E) as [L F].
    assert (Hs : nth_error (replace_at os s o1) s = Some o1) by (rewrite replace_nth, Nat.eqb_refl, Eo; reflexivity).
    assert (Nothere : forall j, In j is -> nth_error (sections b) j <> Some s).
    { intros j Hj Ej. apply Ni1. rewrite (nodup_inj _ Ns i j s (st_section _ _ _ _ _ _ _ _ S) Ej). exact Hj. }
    exists o1, p1. split; [|split; [exact N2|split; [|exact M1]]].
    + clear - E Hs Nothere. revert E Hs Nothere. generalize (replace_at os s o1). intros os1. revert h1 os1.
      induction is as [|j is IH]; intros h1 os1 E Hs Nh; cbn [transform_objects] in E; [injection E as <-; exact Hs|].
      destruct (nth_error (sections b) j) as [sj|] eqn:Ej; [|discriminate]. cbn [fst snd] in E.
      destruct (nth_error os1 sj) as [oj|] eqn:Eoj; [|discriminate].
      destruct (run_calls (section_calls b refl j) (h1, oj)) as [[h2 o2] [[]|]]; [|discriminate].
      refine (IH _ _ E _ (fun k Hk => Nh k (or_intror Hk))).
      rewrite replace_nth. destruct (Nat.eqb_spec sj s) as [->|N]; [|exact Hs]. exfalso. exact (Nh j (or_introl eq_refl) Ej).
    + apply arrays_hold_read. rewrite <- R1. apply read_unchanged. intros a Ha. apply (F a).
      * exact (owns_bound _ _ _ O1 Ha).
      * intros j s' o' Hj Hsj Hoj Hi. rewrite replace_nth in Hoj. destruct (Nat.eqb_spec s s') as [<-|N].
        -- exact (Nothere j Hj Hsj).
        -- exact (proj2 Ap s s' o o' a N Eo Hoj Ha Hi).
  - assert (Nij : si <> s).
    { intros ->. apply Ni1. rewrite (nodup_inj _ Ns i j s Es (st_section _ _ _ _ _ _ _ _ S)). exact Hin. }
    destruct (owns_read _ _ (proj1 Ap _ _ Ei)) as [pi Ri].
    destruct (run_calls_refined _ _ (section_agrees b refl i) _ _ _ _ _ _ (proj1 Ap _ _ Ei) Ri Er) as (q & Eq & Rq & Oq & Fq).
    destruct (replace_apart _ _ _ _ _ _ Ap Ei Oq Fq) as [Ap1 Oth].
    destruct (IH _ _ _ Ap1 Ni2 Ns E j s r c P k sk o p ref Hin S Hr) as (o' & p1 & A & B & D & M); auto.
    + rewrite replace_nth. destruct (Nat.eqb_spec si s); [congruence|exact Eo].
    + rewrite (Oth s o) by auto. exact Rd.
    + exists o', p1. split; [exact A|]. split; [|auto].
      eapply Forall_impl; [|exact B]. unfold new_in. intros a Ha. destruct Fq as (_ & _ & F3). lia.
Qed.

Lemma apply_transforms refl w b w' b' : h_apply_transformations refl w b = (w', b', Ok tt) ->
  transform_objects b refl (seq 0 (List.length (sections b))) w = (w', Ok tt) /\
  exists up down, object_coords w' b = Ok (up, down) /\ b' = set_coords (Built up down) b.
Proof.
  unfold h_apply_transformations. destruct (transform_objects _ _ _ _) as [w1 [[]|]]; [|discriminate].
  destruct (object_coords w1 b) as [[up down]|] eqn:Eo; [|discriminate]. intros E. injection E as <- <-.
  split; [reflexivity|]. exists up, down. auto.
Qed.

Theorem arrays_left_behind refl h os b w' b' :
  separate os -> Forall (fun o => Forall (is_float h) (addresses o)) os ->
  NoDup (sections b) -> thickness b = None -> camber b = None ->
  h_apply_transformations refl (h, os) b = (w', b', Ok tt) ->
  forall i s r c P k sk o p ref, station b i s r c P k sk -> r <> 0 ->
    nth_error os s = Some o -> read (h, o) = Ok p -> uniform p -> reference_point p = Ok ref ->
    exists o' p1, nth_error (snd w') s = Some o' /\ Forall (new_in h) (addresses o') /\
      arrays_hold (fst w') o p1 /\ moved (fun a => if refl then pneg (sized c ref a) else sized c ref a) p p1.
Proof.
  intros Se Fl Ns T C E i s r c P k sk o p ref S Hr Eo Rd U Href.
  destruct (apply_transforms _ _ _ _ _ E) as [Et _].
  assert (Hi : In i (seq 0 (List.length (sections b)))).
  { apply in_seq. split; [lia|]. cbn. apply nth_error_Some. rewrite (st_section _ _ _ _ _ _ _ _ S). discriminate. }
  exact (transform_left b refl T C _ _ _ _ (separate_apart _ _ Se Fl) (seq_NoDup _ _) Ns Et
           i s r c P k sk o p ref Hi S Hr Eo Rd U Href).
Qed.
