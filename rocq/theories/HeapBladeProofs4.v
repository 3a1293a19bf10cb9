(** Proofs: sections whose upper and lower abscissae are one array. *)
From Coq Require Import Reals List ZArith Lra Lia Bool String.
From Verif Require Import Base ProfileModel ProfileSpec PpgModel HeapModel HeapSpec HeapProofs HeapProofs2 HeapProofs3
  BladeModel BladeSpec ProfileProofs BladeProofs BladeProofs2 HeapBladeModel HeapBladeSpec HeapBladeProofs HeapBladeProofs2 HeapBladeProofs3.
Import ListNotations.
Open Scope R_scope.

Lemma shared_four f v1 v3 h o p :
  shares_abscissae h o -> read (h, o) = Ok p ->
  exists h', (inplace f v1 axu ;; inplace f v1 axd ;; inplace f v3 ayu ;; inplace f v3 ayd) (h, o) = ((h', o), Ok tt) /\
    shares_abscissae h' o /\
    read (h', o) = Ok (mkProfile (map (fun x => f (f x (num_value v1)) (num_value v1)) (xup p))
                                 (map (fun x => f (f x (num_value v1)) (num_value v1)) (xdown p))
                                 (map (fun x => f x (num_value v3)) (yup p)) (map (fun x => f x (num_value v3)) (ydown p))).
Proof.
  intros (Hs & N & F) Rd.
  destruct (four_inplace f v1 v1 v3 v3 h o F) as (h' & E & L & T).
  exists h'. split; [exact E|]. split.
  - split; [exact Hs|]. split; [exact N|]. apply Forall_forall. intros b Hb. rewrite Forall_forall in F. destruct (F b Hb) as [l El].
    unfold is_float. rewrite T, El. cbn [option_map].
    set (w := touch4 _ _ _ _ o b _).
    assert (K : kind w = Float64) by (unfold w, touch4; rewrite !touch_kind; reflexivity).
    destruct w as [k d]. cbn in K. subst k. eauto.
  - destruct o as [a a' c d]. cbn [axu axd ayu ayd] in *. subst a'.
    assert (D : a <> c /\ a <> d /\ c <> d).
    { inversion N as [|? ? N1 N2]; subst. inversion N2 as [|? ? N3 N4]; subst. cbn in N1, N3. repeat split; intro X; symmetry in X; tauto. }
    destruct D as (D1 & D2 & D3).
    apply read_ok in Rd. destruct Rd as (k1 & k2 & k3 & k4 & E1 & E2 & E3 & E4). cbn [axu axd ayu ayd] in *.
    assert (X : xup p = xdown p) by congruence.
    apply read_ok. exists k1, k1, k3, k4. cbn [axu axd ayu ayd xup xdown yup ydown]. rewrite !T, E1, E3, E4. cbn [option_map].
    unfold touch4. cbn [axu axd ayu ayd]. rewrite <- X.
    repeat split; f_equal; repeat (rewrite touch_hit || rewrite touch_miss by auto); cbn [kind data]; rewrite ?map_map; reflexivity.
Qed.

Lemma combine_maps {A B C D} (f : A -> C) (g : B -> D) l : forall l',
  combine (map f l) (map g l') = map (fun a => (f (fst a), g (snd a))) (combine l l').
Proof. induction l as [|a l IH]; intros [|b l']; cbn; f_equal; auto. Qed.

Lemma reference_shift v w p ref : reference_point p = Ok ref ->
  reference_point (mkProfile (map (fun x => x + v) (xup p)) (map (fun x => x + v) (xdown p))
                             (map (fun x => x + w) (yup p)) (map (fun x => x + w) (ydown p))) = Ok (padd ref (v, w)).
Proof.
  intros H. rewrite <- (translate_reference (v, w) p ref H). unfold translate, vshift. cbn [fst snd].
  reflexivity.
Qed.

Lemma head_shared b refl i s r c P k sk h o p ref : station b i s r c P k sk -> uniform p ->
  shares_abscissae h o -> read (h, o) = Ok p -> reference_point p = Ok ref ->
  exists h' p1, run_calls (head_calls b refl i) (h, o) = ((h', o), Ok tt) /\ read (h', o) = Ok p1 /\
    moved (bent c refl ref) p p1 /\ framed h h' o o.
Proof.
  intros S U Sh Rd Hr.
  destruct (shared_four Rplus (PyFloat (- fst ref)) (PyFloat (- snd ref)) h o p Sh Rd) as (h1 & E1 & S1 & R1).
  cbn [num_value] in R1.
  set (p1 := mkProfile _ _ _ _) in R1.
  assert (Href1 : reference_point p1 = Ok (- fst ref, 0)).
  { pose proof (reference_shift (- 2 * fst ref) (- snd ref) p ref Hr) as X.
    replace (Ok (- fst ref, 0)) with (Ok (padd ref (- 2 * fst ref, - snd ref))) by (unfold padd; cbn [fst snd]; f_equal; f_equal; ring).
    rewrite <- X. f_equal. unfold p1. f_equal; apply map_ext; intros x; ring. }
  destruct (shared_four Rplus (PyFloat (- - fst ref)) (PyFloat (- 0)) h1 o p1 S1 R1) as (h2 & E2 & S2 & R2).
  destruct (shared_four Rmult (PyFloat c) (PyFloat c) h2 o _ S2 R2) as (h3 & E3 & S3 & R3).
  destruct (shared_four Rplus (PyFloat (- fst ref)) (PyFloat 0) h3 o _ S3 R3) as (h4 & E4 & S4 & R4).
  destruct (shared_four Rmult (PyInt (-1)) (PyInt (-1)) h4 o _ S4 R4) as (h5 & E5 & S5 & R5).
  cbn [num_value xup xdown yup ydown] in R4, R5.
  assert (Run1 : perform (Translate (PyFloat (- fst ref), PyFloat (- snd ref))) (h, o) = ((h1, o), Ok tt)) by exact E1.
  assert (Run2 : perform (Scale (PyFloat c) true) (h1, o) = ((h4, o), Ok tt)).
  { cbn [perform]. unfold h_scale. rewrite R1. cbn [bind]. rewrite Href1. cbn [fst snd].
    rewrite (then_ok _ _ _ _ (E2 : h_translate (PyFloat (- - fst ref), PyFloat (- 0)) (h1, o) = _)).
    rewrite (then_ok _ _ _ _ (E3 : h_scale_coords (PyFloat c) (h2, o) = _)). exact E4. }
  assert (Run3 : perform Reflect (h4, o) = ((h5, o), Ok tt)) by exact E5.
  set (hz := if refl then h5 else h4).
  assert (Run : run_calls (head_calls b refl i) (h, o) = ((hz, o), Ok tt)).
  { unfold head_calls. cbn [app run_calls]. rewrite Rd. cbn [bind]. rewrite Hr. cbn [bind]. rewrite Run1, R1. cbn [bind].
    unfold item. rewrite (st_chord _ _ _ _ _ _ _ _ S). cbn [bind]. rewrite Run2.
    destruct refl; cbn [run_calls]; [|reflexivity]. rewrite R4. cbn [bind]. rewrite Run3. reflexivity. }
  destruct (run_calls_keeps _ (head_in_place b refl i) _ _ _ _ _ Run) as [_ Fr].
  assert (UU : forall f g, uniform (mkProfile (map f (xup p)) (map f (xdown p)) (map g (yup p)) (map g (ydown p)))).
  { intros f g. destruct U as (A & B & D). unfold uniform; cbn. rewrite !map_length. auto. }
  assert (MM : forall f g f' g', (forall x, f x = f' x) -> (forall x, g x = g' x) ->
    moved (fun a => (f' (fst a), g' (snd a))) p (mkProfile (map f (xup p)) (map f (xdown p)) (map g (yup p)) (map g (ydown p)))).
  { intros f g f' g' Hf Hg. split; [apply UU|]. unfold upper, lower. cbn [xup xdown yup ydown].
    rewrite !combine_maps. split; apply map_ext; intros a; rewrite Hf, Hg; reflexivity. }
  unfold p1 in R4, R5. cbn [xup xdown yup ydown] in R4, R5. repeat rewrite map_map in R4. repeat rewrite map_map in R5.
  destruct refl; unfold hz in *; eexists; eexists; (split; [exact Run|]).
  - split; [exact R5|]. split; [|exact Fr]. refine (MM _ _ (fun x => c * c * x - 2 * fst ref) (fun y => - c * (y - snd ref)) _ _); intros x; ring.
  - split; [exact R4|]. split; [|exact Fr]. refine (MM _ _ (fun x => c * c * x - 2 * fst ref) (fun y => c * (y - snd ref)) _ _); intros x; ring.
Qed.

Lemma shared_transformed refl h os b w' :
  Forall (shares_abscissae h) os -> NoDup (flat_map three_arrays os) ->
  NoDup (sections b) -> thickness b = None -> camber b = None ->
  transform_objects b refl (seq 0 (List.length (sections b))) (h, os) = (w', Ok tt) ->
  forall i s r c P k sk o p ref, station b i s r c P k sk -> r <> 0 ->
    nth_error os s = Some o -> read (h, o) = Ok p -> uniform p -> reference_point p = Ok ref ->
    exists o' q, nth_error (snd w') s = Some o' /\ read (fst w', o') = Ok q /\
      moved (fun a => seat r P k sk false (bent c refl ref a)) p q.
Proof.
  intros Sh Nd Ns T C Et i s r c P k sk o p ref S Hr Eo Rd U Href.
  assert (Hi : In i (seq 0 (List.length (sections b)))).
  { apply in_seq. split; [lia|]. cbn. apply nth_error_Some. rewrite (st_section _ _ _ _ _ _ _ _ S). discriminate. }
  apply in_split in Hi as (l1 & l2 & El). rewrite El in Et.
  assert (NDi : ~ In i l1 /\ ~ In i l2).
  { pose proof (seq_NoDup (List.length (sections b)) 0) as X. rewrite El in X. apply NoDup_remove_2 in X.
    split; intros H; apply X, in_app_iff; auto. }
  assert (Es := st_section _ _ _ _ _ _ _ _ S).
  assert (Not1 : forall j, In j l1 -> nth_error (sections b) j <> Some s).
  { intros j Hj Ej. apply (proj1 NDi). rewrite (nodup_inj _ Ns i j s Es Ej). exact Hj. }
  assert (Not2 : forall j, In j l2 -> nth_error (sections b) j <> Some s).
  { intros j Hj Ej. apply (proj2 NDi). rewrite (nodup_inj _ Ns i j s Es Ej). exact Hj. }
  assert (App : forall la lb w, transform_objects b refl (la ++ lb) w =
    match transform_objects b refl la w with (w1, Ok _) => transform_objects b refl lb w1 | (w1, Err e) => (w1, Err e) end).
  { induction la as [|x la IH]; intros lb w; cbn [app transform_objects]; [reflexivity|].
    destruct (nth_error (sections b) x); [|reflexivity]. destruct (nth_error (snd w) _); [|reflexivity].
    destruct (run_calls _ _) as [[hh oo] [[]|]]; [apply IH|reflexivity]. }
  rewrite App in Et. destruct (transform_objects b refl l1 (h, os)) as [[h1 os1] r1] eqn:E1.
  destruct r1 as [[]|]; [|discriminate].
  pose proof (transform_object b refl s _ _ _ _ Not1 E1) as Os1. cbn [snd] in Os1. rewrite Eo in Os1.
  destruct (transform_framed _ _ _ _ _ _ _ E1) as [L1 F1]. cbn [fst] in L1, F1.
  (* arrays of different objects *)
  assert (Dis : forall s' o' a, s' <> s -> nth_error os s' = Some o' -> In a (addresses o) -> ~ In a (addresses o')).
  { intros s' o' a Ne Eo' Ha Ha'.
    assert (A3 : forall z, In z os -> In a (addresses z) -> In a (three_arrays z)).
    { intros z Hz Hin. rewrite Forall_forall in Sh. destruct (Sh z Hz) as (Hx & _). unfold addresses in Hin. unfold three_arrays.
      rewrite Hx in *. cbn in *. tauto. }
    pose proof (A3 o (nth_error_In _ _ Eo) Ha) as B1. pose proof (A3 o' (nth_error_In _ _ Eo') Ha') as B2.
    clear - Nd Ne Eo Eo' B1 B2. revert s s' Ne Eo Eo'. induction os as [|z os IH]; intros s s' Ne Eo Eo'.
    - destruct s; discriminate.
    - cbn [flat_map] in Nd. destruct (nodup_split _ _ Nd) as (X1 & X2 & X3).
      destruct s as [|s], s' as [|s']; cbn in Eo, Eo'.
      + congruence.
      + injection Eo as ->. apply (X3 a B1). apply in_flat_map. exists o'. split; [eapply nth_error_In; eauto|auto].
      + injection Eo' as ->. apply (X3 a B2). apply in_flat_map. exists o. split; [eapply nth_error_In; eauto|auto].
      + apply (IH X2 s s'); auto. }
  assert (Bound : forall s' o' a, nth_error os s' = Some o' -> In a (addresses o') -> (a < List.length h)%nat).
  { intros s' o' a Eo' Ha. rewrite Forall_forall in Sh. destruct (Sh o' (nth_error_In _ _ Eo')) as (_ & _ & F).
    rewrite Forall_forall in F. destruct (F a Ha) as [l X]. apply nth_error_Some. congruence. }
  assert (Keep1 : forall a, In a (addresses o) -> nth_error h1 a = nth_error h a).
  { intros a Ha. apply F1; [eapply Bound; eauto|]. intros j s' o' Hj Hs' Ho' Hin.
    apply (Dis s' o' a); auto. intros ->. exact (Not1 j Hj Hs'). }
  assert (Rd1 : read (h1, o) = Ok p) by (rewrite <- Rd; apply read_unchanged; exact Keep1).
  assert (Sh1 : shares_abscissae h1 o).
  { rewrite Forall_forall in Sh. destruct (Sh o (nth_error_In _ _ Eo)) as (X & Y & Z). split; [exact X|]. split; [exact Y|].
    rewrite Forall_forall in *. intros a Ha. destruct (Z a Ha) as [l Hl]. exists l. rewrite Keep1; auto. }
  cbn [transform_objects] in Et. rewrite Es in Et. cbn [fst snd] in Et. rewrite Os1 in Et.
  rewrite (calls_split b refl i T C), run_calls_app in Et.
  destruct (head_shared b refl i s r c P k sk h1 o p ref S U Sh1 Rd1 Href) as (h2 & p1 & E2 & R2 & M2 & G1 & G2 & G3).
  rewrite E2 in Et.
  destruct (tail_runs b i s r c P k sk h2 o p1 S Hr (proj1 M2) R2) as (h3 & o3 & q & E3 & R3 & M3 & O3 & N3 & K1 & K2).
  rewrite E3 in Et.
  exists o3, q. split; [|split].
  - rewrite (transform_object b refl s _ _ _ _ Not2 Et), replace_nth, Nat.eqb_refl, Os1. reflexivity.
  - rewrite <- R3. apply read_unchanged. intros a Ha. destruct (transform_framed _ _ _ _ _ _ _ Et) as [L F].
    apply (F a (owns_bound _ _ _ O3 Ha)). intros j s' o' Hj Hs' Ho' Hin.
    rewrite replace_nth in Ho'. destruct (Nat.eqb_spec s s') as [<-|N]; [exact (Not2 j Hj Hs')|].
    assert (Old : nth_error os s' = Some o').
    { rewrite <- Ho'. symmetry. refine (transform_object b refl s' _ _ _ _ _ E1). intros j' Hj' Ej'.
      pose proof (nodup_inj _ Ns j j' s' Hs' Ej') as X. subst j'.
      pose proof (seq_NoDup (List.length (sections b)) 0) as Y. rewrite El in Y. apply nodup_split in Y.
      destruct Y as (_ & _ & Y). apply (Y j Hj'). right; exact Hj. }
    pose proof (Bound s' o' a Old Hin). rewrite Forall_forall in N3. specialize (N3 a Ha). unfold new_in in N3. lia.
  - exact (moved_compose _ _ _ _ _ M2 M3).
Qed.

Theorem shared_abscissae refl h os b w' b' :
  Forall (shares_abscissae h) os -> NoDup (flat_map three_arrays os) ->
  NoDup (sections b) -> thickness b = None -> camber b = None ->
  h_apply_transformations refl (h, os) b = (w', b', Ok tt) ->
  forall i s r c P k sk o p ref, station b i s r c P k sk -> r <> 0 ->
    nth_error os s = Some o -> read (h, o) = Ok p -> uniform p -> reference_point p = Ok ref ->
    exists o' q, nth_error (snd w') s = Some o' /\ read (fst w', o') = Ok q /\
      moved (fun a => seat r P k sk false (bent c refl ref a)) p q.
Proof.
  intros Sh Nd Ns T C E. exact (shared_transformed refl h os b w' Sh Nd Ns T C (proj1 (apply_transforms _ _ _ _ _ E))).
Qed.
