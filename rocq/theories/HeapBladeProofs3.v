(** Proofs: blades whose sections share arrays. *)
From Coq Require Import Reals List ZArith Lra Lia Bool String.
From Verif Require Import Base ProfileModel ProfileSpec PpgModel HeapModel HeapSpec HeapProofs HeapProofs2 HeapProofs3
  BladeModel BladeSpec ProfileProofs BladeProofs BladeProofs2 HeapBladeModel HeapBladeSpec HeapBladeProofs HeapBladeProofs2.
Import ListNotations.
Open Scope R_scope.

Lemma transform_object b refl s : forall is h os w,
  (forall j, In j is -> nth_error (sections b) j <> Some s) ->
  transform_objects b refl is (h, os) = (w, Ok tt) -> nth_error (snd w) s = nth_error os s.
Proof.
  induction is as [|j is IH]; intros h os w Nh E; cbn [transform_objects] in E; [injection E as <-; reflexivity|].
  destruct (nth_error (sections b) j) as [sj|] eqn:Ej; [|discriminate]. cbn [fst snd] in E.
  destruct (nth_error os sj) as [oj|] eqn:Eoj; [|discriminate].
  destruct (run_calls (section_calls b refl j) (h, oj)) as [[h2 o2] [[]|]]; [|discriminate].
  rewrite (IH _ _ _ (fun k Hk => Nh k (or_intror Hk)) E).
  rewrite replace_nth. destruct (Nat.eqb_spec sj s) as [->|N]; [|reflexivity]. exfalso. exact (Nh j (or_introl eq_refl) Ej).
Qed.

(** ** The same arrays in every section *)
Definition off (ref : pt) (k : nat) : pt := match k with O => ref | S _ => (0, 0) end.

Lemma wear_next refl cs k c : nth_error cs k = Some c ->
  wear refl cs (S k) = wear refl cs k * (if refl then - c else c).
Proof.
  intros E. unfold wear.
  assert (X : firstn (S k) cs = firstn k cs ++ [c]).
  { revert cs E. induction k as [|k IH]; intros [|d cs] E; try discriminate; cbn in E.
    - injection E as ->. reflexivity.
    - change (firstn (S (S k)) (d :: cs)) with (d :: firstn (S k) cs). rewrite (IH cs E). reflexivity. }
  rewrite X, map_app, fold_right_app. cbn [map fold_right].
  generalize (map (fun c0 => if refl then - c0 else c0) (firstn k cs)). intros l.
  set (d := if refl then - c else c). induction l as [|e l IH]; cbn [fold_right]; [ring|]. rewrite IH. ring.
Qed.

Lemma affine_uniform a v p : uniform p -> uniform (affine a v p).
Proof. intros (A & B & C). unfold uniform, affine; cbn. rewrite !map_length. auto. Qed.

Lemma reference_moved a v ref p q ref' :
  uniform p -> reference_point p = Ok ref -> moved (fun x => padd v (pscale a (psub x ref))) p q ->
  reference_point q = Ok ref' -> ref' = v.
Proof.
  intros U Hr M Hq.
  assert (Q : q = affine a (psub v (pscale a ref)) p).
  { eapply moved_uniform_eq; [exact M|]. split; [apply affine_uniform; auto|].
    destruct (affine_points a (psub v (pscale a ref)) p) as [-> ->].
    split; apply map_ext; intros [x y]; unfold padd, pscale, psub; cbn [fst snd]; f_equal; ring. }
  subst q. apply reference_point_mid in Hr as (le & te & E & ->). apply reference_point_mid in Hq as (le' & te' & E' & ->).
  destruct (affine_edges a (psub v (pscale a (pscale (1/2) (padd le te)))) p le te E) as [X _].
  pose proof (X _ E') as Y. injection Y as -> ->.
  destruct le as [a1 a2], te as [b1 b2], v as [v1 v2]. unfold padd, pscale, psub; cbn [fst snd]. f_equal; field.
Qed.

Lemma transform_same b refl p ref o : thickness b = None -> camber b = None -> NoDup (sections b) ->
  uniform p -> reference_point p = Ok ref -> Forall (fun r => r <> 0) (radii b) -> consistent b ->
  forall m j0 h os w A,
  (forall j s o', (j0 <= j < j0 + m)%nat -> nth_error (sections b) j = Some s -> nth_error os s = Some o' -> o' = o) ->
  owns h o -> read (h, o) = Ok A ->
  moved (fun a => padd (off ref j0) (pscale (wear refl (chords b) j0) (psub a ref))) p A ->
  transform_objects b refl (seq j0 m) (h, os) = (w, Ok tt) ->
  forall i s r c P k sk, (j0 <= i < j0 + m)%nat -> station b i s r c P k sk ->
    exists o' q, nth_error (snd w) s = Some o' /\ read (fst w, o') = Ok q /\
      moved (fun a => seat r P k sk false (pscale (wear refl (chords b) (S i)) (psub a ref))) p q.
Proof.
  intros T C Ns U Hr Fr Co. induction m as [|m IH]; intros j0 h os w A Same Ow Rd M E i s r c P k sk Hi S; [lia|].
  cbn [seq transform_objects] in E. destruct (nth_error (sections b) j0) as [s0|] eqn:Es; [|discriminate].
  cbn [fst snd] in E. destruct (nth_error os s0) as [o0|] eqn:Eo; [|discriminate].
  assert (o0 = o) by (apply (Same j0 s0 o0); auto; lia). subst o0.
  destruct (run_calls (section_calls b refl j0) (h, o)) as [[h1 o1] [[]|]] eqn:Er; [|discriminate].
  assert (L0 : (j0 < List.length (sections b))%nat) by (apply nth_error_Some; congruence).
  destruct (consistent_station b j0 Co L0) as (s0' & r0 & c0 & P0 & k0 & sk0 & S0).
  assert (s0' = s0) by (pose proof (st_section _ _ _ _ _ _ _ _ S0); congruence). subst s0'.
  assert (R0 : r0 <> 0).
  { rewrite Forall_forall in Fr. apply Fr. eapply nth_error_In. exact (st_radius _ _ _ _ _ _ _ _ S0). }
  assert (HA : exists refA, reference_point A = Ok refA).
  { rewrite (calls_split b refl j0 T C) in Er. unfold head_calls in Er. cbn [app run_calls] in Er. rewrite Rd in Er. cbn [bind] in Er.
    destruct (reference_point A) as [x|e]; [eauto|discriminate]. }
  destruct HA as [refA HA].
  pose proof (reference_moved _ _ _ _ _ _ U Hr M HA) as ->.
  destruct (section_runs b refl j0 s0 r0 c0 P0 k0 sk0 h o A _ S0 R0 (proj1 M) T C Ow Rd HA)
    as (h1' & o1' & p1 & q & E1 & R1 & M1 & O1 & R2 & M2 & O2 & N2 & G1 & G2).
  rewrite Er in E1. injection E1 as <- <-.
  assert (M1' : moved (fun a => pscale (wear refl (chords b) (Datatypes.S j0)) (psub a ref)) p p1).
  { eapply moved_ext; [|exact (moved_compose _ _ _ _ _ M M1)].
    intros a. rewrite (wear_next refl (chords b) j0 c0 (st_chord _ _ _ _ _ _ _ _ S0)).
    unfold flip, sized, padd, pscale, psub, pneg. destruct refl; cbn [fst snd]; f_equal; ring. }
  assert (Uniq : forall j, (j0 < j)%nat -> nth_error (sections b) j <> Some s0).
  { intros j Hj Ej. pose proof (nodup_inj _ Ns j0 j s0 Es Ej). lia. }
  destruct (Nat.eq_dec i j0) as [->|Ni].
  - assert (s = s0) by (pose proof (st_section _ _ _ _ _ _ _ _ S); congruence). subst s.
    assert (X : r = r0 /\ P = P0 /\ k = k0 /\ sk = sk0).
    { destruct S, S0. split; [congruence|]. split; [congruence|]. split; congruence. }
    destruct X as (-> & -> & -> & ->).
    exists o1, q. split; [|split].
    + rewrite (transform_object b refl s0 _ _ _ _ (fun j Hj => Uniq j (proj1 (proj1 (in_seq _ _ _) Hj))) E).
      rewrite replace_nth, Nat.eqb_refl, Eo. reflexivity.
    + rewrite <- R2. apply read_unchanged. intros a Ha.
      destruct (transform_framed _ _ _ _ _ _ _ E) as [L F]. apply (F a (owns_bound _ _ _ O2 Ha)).
      intros j s' o' Hj Hs Ho Hin. apply in_seq in Hj.
      rewrite replace_nth in Ho. destruct (Nat.eqb_spec s0 s') as [<-|N]; [exact (Uniq j ltac:(lia) Hs)|].
      assert (o' = o) by (apply (Same j s' o'); auto; lia). subst o'.
      rewrite Forall_forall in N2. specialize (N2 a Ha). unfold new_in in N2.
      pose proof (owns_bound _ _ _ Ow Hin). lia.
    + exact (moved_compose _ _ _ _ _ M1' M2).
  - refine (IH (Datatypes.S j0) h1 (replace_at os s0 o1) w p1 _ O1 R1 _ E i s r c P k sk _ S); [| |lia].
    + intros j s' o' Hj Hs Ho. rewrite replace_nth in Ho. destruct (Nat.eqb_spec s0 s') as [<-|N].
      * exfalso. exact (Uniq j ltac:(lia) Hs).
      * apply (Same j s' o'); auto; lia.
    + eapply moved_ext; [|exact M1']. intros a. cbn [off]. unfold padd; cbn [fst snd]. destruct (pscale _ _). cbn. f_equal; ring.
Qed.

Theorem same_arrays refl h o os b w' b' p ref :
  owns h o -> read (h, o) = Ok p -> uniform p -> reference_point p = Ok ref -> Forall (fun o' => o' = o) os ->
  consistent b -> NoDup (sections b) -> Forall (fun r => r <> 0) (radii b) -> thickness b = None -> camber b = None ->
  h_apply_transformations refl (h, os) b = (w', b', Ok tt) ->
  forall i s r c P k sk, station b i s r c P k sk ->
    exists o' q, nth_error (snd w') s = Some o' /\ read (fst w', o') = Ok q /\
      moved (fun a => seat r P k sk false (pscale (wear refl (chords b) (S i)) (psub a ref))) p q.
Proof.
  intros Ow Rd U Hr Fo Co Ns Fr T C E i s r c P k sk S.
  destruct (apply_transforms _ _ _ _ _ E) as [Et _].
  refine (transform_same b refl p ref o T C Ns U Hr Fr Co _ 0 h os w' p _ Ow Rd _ Et i s r c P k sk _ S).
  - intros j s' o' _ _ Ho. rewrite Forall_forall in Fo. apply Fo. eapply nth_error_In; eauto.
  - eapply moved_ext; [|apply moved_id; exact U]. intros [x y]. unfold wear. cbn [firstn map fold_right off].
    unfold padd, pscale, psub. cbn [fst snd]. f_equal; ring.
  - split; [lia|]. cbn. apply nth_error_Some. rewrite (st_section _ _ _ _ _ _ _ _ S). discriminate.
Qed.
