(** Rebinding methods, constructors and integer arrays. *)
From Coq Require Import Reals String List ZArith Lra Lia.
From Verif Require Import Base ProfileModel CustomModel PpgModel ProfileProofs ProfileProofs2 CustomProofs4 HeapModel HeapSpec
  HeapProofs HeapProofs2.
Import ListNotations.
Open Scope R_scope.

Lemma execute_single calls : forall h o h' os',
  execute (h, [o]) calls = (h', os') -> Forall (fun x => fst x = 0%nat) calls ->
  exists o', os' = [o'] /\ framed h h' o o'.
Proof.
  induction calls as [|[i c] calls IH]; intros h o h' os' H F.
  - cbn in H. injection H as <- <-. eauto using framed_refl.
  - inversion F as [|? ? Hi F2]; subst. cbn [fst] in Hi. subst i.
    cbn [execute] in H. unfold call_on in H. cbn [fst snd nth_error] in H.
    destruct (perform c (h, o)) as [[h1 o1] r] eqn:Ep. cbn [fst replace_at] in H.
    destruct (IH _ _ _ _ H F2) as (o' & -> & Fr). exists o'. split; auto.
    eapply framed_trans; [eapply perform_framed; eauto|auto].
Qed.

Theorem rotate_detaches rad deg h o h1 o1 calls h2 os2 :
  perform (Rotate rad deg) (h, o) = ((h1, o1), Ok tt) ->
  Forall (fun x => fst x = 0%nat) calls -> execute (h1, [o1]) calls = (h2, os2) ->
  owns h1 o1 /\ forall b, (b < List.length h)%nat -> nth_error h2 b = nth_error h b.
Proof.
  intros H F E. cbn [perform] in H. unfold h_rotate in H.
  destruct (let* p := read (h, o) in rotate rad deg p) as [p|e]; [|discriminate].
  apply pair_inv in H. destruct H as [H _]. cbn [fst] in H.
  destruct (alloc4_reads _ _ _ _ H) as (O1 & _ & A & l & ->).
  destruct (execute_single _ _ _ _ _ E F) as (o' & -> & Fr & _ & _).
  split; [exact O1|]. intros b Hb. rewrite Fr.
  - apply nth_old. exact Hb.
  - rewrite app_length. lia.
  - intros Hi. rewrite Forall_forall in A. specialize (A b Hi). lia.
Qed.

Lemma interpolates_none p : List.length (xup p) = List.length (xdown p) ->
  interpolates None p = negb (list_eqb (xup p) (xdown p)).
Proof.
  intros L. unfold interpolates, resolve_n, arrays_equal. rewrite L, Nat.eqb_refl. cbn [bind].
  destruct (list_eqb (xup p) (xdown p)); reflexivity.
Qed.

Lemma list_eqb_iff a b : list_eqb a b = true <-> a = b.
Proof.
  revert b; induction a as [|x a IH]; intros [|y b]; cbn; split; auto; try discriminate.
  - destruct (Req_EM_T x y) as [->|]; [|discriminate]. intros H. apply IH in H. congruence.
  - intros [= -> ->]. destruct (Req_EM_T y y); [|congruence]. apply IH. reflexivity.
Qed.

Theorem deform_rebinds pc h o h1 o1 p :
  perform (DeformCamberLine pc None) (h, o) = ((h1, o1), Ok tt) -> read (h, o) = Ok p ->
  (forall b, (b < List.length h)%nat -> nth_error h1 b = nth_error h b) /\
  (List.length h <= ayu o1 /\ List.length h <= ayd o1)%nat /\
  (xup p = xdown p -> axu o1 = axu o /\ axd o1 = axd o) /\
  (xup p <> xdown p -> List.length h <= axu o1 /\ List.length h <= axd o1)%nat.
Proof.
  intros H Rd. cbn [perform] in H. unfold h_deform_camber_line in H. rewrite Rd in H.
  destruct (deform_camber_line pc None p) as [p'|e] eqn:Ed; [|discriminate].
  assert (L : List.length (xup p) = List.length (xdown p)).
  { unfold deform_camber_line in Ed. apply bind_ok in Ed. destruct Ed as [cl [Ec _]].
    unfold compute_camber_line, resolve_n, arrays_equal in Ec.
    destruct (Nat.eqb_spec (List.length (xup p)) (List.length (xdown p))); [auto|discriminate]. }
  rewrite (interpolates_none p L) in H.
  apply pair_inv in H. destruct H as [H _]. cbn [fst] in H.
  destruct (list_eqb (xup p) (xdown p)) eqn:Ee; cbn [negb] in H.
  - apply list_eqb_iff in Ee. unfold alloc_y in H. cbn [fst snd] in H. injection H as <- <-. cbn [axu axd ayu ayd].
    split; [intros b Hb; apply nth_old; exact Hb|]. split; [lia|]. split; [auto|congruence].
  - assert (xup p <> xdown p) by (intros E; apply list_eqb_iff in E; congruence).
    unfold alloc4 in H. injection H as <- <-. cbn [axu axd ayu ayd].
    split; [intros b Hb; apply nth_old; exact Hb|]. split; [lia|]. split; [congruence|lia].
Qed.

(** ** Constructors. *)
Section Constructors.
Variable american : profile -> R -> list R -> R -> list R -> res (list R).

Theorem by_reference h a b c d h' o :
  h_custom_coordinates american (ByRef a) (ByRef b) (ByRef c) (ByRef d) h = (h', Ok o) ->
  h' = h /\ o = mkObject a b c d.
Proof.
  unfold h_custom_coordinates. cbn [as_array]. intros H. apply pair_inv in H. destruct H as [<- H]. split; auto.
  symmetry in H. apply bind_ok in H. destruct H as [p [_ H]]. apply bind_ok in H. destruct H as [u [_ H]].
  apply bind_ok in H. destruct H as [q [_ H]]. congruence.
Qed.

Theorem by_lists h l1 l2 l3 l4 h' o :
  h_custom_coordinates american (ByList l1) (ByList l2) (ByList l3) (ByList l4) h = (h', Ok o) ->
  owns h' o /\ read (h', o) = Ok (mkProfile l1 l2 l3 l4) /\
  Forall (fun b => (List.length h <= b)%nat) (addresses o) /\
  (forall b, (b < List.length h)%nat -> nth_error h' b = nth_error h b).
Proof.
  unfold h_custom_coordinates. cbn [as_array]. rewrite <- !app_assoc, !app_length. cbn [List.app List.length].
  intros H. apply pair_inv in H. destruct H as [<- H].
  symmetry in H. apply bind_ok in H. destruct H as [p [_ H]]. apply bind_ok in H. destruct H as [u [_ H]].
  apply bind_ok in H. destruct H as [q [_ H]]. injection H as <-.
  assert (A : alloc4 (mkProfile l1 l2 l3 l4) h =
    (h ++ [mkArray Float64 l1; mkArray Float64 l2; mkArray Float64 l3; mkArray Float64 l4],
     mkObject (List.length h) (List.length h + 1) (List.length h + 2) (List.length h + 3))).
  { reflexivity. }
  destruct (alloc4_reads _ _ _ _ A) as (A1 & A2 & A3 & _).
  split; [exact A1|]. split; [exact A2|]. split; [exact A3|]. intros b Hb. apply nth_old. exact Hb.
Qed.

Theorem by_parameters h q h' o :
  h_custom_parameters q h = (h', Ok o) ->
  owns h' o /\ read (h', o) = coordinates_british q /\
  Forall (fun b => (List.length h <= b)%nat) (addresses o) /\
  (forall b, (b < List.length h)%nat -> nth_error h' b = nth_error h b).
Proof.
  unfold h_custom_parameters.
  destruct (check_parameters q) as [u|e]; cbn [bind]; [|discriminate].
  destruct (coordinates_british q) as [p|e]; [|discriminate].
  destruct (alloc4 p h) as [h1 o1] eqn:A. intros [= <- <-].
  destruct (alloc4_reads _ _ _ _ A) as (A1 & A2 & A3 & l & ->).
  split; [exact A1|]. split; [exact A2|]. split; [exact A3|]. intros b Hb. apply nth_old. exact Hb.
Qed.

Theorem caller_arrays_follow h a b c d h0 o p calls h' os' :
  h_custom_coordinates american (ByRef a) (ByRef b) (ByRef c) (ByRef d) h = (h0, Ok o) ->
  NoDup [a; b; c; d] -> Forall (is_float h) [a; b; c; d] -> read (h, o) = Ok p ->
  Forall (fun x => fst x = 0%nat /\ in_place (snd x)) calls ->
  execute (h0, [o]) calls = (h', os') ->
  let q := after (map snd calls) p in
  contents h' a = Ok (xup q) /\ contents h' b = Ok (xdown q) /\ contents h' c = Ok (yup q) /\ contents h' d = Ok (ydown q).
Proof.
  intros K N F Rd Fc E. destruct (by_reference _ _ _ _ _ _ _ K) as [-> ->].
  assert (O : owns h (mkObject a b c d)) by (split; auto).
  intros q.
  assert (G : read (h', mkObject a b c d) = Ok q).
  { subst q. clear K N F. revert h p Rd O E. induction calls as [|[i cl] calls IH]; intros h p Rd O E.
    - cbn in E. injection E as <- <-. exact Rd.
    - inversion Fc as [|? ? [Hi Hc] F2]; subst. cbn [fst snd] in Hi, Hc. subst i.
      cbn [execute] in E. unfold call_on in E. cbn [fst snd nth_error] in E.
      destruct (perform cl (h, mkObject a b c d)) as [[h1 o1] r] eqn:Ep. cbn [fst replace_at] in E.
      destruct (keeps_in_place cl _ Hc _ _ _ _ Ep) as [-> _].
      destruct (perform_refined _ _ _ _ _ _ _ O Rd Ep) as (V & O1 & _).
      assert (R1 : read (h1, mkObject a b c d) = Ok (match value_call cl p with Ok p' => p' | Err _ => p end)).
      { destruct (value_call cl p); [apply V|]. destruct V as (_ & -> & _). exact Rd. }
      exact (IH F2 h1 _ R1 O1 E). }
  apply read_ok in G. cbn [axu axd ayu ayd] in G. destruct G as (k1 & k2 & k3 & k4 & E1 & E2 & E3 & E4).
  unfold contents. rewrite E1, E2, E3, E4. auto.
Qed.
(** The constructors agree with the value model. *)
Theorem by_reference_outcome h a b c d p :
  read (h, mkObject a b c d) = Ok p ->
  h_custom_coordinates american (ByRef a) (ByRef b) (ByRef c) (ByRef d) h =
    (h, match custom_profile american (keyed p) with Ok _ => Ok (mkObject a b c d) | Err e => Err e end).
Proof.
  intros Rd. unfold h_custom_coordinates. cbn [as_array]. rewrite Rd. f_equal.
  destruct p as [xu xd yu yd]. unfold custom_profile.
  change (same_keys (keyed (mkProfile xu xd yu yd)) coord_keys) with true. cbv iota.
  unfold keyed. cbn [kw_get String.eqb Ascii.eqb Bool.eqb bind need_array xup xdown yup ydown].
  destruct (check_coordinates (mkProfile xu xd yu yd)) as [u|e]; cbn [bind]; [|reflexivity].
  destruct (generate_parameters american "british" (mkProfile xu xd yu yd)); reflexivity.
Qed.

Theorem by_lists_outcome h l1 l2 l3 l4 :
  exists h' o, h_custom_coordinates american (ByList l1) (ByList l2) (ByList l3) (ByList l4) h =
    (h', match custom_profile american (keyed (mkProfile l1 l2 l3 l4)) with Ok _ => Ok o | Err e => Err e end).
Proof.
  destruct (alloc4 (mkProfile l1 l2 l3 l4) h) as [h' o] eqn:A.
  destruct (alloc4_reads _ _ _ _ A) as (_ & Rd & _ & _).
  exists h', o. pose proof (by_reference_outcome h' (axu o) (axd o) (ayu o) (ayd o) (mkProfile l1 l2 l3 l4)) as X.
  destruct o as [a b c d]. cbn [axu axd ayu ayd] in X. specialize (X Rd). rewrite <- X.
  unfold alloc4 in A. cbn [xup xdown yup ydown] in A. injection A as <- <- <- <- <-.
  unfold h_custom_coordinates. cbn [as_array]. rewrite <- !app_assoc, !app_length. reflexivity.
Qed.

Theorem by_parameters_outcome h q :
  exists h' o, h_custom_parameters q h =
    (h', match custom_profile american (keyed_params q) with Ok _ => Ok o | Err e => Err e end).
Proof.
  unfold h_custom_parameters, custom_profile.
  change (same_keys (keyed_params q) coord_keys) with false.
  change (same_keys (keyed_params q) param_keys) with true. cbv iota.
  unfold keyed_params. cbn [kw_get String.eqb Ascii.eqb Bool.eqb bind need_array need_number].
  destruct q as [cl cp cm ca tm th].
  cbn [chord_length chord_percentage camber_max camber_percentage thickness_max thickness_percentage].
  destruct (check_parameters (mkParams cl cp cm ca tm th)) as [u|e]; cbn [bind]; [|exists h, (mkObject 0 0 0 0); reflexivity].
  destruct (coordinates_british (mkParams cl cp cm ca tm th)) as [p|e]; cbn [bind]; [|exists h, (mkObject 0 0 0 0); reflexivity].
  destruct (alloc4 p h) as [h' o]. exists h', o. reflexivity.
Qed.
End Constructors.

(** ** Integer arrays. *)

Lemma inplace_kind f v fld (h : heap) o a :
  nth_error h (fld o) = Some a ->
  exists h', inplace f v fld (h, o) = ((h', o), if cannot (kind a) v then Err TypeError else Ok tt) /\
    (cannot (kind a) v = true -> h' = h) /\
    forall b, option_map kind (nth_error h' b) = option_map kind (nth_error h b).
Proof.
  intros E. unfold inplace. cbn [fst snd]. rewrite E.
  assert (X : forall l b, option_map kind (nth_error (store_at h (fld o) (mkArray (kind a) l)) b) = option_map kind (nth_error h b)).
  { intros l b. destruct (Nat.eq_dec (fld o) b) as [<-|N].
    - rewrite store_same, E; [reflexivity|]. apply nth_error_Some. congruence.
    - rewrite store_other by auto. reflexivity. }
  destruct a as [[|] l]; cbn [kind data] in *; destruct v; cbn [cannot]; eexists; split; try reflexivity; split; auto; discriminate.
Qed.


Lemma kind_at_some h b k : kind_at h b = Some k -> exists a, nth_error h b = Some a /\ kind a = k.
Proof. unfold kind_at. destruct (nth_error h b); cbn; [intros [= <-]; eauto|discriminate]. Qed.

Lemma step_kind f v fld rest h o k :
  kind_at h (fld o) = Some k ->
  exists h', (forall b, kind_at h' b = kind_at h b) /\
    snd ((inplace f v fld ;; rest) (h, o)) = if cannot k v then Err TypeError else snd (rest (h', o)).
Proof.
  intros K. destruct (kind_at_some _ _ _ K) as (a & E & <-).
  destruct (inplace_kind f v fld h o a E) as (h' & H & _ & T).
  exists h'. split; [exact T|]. unfold then_. destruct (inplace f v fld (h, o)) as [s r].
  apply pair_inv in H. destruct H as [-> <-]. destruct (cannot (kind a) v); reflexivity.
Qed.

Theorem translate_outcome h o v k1 k2 k3 k4 :
  kind_at h (axu o) = Some k1 -> kind_at h (axd o) = Some k2 ->
  kind_at h (ayu o) = Some k3 -> kind_at h (ayd o) = Some k4 ->
  snd (perform (Translate v) (h, o)) =
    if (cannot k1 (fst v) || cannot k2 (fst v) || cannot k3 (snd v) || cannot k4 (snd v))%bool
    then Err TypeError else Ok tt.
Proof.
  intros K1 K2 K3 K4. cbn [perform]. unfold h_translate.
  destruct (step_kind Rplus (fst v) axu (inplace Rplus (fst v) axd ;; inplace Rplus (snd v) ayu ;; inplace Rplus (snd v) ayd) h o k1 K1)
    as (h1 & T1 & ->). destruct (cannot k1 (fst v)); [reflexivity|]. cbn [orb].
  rewrite <- T1 in K2, K3, K4.
  destruct (step_kind Rplus (fst v) axd (inplace Rplus (snd v) ayu ;; inplace Rplus (snd v) ayd) h1 o k2 K2)
    as (h2 & T2 & ->). destruct (cannot k2 (fst v)); [reflexivity|]. cbn [orb].
  rewrite <- T2 in K3, K4.
  destruct (step_kind Rplus (snd v) ayu (inplace Rplus (snd v) ayd) h2 o k3 K3)
    as (h3 & T3 & ->). destruct (cannot k3 (snd v)); [reflexivity|]. cbn [orb].
  rewrite <- T3 in K4. destruct (kind_at_some _ _ _ K4) as (a & E & <-).
  destruct (inplace_kind Rplus (snd v) ayd h3 o a E) as (h4 & -> & _ & _). reflexivity.
Qed.

(** The arrays before the integer one are moved already. *)
Theorem translate_not_atomic (h : heap) o l1 l2 vx y :
  nth_error h (axu o) = Some (mkArray Float64 l1) -> nth_error h (axd o) = Some (mkArray Int64 l2) ->
  exists h', perform (Translate (PyFloat vx, y)) (h, o) = ((h', o), Err TypeError) /\
    nth_error h' (axu o) = Some (mkArray Float64 (map (fun x => x + vx) l1)) /\
    forall b, b <> axu o -> nth_error h' b = nth_error h b.
Proof.
  intros E1 E2. cbn [perform]. unfold h_translate. cbn [fst snd].
  set (h' := store_at h (axu o) (mkArray Float64 (map (fun x => x + vx) l1))).
  assert (N : axu o <> axd o) by congruence.
  assert (S1 : nth_error h' (axu o) = Some (mkArray Float64 (map (fun x => x + vx) l1))).
  { apply store_same. apply nth_error_Some. congruence. }
  assert (S2 : forall b, b <> axu o -> nth_error h' b = nth_error h b).
  { intros b Hb. apply store_other. congruence. }
  exists h'. split; [|auto].
  assert (I1 : inplace Rplus (PyFloat vx) axu (h, o) = ((h', o), Ok tt)).
  { unfold inplace. cbn [fst snd]. rewrite E1. reflexivity. }
  rewrite (then_ok _ _ _ _ I1). unfold then_ at 1.
  assert (I2 : inplace Rplus (PyFloat vx) axd (h', o) = ((h', o), Err TypeError)).
  { unfold inplace. cbn [fst snd]. rewrite S2 by auto. rewrite E2. reflexivity. }
  rewrite I2. reflexivity.
Qed.

Theorem scale_integer (h : heap) o k l p ref :
  nth_error h (axu o) = Some (mkArray Int64 l) -> read (h, o) = Ok p -> reference_point p = Ok ref ->
  perform (Scale k true) (h, o) = ((h, o), Err TypeError).
Proof.
  intros E Rd Hr. cbn [perform]. unfold h_scale. rewrite Rd. cbn [bind]. rewrite Hr.
  unfold then_ at 1. unfold h_translate, then_ at 1. unfold inplace at 1. cbn [fst snd]. rewrite E. reflexivity.
Qed.

Theorem reflect_any_kind h o :
  (forall b, In b (addresses o) -> exists k, kind_at h b = Some k) ->
  snd (perform Reflect (h, o)) = Ok tt.
Proof.
  intros H. cbn [perform]. unfold h_reflect, h_scale_coords.
  destruct (H (axu o)) as [k1 K1]; [cbn; auto|]. destruct (H (axd o)) as [k2 K2]; [cbn; auto|].
  destruct (H (ayu o)) as [k3 K3]; [cbn; auto|]. destruct (H (ayd o)) as [k4 K4]; [cbn; auto|].
  assert (C : forall k, cannot k (PyInt (-1)) = false) by (intros []; reflexivity).
  destruct (step_kind Rmult (PyInt (-1)) axu (inplace Rmult (PyInt (-1)) axd ;; inplace Rmult (PyInt (-1)) ayu ;; inplace Rmult (PyInt (-1)) ayd) h o k1 K1)
    as (h1 & T1 & ->). rewrite C.
  rewrite <- T1 in K2, K3, K4.
  destruct (step_kind Rmult (PyInt (-1)) axd (inplace Rmult (PyInt (-1)) ayu ;; inplace Rmult (PyInt (-1)) ayd) h1 o k2 K2)
    as (h2 & T2 & ->). rewrite C.
  rewrite <- T2 in K3, K4.
  destruct (step_kind Rmult (PyInt (-1)) ayu (inplace Rmult (PyInt (-1)) ayd) h2 o k3 K3)
    as (h3 & T3 & ->). rewrite C.
  rewrite <- T3 in K4. destruct (kind_at_some _ _ _ K4) as (a & E & <-).
  destruct (inplace_kind Rmult (PyInt (-1)) ayd h3 o a E) as (h4 & -> & _ & _). rewrite C. reflexivity.
Qed.
