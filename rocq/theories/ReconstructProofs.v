From Coq Require Import Reals List Bool Lia Lra Permutation String.
From Coq Require Import List.
From Verif Require Import Base ProfileModel ProfileSpec ProfileProofs ProfileProofs2 ProfileProofs3 CustomModel.
From Verif Require CustomSpec CustomProofs CustomProofs4.
From Verif Require Import BladeModel BladeSpec BladeProofs BladeProofs2 BladeProofs3
  BladeProofs4 BladeProofs5 BladeProofs6 PathModel ReverseModel ReverseSpec ReverseProofs ReverseProofs2 ReverseProofs3 ReverseProofs4 ReverseProofs5 ReverseProofs6 ReverseProofs7
  ReconstructModel.
Import ListNotations.
Open Scope R_scope.

Section Rec.
Variable american : profile -> R -> list R -> R -> list R -> res (list R).

(** ** Without assignments *)
Definition is_method (c : call) : Prop :=
  match c with CallSections | CallBlade | CallPropeller _ _ => True | _ => False end.
Lemma methods_fail : forall make_propeller v cs, Forall is_method cs ->
  history american make_propeller cs (fresh v) = (fresh v, map (fun _ => Err AttributeError) cs).
Proof.
  intros make_propeller v cs H. induction H as [|c cs M H IH]; [reflexivity|]. cbn [history map].
  destruct c; cbn [is_method] in M; try contradiction; cbn [perform reconstruct_sections reconstruct_blade reconstruct_propeller fresh num_sections recons_blade bind];
    rewrite IH; reflexivity.
Qed.
(** ** With arbitrary attributes *)
Lemma blade_never : forall o, exists o' e, reconstruct_blade american o = (o', Err e).
Proof.
  intros o. unfold reconstruct_blade. destruct (num_sections o) as [n|]; [|eauto]. destruct (fill american (seq 0 n) o) as [o1 [u|e]]; [|eauto].
  destruct (recons_sections o1) as [l|]; [|eauto]. destruct (all_profiles l) as [ps|]; [|eauto].
  destruct (new_blade _ _ _ _ _ _ _ _) as [b|e]; [|eauto]. destruct (apply_transformations _ _ _) as [[st' b'] [u'|e]]; eauto.
Qed.
Lemma propeller_never : forall make_propeller sh n o, exists e, reconstruct_propeller make_propeller sh n o = (o, Err e).
Proof.
  intros make_propeller sh n o. unfold reconstruct_propeller. destruct (recons_blade o) as [b|]; [|eauto]. destruct (make_propeller sh b n); cbn [bind]; eauto.
Qed.

(** ** Filling the sections *)
Lemma assign_spec : forall {A} (l : list A) j x l', assign l j x = Ok l' ->
  List.length l' = List.length l /\ nth_error l' j = Some x /\ forall i, i <> j -> nth_error l' i = nth_error l i.
Proof.
  intros A l. induction l as [|y l IH]; intros [|j] x l' H; cbn [assign] in H; try discriminate.
  - injection H as <-. split; [reflexivity|]. split; [reflexivity|]. intros [|i] N; [contradiction|reflexivity].
  - apply bind_ok in H as (r & E & H). injection H as <-. destruct (IH _ _ _ E) as (L & N & O). cbn [List.length nth_error].
    split; [f_equal; exact L|]. split; [exact N|]. intros [|i] D; [reflexivity|]. apply O. lia.
Qed.
Lemma assign_ok : forall {A} (l : list A) j x, (j < List.length l)%nat -> exists l', assign l j x = Ok l'.
Proof.
  intros A l. induction l as [|y l IH]; intros [|j] x H; cbn [List.length] in H; [lia|lia|eexists; reflexivity|].
  destruct (IH j x) as (l' & E); [lia|]. cbn [assign]. rewrite E. eexists. reflexivity.
Qed.
Lemma fill_ok : forall (ps : list profile) js o l, recons_sections o = Some l ->
  (forall j, In j js -> exists p, nth_error ps j = Some p /\ row_profile american (values o) j = Ok p) ->
  (forall j, In j js -> (j < List.length l)%nat) ->
  exists l', fill american js o = (mkRObject (values o) (num_sections o) (Some l') (recons_blade o), Ok tt) /\ List.length l' = List.length l /\
    (forall j, In j js -> nth_error l' j = option_map Some (nth_error ps j)) /\ (forall j, ~ In j js -> nth_error l' j = nth_error l j).
Proof.
  intros ps js. induction js as [|j js IH]; intros o l EL HP HL; cbn [fill].
  - exists l. destruct o as [v n s b]. cbn [values num_sections recons_sections recons_blade] in *. subst s. repeat split; auto. intros j [].
  - destruct (HP j (or_introl eq_refl)) as (p & Ep & ->). rewrite EL.
    destruct (assign_ok l j (Some p)) as (l1 & E1); [apply HL; left; reflexivity|]. rewrite E1. destruct (assign_spec _ _ _ _ E1) as (L1 & N1 & O1).
    destruct (IH (mkRObject (values o) (num_sections o) (Some l1) (recons_blade o)) l1 eq_refl) as (l' & EF & L' & N' & O').
    + intros i I. apply (HP i). right. exact I.
    + intros i I. rewrite L1. apply HL. right. exact I.
    + exists l'. cbn [values num_sections recons_blade] in EF. split; [exact EF|]. split; [congruence|]. split.
      * intros i I. destruct (in_dec Nat.eq_dec i js) as [I'|I']; [apply N'; exact I'|]. destruct I as [<-|I]; [|contradiction].
        rewrite (O' _ I'), N1, Ep. reflexivity.
      * intros i I. rewrite O' by (intros Q; apply I; right; exact Q). apply O1. intros ->. apply I. left. reflexivity.
Qed.
Lemma option_list_eq : forall {A} (l m : list A), (forall i, nth_error l i = nth_error m i) -> l = m.
Proof.
  intros A l. induction l as [|a l IH]; intros [|b m] H; [reflexivity|specialize (H 0%nat); discriminate|specialize (H 0%nat); discriminate|].
  pose proof (H 0%nat) as H0. injection H0 as ->. f_equal. apply IH. intros i. exact (H (S i)).
Qed.
Lemma fill_all : forall ps o l, recons_sections o = Some l -> List.length l = List.length ps ->
  (forall j p, nth_error ps j = Some p -> row_profile american (values o) j = Ok p) ->
  fill american (seq 0 (List.length ps)) o = (mkRObject (values o) (num_sections o) (Some (map Some ps)) (recons_blade o), Ok tt).
Proof.
  intros ps o l EL LL HP.
  destruct (fill_ok ps (seq 0 (List.length ps)) o l EL) as (l' & EF & L' & N' & O').
  - intros j I. apply in_seq in I. destruct (nth_error ps j) as [p|] eqn:E; [exists p; auto|apply nth_error_None in E; lia].
  - intros j I. apply in_seq in I. lia.
  - rewrite EF. replace (map Some ps) with l'; [reflexivity|]. apply option_list_eq. intros i. rewrite nth_error_map.
    destruct (lt_dec i (List.length ps)) as [Q|Q]; [apply N'; apply in_seq; lia|].
    rewrite (proj2 (nth_error_None l' i)) by lia. rewrite (proj2 (nth_error_None ps i)) by lia. reflexivity.
Qed.
Lemma sections_work : forall ps o l, num_sections o = Some (List.length ps) -> recons_sections o = Some l -> List.length l = List.length ps ->
  (forall j p, nth_error ps j = Some p -> row_profile american (values o) j = Ok p) ->
  reconstruct_sections american o = (mkRObject (values o) (num_sections o) (Some (map Some ps)) (recons_blade o), Ok (map Some ps)).
Proof.
  intros ps o l EN EL LL HP. unfold reconstruct_sections. rewrite EN, (fill_all ps o l EL LL HP). cbn [recons_sections]. rewrite EN. reflexivity.
Qed.
Lemma profiles_all : forall ps, all_profiles (map Some ps) = Some ps.
Proof. induction ps as [|p ps IH]; [reflexivity|]. cbn [map all_profiles]. rewrite IH. reflexivity. Qed.

(** ** A row which is a profile of the blade *)
Definition coord_kw (p : profile) : CustomModel.kwargs :=
  [("xup"%string, KArr (xup p)); ("yup"%string, KArr (yup p)); ("xdown"%string, KArr (xdown p)); ("ydown"%string, KArr (ydown p))].
Lemma coord_kw_call : forall p, CustomSpec.coordinate_call (coord_kw p) p.
Proof.
  intros p. unfold CustomSpec.coordinate_call, CustomSpec.has_keys, coord_kw. cbn [map fst]. split; [split|cbn [In]; tauto].
  - repeat constructor; cbn [In]; intuition discriminate.
  - intros k. unfold coord_keys. cbn [In]. tauto.
Qed.
Lemma row_accepted : forall v j p q, nth_error (r_xup v) j = Some (xup p) -> nth_error (r_yup v) j = Some (yup p) ->
  nth_error (r_xdown v) j = Some (xdown p) -> nth_error (r_ydown v) j = Some (ydown p) ->
  custom_profile american (coord_kw p) = Ok (p, q) -> row_profile american v j = Ok p.
Proof.
  intros v j p q E1 E2 E3 E4 EC. unfold row_profile, item. rewrite E1, E2, E3, E4. cbn [bind]. unfold coord_kw in EC. rewrite EC. reflexivity.
Qed.
Lemma foil_ends : forall n p, (2 <= n)%nat -> unit_foil n p ->
  uniform p /\ first (upper p) = Ok (0, 0) /\ first (lower p) = Ok (0, 0) /\ final (upper p) = Ok (1, 0) /\ final (lower p) = Ok (1, 0).
Proof.
  intros n p HN (A1 & A2 & A3 & A4 & A5 & A6 & A7 & A8 & _). destruct (first_linspace n HN) as (C1 & C2).
  assert (LX : List.length (linspace 0 1 n) = n) by apply linspace_length.
  assert (FC : forall (xs ys : list R) x y, first xs = Ok x -> first ys = Ok y -> first (combine xs ys) = Ok (x, y)).
  { intros xs ys x y. destruct xs, ys; try discriminate. intros [= ->] [= ->]. reflexivity. }
  assert (FL : forall (us ys : list R) x y, List.length us = List.length ys -> final us = Ok x -> final ys = Ok y -> final (combine us ys) = Ok (x, y)).
  { induction us as [|u us IH]; intros [|w ys] x y L; try discriminate. destruct us as [|u' us], ys as [|w' ys]; try discriminate.
    - intros [= ->] [= ->]. reflexivity.
    - intros H1 H2. apply (IH (w' :: ys) x y); auto. }
  split; [repeat split; congruence|]. unfold upper, lower.
  split; [apply FC; congruence|]. split; [apply FC; congruence|]. split; apply FL; congruence.
Qed.
Lemma unit_accepted : forall n p, (2 <= n)%nat -> unit_foil n p -> CustomSpec.consistent p -> exists q, custom_profile american (coord_kw p) = Ok (p, q).
Proof.
  intros n p HN HF HC. destruct (foil_ends n p HN HF) as (U & _). destruct HF as (A1 & _). destruct (first_linspace n HN) as (C1 & C2).
  assert (LX : List.length (linspace 0 1 n) = n) by apply linspace_length.
  assert (H0 : hd 0 (xup p) = 0) by (rewrite A1; destruct (linspace 0 1 n); [discriminate|injection C1 as ->; reflexivity]).
  assert (H1 : last (xup p) 0 = 1).
  { rewrite A1. clear - C2. revert C2. induction (linspace 0 1 n) as [|x l IH]; [discriminate|]. destruct l; [intros [= ->]; reflexivity|exact IH]. }
  apply CustomProofs4.construct_ok; auto using coord_kw_call.
  - rewrite A1. intros Z. rewrite Z in LX. cbn in LX. lia.
  - rewrite H0, Rabs_R0. lra.
  - rewrite H1, Rabs_R1. lra.
  - rewrite H0, H1. lra.
Qed.
Lemma chord_id : forall a, in_chord (0, 0) 1 a = a.
Proof. intros [x y]. unfold in_chord, pscale, psub. cbn [fst snd]. f_equal; field. Qed.
Lemma linspace_ordered : forall n, (2 <= n)%nat -> ordered Rlt (linspace 0 1 n).
Proof.
  intros n HN. unfold linspace. assert (P : 0 < (1 - 0) / INR (n - 1)).
  { apply Rmult_lt_0_compat; [lra|]. apply Rinv_0_lt_compat, lt_0_INR. lia. }
  apply (ordered_map lt).
  - intros a b L. apply lt_INR in L. apply Rplus_lt_compat_l, Rmult_lt_compat_r; assumption.
  - generalize 0%nat as s. clear HN P. induction n as [|[|n] IH]; intros s; cbn [seq]; [constructor|constructor|].
    constructor; [lia|]. apply (IH (S s)).
Qed.
Lemma combine_ordered : forall (xs ys : list R), ordered Rlt xs -> List.length xs = List.length ys -> ordered (fun a b : pt => fst a < fst b) (combine xs ys).
Proof.
  intros xs ys O. revert ys. induction O as [|a|a b l P O IH]; intros [|y ys] L; try discriminate; cbn [combine].
  - constructor.
  - destruct ys; constructor.
  - destruct ys as [|y' ys]; [discriminate|]. cbn [combine]. constructor; [exact P|]. apply (IH (y' :: ys)). injection L. auto.
Qed.
Lemma chord_fst : forall (xs ys : list R), List.length xs = List.length ys -> map (fun a : pt => fst (in_chord (0, 0) 1 a)) (combine xs ys) = xs.
Proof. induction xs as [|x xs IH]; intros [|y ys] L; try discriminate; [reflexivity|]. cbn [combine map]. rewrite chord_id. cbn [fst]. f_equal. apply IH. injection L. auto. Qed.
Lemma chord_snd : forall (xs ys : list R), List.length xs = List.length ys -> map (fun a : pt => snd (in_chord (0, 0) 1 a)) (combine xs ys) = ys.
Proof. induction xs as [|x xs IH]; intros [|y ys] L; try discriminate; [reflexivity|]. cbn [combine map]. rewrite chord_id. cbn [snd]. f_equal. apply IH. injection L. auto. Qed.
Lemma in_combine_snd : forall (xs ys : list R) a, In a (combine xs ys) -> In (snd a) ys.
Proof. intros xs ys [x y] I. eapply in_combine_r. exact I. Qed.

(** One row of the arrays. *)
Lemma row_recovered : forall refl st b st' b' up down, consistent b -> NoDup (sections b) ->
  Forall (fun r => r <> 0) (radii b) -> thickness b = None -> camber b = None ->
  (forall s, In s (sections b) -> uniform (st s)) ->
  apply_transformations refl st b = (st', b', Ok tt) -> coordinates b' = Built up down ->
  forall i s r c P k sk n, station b i s r c P k sk -> (2 <= n)%nat -> unit_foil n (st s) -> c <> 0 -> 0 < r ->
    (forall a, In a (upper (st s)) \/ In a (lower (st s)) ->
       r * Rabs (sk * (PI / 180)) + Rabs c * pdist a (1 / 2, 0) < PI * r) ->
  forall rowu rowd cubic slice v j rl, nth_error up (List.length (sections b) - 1 - i) = Some rowu ->
    nth_error down (List.length (sections b) - 1 - i) = Some rowd -> interpolates cubic -> true_slice slice n r rowu rowd ->
    reverse_bladex cubic slice rl n = Ok v -> nth_error rl j = Some (1000 * r) ->
  nth_error (r_xup v) j = Some (xup (st s)) /\ nth_error (r_xdown v) j = Some (xdown (st s)) /\
  nth_error (r_yup v) j = Some (yup (st s)) /\ nth_error (r_ydown v) j = Some (ydown (st s)) /\
  nth_error (pitch_list v) j = Some (Rabs P) /\ nth_error (skew_angles_list v) j = Some sk /\
  nth_error (rake_list v) j = Some k /\ nth_error (chord_length_list v) j = Some (Rabs c).
Proof.
  intros refl st b st' b' up down C ND F T K U H HB i s r c P k sk n S HN HF Hc Hr HR rowu rowd cubic slice v j rl Eu Ed HI HT HV HJ.
  destruct HT as (ct & a & z & HS & Ea & Ez & T1 & T2 & T3 & T4).
  destruct (foil_ends n (st s) HN HF) as (Us & A1 & A2 & A3 & A4).
  assert (HD : psub (1, 0) (0, 0) = (1, 0)) by (unfold psub; cbn [fst snd]; f_equal; ring).
  assert (HM : pscale (1 / 2) (padd (0, 0) (1, 0)) = (1 / 2, 0)) by (unfold pscale, padd; cbn [fst snd]; f_equal; field).
  assert (HH : pdist (0, 0) (1 / 2, 0) = 1 / 2).
  { rewrite <- HM. destruct (half_chord (0, 0) (1, 0) 1 HD) as (-> & _). rewrite Rabs_R1. reflexivity. }
  assert (HR1 : r * Rabs (sk * (PI / 180)) + Rabs (c * 1) / 2 < PI * r).
  { specialize (HR (0, 0) (or_introl (first_in _ _ A1))). rewrite HH in HR. rewrite Rmult_1_r. lra. }
  destruct (parameters_recovered refl st b st' b' up down C ND F T K U H HB i s r c P k sk (0, 0) (1, 0) 1 S A1 A2 A3 A4 HD Hr HR1
    rowu a z Eu Ea Ez cubic slice rl n v j ct HV HJ HS (or_introl (conj T1 T2))) as (P1 & P2 & P3 & P4 & _).
  rewrite Rmult_1_r in P4.
  destruct (reverse_bladex_row _ _ _ _ _ _ _ HV HJ) as (t & Et & _ & _ & _ & _ & _ & _ & X1 & X2 & X3 & X4).
  destruct HF as (F1 & F2 & F3 & F4 & F5 & F6 & F7 & F8 & F9 & F10).
  assert (LX : List.length (linspace 0 1 n) = n) by apply linspace_length.
  destruct (section_recovered refl st b st' b' up down C ND F T K U H HB i s r c P k sk (0, 0) (1, 0) 1 S A1 A2 A3 A4 HD Rlt_0_1 Hc Hr) with
    (rowu := rowu) (rowd := rowd) (a := a) (z := z) (cubic := cubic) (slice := slice) (n := n) (ct := ct) (t := t) as (R1 & R2 & R3); auto.
  - rewrite HM. exact HR.
  - intros q I. cbn [snd]. rewrite Forall_forall in F9. apply F9. eapply in_combine_snd. exact I.
  - apply Exists_exists in F10 as (y & I & PY). apply In_nth_error in I as (m & Em).
    destruct (nth_error (xup (st s)) m) as [x|] eqn:Ex; [|apply nth_error_None in Ex; assert (m < List.length (yup (st s)))%nat by (apply nth_error_Some; rewrite Em; discriminate); rewrite F1, LX in Ex; lia].
    exists (x, y). split; [|exact PY]. unfold upper. clear - Em Ex. revert m Em Ex. generalize (xup (st s)), (yup (st s)).
    induction l as [|x0 xs IH]; intros [|y0 ys] [|m] Em Ex; try discriminate; cbn [combine nth_error] in *.
    + injection Em as ->. injection Ex as ->. left. reflexivity.
    + right. eapply IH; eauto.
  - assert (OU : ordered (fun a b : pt => fst a < fst b) (upper (st s))) by (unfold upper; rewrite F1; apply combine_ordered; [apply linspace_ordered; exact HN|congruence]).
    assert (OD : ordered (fun a b : pt => fst a < fst b) (lower (st s))) by (unfold lower; rewrite F2; apply combine_ordered; [apply linspace_ordered; exact HN|congruence]).
    assert (MU : map (fun a => fst (in_chord (0, 0) 1 a)) (upper (st s)) = linspace 0 1 n) by (rewrite <- F1; apply chord_fst; congruence).
    assert (MD : map (fun a => fst (in_chord (0, 0) 1 a)) (lower (st s)) = linspace 0 1 n) by (rewrite <- F2; apply chord_fst; congruence).
    pose proof (eq_trans (rows_kept _ _ _ _ _ _ _ _ HI Rlt_0_1 HD A1 A3 OU MU R1) (chord_snd (xup (st s)) (yup (st s)) ltac:(congruence))) as Y1.
    pose proof (eq_trans (rows_kept _ _ _ _ _ _ _ _ HI Rlt_0_1 HD A2 A4 OD MD R2) (chord_snd (xdown (st s)) (ydown (st s)) ltac:(congruence))) as Y2.
    rewrite X1, X2, X3, X4, P1, P2, P3, P4, R3, Y1, Y2, F1, F2. repeat split; reflexivity.
Qed.

Lemma list_from_nth : forall {A} (l m : list A), List.length l = List.length m -> (forall i x, nth_error m i = Some x -> nth_error l i = Some x) -> l = m.
Proof.
  intros A l m L H. apply option_list_eq. intros i. destruct (nth_error m i) as [x|] eqn:E; [apply H; exact E|].
  apply nth_error_None. apply nth_error_None in E. lia.
Qed.

(** ** The blade made from the values read is the blade *)
Theorem reconstruction : forall st b st' b' up down n cubic slice v o l,
  consistent b -> sections b <> [] -> NoDup (sections b) -> thickness b = None -> camber b = None -> (2 <= n)%nat ->
  Forall (fun c => 0 < c) (chords b) -> Forall (fun r => 0 < r) (radii b) -> Forall (fun P => 0 <= P) (pitch b) ->
  (forall s, In s (sections b) -> unit_foil n (st s) /\ CustomSpec.consistent (st s)) ->
  apply_transformations true st b = (st', b', Ok tt) -> coordinates b' = Built up down ->
  (forall i s r c P k sk, station b i s r c P k sk -> forall a, In a (upper (st s)) \/ In a (lower (st s)) ->
       r * Rabs (sk * (PI / 180)) + c * pdist a (1 / 2, 0) < PI * r) ->
  interpolates cubic ->
  (forall i s r c P k sk rowu rowd, station b i s r c P k sk -> nth_error up (List.length (sections b) - 1 - i) = Some rowu ->
     nth_error down (List.length (sections b) - 1 - i) = Some rowd -> true_slice slice n r rowu rowd) ->
  reverse_bladex cubic slice (map (fun r => 1000 * r) (radii b)) n = Ok v ->
  values o = v -> num_sections o = Some (List.length (sections b)) -> recons_sections o = Some l -> List.length l = List.length (sections b) ->
  exists o' st2 b2, reconstruct_blade american o = (o', Err AttributeError) /\ recons_blade o' = Some (st2, b2) /\
    coordinates b2 = Built up down /\ radii b2 = radii b /\ chords b2 = chords b /\ pitch b2 = pitch b /\ rake b2 = rake b /\ skew b2 = skew b.
Proof.
  intros st b st' b' up down n cubic slice v o l C NE ND T K HN FC FR FP HF H HB HR HI HS HV EV EN EL LL.
  assert (F0 : Forall (fun r => r <> 0) (radii b)) by (eapply Forall_impl; [|exact FR]; cbv beta; intros; lra).
  assert (U : forall s, In s (sections b) -> uniform (st s)) by (intros s I; apply (foil_ends n), HF; assumption).
  assert (Rows : forall i s r c P k sk, station b i s r c P k sk ->
    nth_error (r_xup v) i = Some (xup (st s)) /\ nth_error (r_xdown v) i = Some (xdown (st s)) /\
    nth_error (r_yup v) i = Some (yup (st s)) /\ nth_error (r_ydown v) i = Some (ydown (st s)) /\
    nth_error (pitch_list v) i = Some P /\ nth_error (skew_angles_list v) i = Some sk /\
    nth_error (rake_list v) i = Some k /\ nth_error (chord_length_list v) i = Some c).
  { intros i s r c P k sk S. pose proof (nth_error_In _ _ (st_section _ _ _ _ _ _ _ _ S)) as Is.
    assert (PC : 0 < c) by (rewrite Forall_forall in FC; eapply FC, nth_error_In, (st_chord _ _ _ _ _ _ _ _ S)).
    assert (PR : 0 < r) by (rewrite Forall_forall in FR; eapply FR, nth_error_In, (st_radius _ _ _ _ _ _ _ _ S)).
    assert (PP : 0 <= P) by (rewrite Forall_forall in FP; eapply FP, nth_error_In, (st_pitch _ _ _ _ _ _ _ _ S)).
    destruct (apply_sections _ _ _ _ _ C H) as (_ & _ & up' & down' & EB & _ & _ & W). rewrite HB in EB. injection EB as <- <-.
    destruct (W _ _ _ _ _ _ _ S) as (W1 & W2).
    destruct (row_recovered true st b st' b' up down C ND F0 T K U H HB i s r c P k sk n S HN (proj1 (HF s Is)) ltac:(lra) PR) with
      (rowu := map (wrap r) (upper (st' s))) (rowd := map (wrap r) (lower (st' s))) (cubic := cubic) (slice := slice) (v := v) (j := i)
      (rl := map (fun r => 1000 * r) (radii b)) as (Q1 & Q2 & Q3 & Q4 & Q5 & Q6 & Q7 & Q8); auto.
    - intros a I. rewrite (Rabs_right c) by lra. exact (HR _ _ _ _ _ _ _ S a I).
    - exact (HS _ _ _ _ _ _ _ _ _ S W1 W2).
    - rewrite nth_error_map, (st_radius _ _ _ _ _ _ _ _ S). reflexivity.
    - rewrite Rabs_right in Q5 by lra. rewrite Rabs_right in Q8 by lra. tauto. }
  destruct (bladex_lists _ _ _ _ _ HV) as (L0 & _ & L1 & _ & L3 & _ & L5 & L6 & _). rewrite map_length in L1, L3, L5, L6.
  pose proof C as (C1 & C2 & C3 & C4 & C5).
  assert (ST : forall i, (i < List.length (sections b))%nat -> exists s r c P k sk, station b i s r c P k sk) by (intros i L; apply consistent_station; assumption).
  assert (Q1 : pitch_list v = pitch b).
  { apply list_from_nth; [congruence|]. intros i x E. assert (L : (i < List.length (sections b))%nat) by (rewrite <- C3; apply nth_error_Some; rewrite E; discriminate).
    destruct (ST i L) as (s & r & c & P & k & sk & S). pose proof (st_pitch _ _ _ _ _ _ _ _ S) as E'. rewrite E in E'. injection E' as ->. apply (Rows _ _ _ _ _ _ _ S). }
  assert (Q2 : skew_angles_list v = skew b).
  { apply list_from_nth; [congruence|]. intros i x E. assert (L : (i < List.length (sections b))%nat) by (rewrite <- C5; apply nth_error_Some; rewrite E; discriminate).
    destruct (ST i L) as (s & r & c & P & k & sk & S). pose proof (st_skew _ _ _ _ _ _ _ _ S) as E'. rewrite E in E'. injection E' as ->. apply (Rows _ _ _ _ _ _ _ S). }
  assert (Q3 : rake_list v = rake b).
  { apply list_from_nth; [congruence|]. intros i x E. assert (L : (i < List.length (sections b))%nat) by (rewrite <- C4; apply nth_error_Some; rewrite E; discriminate).
    destruct (ST i L) as (s & r & c & P & k & sk & S). pose proof (st_rake _ _ _ _ _ _ _ _ S) as E'. rewrite E in E'. injection E' as ->. apply (Rows _ _ _ _ _ _ _ S). }
  assert (Q4 : chord_length_list v = chords b).
  { apply list_from_nth; [congruence|]. intros i x E. assert (L : (i < List.length (sections b))%nat) by (rewrite <- C2; apply nth_error_Some; rewrite E; discriminate).
    destruct (ST i L) as (s & r & c & P & k & sk & S). pose proof (st_chord _ _ _ _ _ _ _ _ S) as E'. rewrite E in E'. injection E' as ->. apply (Rows _ _ _ _ _ _ _ S). }
  assert (Q0 : map (fun r => r / 1000) (radii_list v) = radii b).
  { rewrite L0, map_map. transitivity (map (fun r : R => r) (radii b)); [|apply map_id]. apply map_ext. intros r. field. }
  set (ps := map st (sections b)).
  assert (LP : List.length ps = List.length (sections b)) by apply map_length.
  assert (RP : forall j p, nth_error ps j = Some p -> row_profile american (values o) j = Ok p).
  { intros j p E. unfold ps in E. rewrite nth_error_map in E. destruct (nth_error (sections b) j) as [s|] eqn:Es; [|discriminate]. injection E as <-.
    assert (L : (j < List.length (sections b))%nat) by (apply nth_error_Some; rewrite Es; discriminate).
    destruct (ST j L) as (s' & r & c & P & k & sk & S). pose proof (st_section _ _ _ _ _ _ _ _ S) as E'. rewrite Es in E'. injection E' as <-.
    destruct (HF s (nth_error_In _ _ Es)) as (G1 & G2). destruct (unit_accepted n (st s) HN G1 G2) as (q & Eq). destruct (Rows _ _ _ _ _ _ _ S) as (X1 & X2 & X3 & X4 & _).
    rewrite EV. apply (row_accepted v j (st s) q); assumption. }
  unfold reconstruct_blade. rewrite EN, <- LP. rewrite (fill_all ps o l EL ltac:(congruence) RP). cbn [recons_sections values num_sections].
  rewrite profiles_all. rewrite EV, Q0, Q1, Q2, Q3, Q4.
  set (b0 := mkBlade (seq 0 (List.length ps)) (radii b) (chords b) (pitch b) (rake b) (skew b) None None NoCoords None None None None).
  assert (CB : consistent b0) by (unfold consistent, b0; cbn [sections radii chords pitch rake skew]; rewrite seq_length, LP; auto).
  assert (NB : new_blade (seq 0 (List.length ps)) (radii b) (chords b) (pitch b) (rake b) (skew b) None None = Ok b0).
  { unfold new_blade. fold b0. replace (check_params b0) with true; [reflexivity|]. unfold check_params, b0. cbn [sections radii chords pitch rake skew].
    rewrite seq_length, LP, C1, C2, C3, C4, C5, Nat.eqb_refl. reflexivity. }
  rewrite NB. set (st0 := fun i => nth i ps (mkProfile [] [] [] [])).
  assert (G0 : forall i s, nth_error (sections b) i = Some s -> st0 i = st s).
  { intros i s E. unfold st0. apply nth_error_nth. unfold ps. rewrite nth_error_map, E. reflexivity. }
  assert (U0 : forall i, In i (sections b0) -> uniform (st0 i) /\ List.length (xup (st0 i)) = n /\ exists ref, reference_point (st0 i) = Ok ref).
  { intros i I. unfold b0 in I. cbn [sections] in I. apply in_seq in I. destruct (ST i ltac:(lia)) as (s & r & c & P & k & sk & S).
    pose proof (st_section _ _ _ _ _ _ _ _ S) as Es. rewrite (G0 _ _ Es). destruct (HF s (nth_error_In _ _ Es)) as (G1 & _).
    destruct (foil_ends n (st s) HN G1) as (Us & A1 & A2 & A3 & A4). split; [exact Us|]. split; [destruct G1 as (-> & _); apply linspace_length|].
    eexists. apply (closed_reference _ _ _ Us A1 A2 A3 A4). }
  destruct (apply_succeeds true st0 b0 n CB) as (st2 & b2 & H2); auto.
  { unfold b0. cbn [sections]. rewrite LP. destruct (sections b); [contradiction|discriminate]. }
  { apply seq_NoDup. }
  rewrite H2. eexists _, st2, b2. split; [reflexivity|]. split; [reflexivity|].
  destruct (apply_sections _ _ _ _ _ CB H2) as ((_ & E2 & E3 & E4 & E5 & E6 & _) & _ & up2 & down2 & EB2 & LU & LD & W2).
  destruct (apply_sections _ _ _ _ _ C H) as (_ & _ & up' & down' & EB & LU' & LD' & W'). rewrite HB in EB. injection EB as <- <-.
  assert (SL : List.length (sections b0) = List.length (sections b)) by (unfold b0; cbn [sections]; rewrite seq_length; exact LP).
  assert (RW : forall i, (i < List.length (sections b))%nat ->
     nth_error up2 (List.length (sections b) - 1 - i) = nth_error up (List.length (sections b) - 1 - i) /\
     nth_error down2 (List.length (sections b) - 1 - i) = nth_error down (List.length (sections b) - 1 - i)).
  { intros i L. destruct (ST i L) as (s & r & c & P & k & sk & S).
    assert (S0 : station b0 i i r c P k sk).
    { destruct S as [S1 S2 S3 S4 S5 S6]. constructor; unfold b0; cbn [sections radii chords pitch rake skew]; auto. idtac.
      rewrite LP. rewrite (nth_error_nth' (seq 0 (List.length (sections b))) 0%nat) by (rewrite seq_length; exact L). rewrite List.seq_nth by exact L. reflexivity. }
    pose proof (st_section _ _ _ _ _ _ _ _ S) as Es. destruct (HF s (nth_error_In _ _ Es)) as (G1 & _).
    destruct (foil_ends n (st s) HN G1) as (Us & A1 & A2 & A3 & A4).
    destruct (station_planar true st b st' b' up down C ND F0 T K U H HB i s r c P k sk (0, 0) (1, 0) S A1 A2 A3 A4) as (V1 & V2).
    rewrite <- (G0 _ _ Es) in A1, A2, A3, A4.
    destruct (station_planar true st0 b0 st2 b2 up2 down2 CB (seq_NoDup _ _) F0 eq_refl eq_refl (fun x I => proj1 (U0 x I)) H2 EB2 i i r c P k sk (0, 0) (1, 0) S0 A1 A2 A3 A4) as (V3 & V4).
    rewrite SL in V3, V4. rewrite (G0 _ _ Es) in V3, V4. rewrite V1, V2, V3, V4. auto. }
  split; [|unfold b0 in *; cbn [radii chords pitch rake skew] in *; repeat split; congruence].
  rewrite EB2. assert (EU : up2 = up /\ down2 = down); [|destruct EU as (-> & ->); reflexivity].
  split; apply option_list_eq; intros i; (destruct (lt_dec i (List.length (sections b))) as [L|L]; [|transitivity (@None (list pt3)); [apply nth_error_None; lia|symmetry; apply nth_error_None; lia]]).
  - destruct (RW (List.length (sections b) - 1 - i)%nat ltac:(lia)) as (V & _). replace (List.length (sections b) - 1 - (List.length (sections b) - 1 - i))%nat with i in V by lia. exact V.
  - destruct (RW (List.length (sections b) - 1 - i)%nat ltac:(lia)) as (_ & V). replace (List.length (sections b) - 1 - (List.length (sections b) - 1 - i))%nat with i in V by lia. exact V.
Qed.
End Rec.
(** ** Index of a radius *)
Lemma index_spec : forall x l i, index_of x l = Some i -> nth_error l i = Some x /\ forall j, (j < i)%nat -> nth_error l j <> Some x.
Proof.
  intros x l. induction l as [|y l IH]; intros i H; [discriminate|]. cbn [index_of] in H. destruct (Req_EM_T y x) as [->|N].
  - injection H as <-. split; [reflexivity|]. intros j L; lia.
  - destruct (index_of x l) as [k|] eqn:E; [|discriminate]. injection H as <-. destruct (IH k eq_refl) as (A & B). split; [exact A|].
    intros [|j] L; cbn [nth_error]; [congruence|apply B; lia].
Qed.
Lemma index_none : forall x l, index_of x l = None <-> ~ In x l.
Proof.
  intros x l. induction l as [|y l IH]; cbn [index_of In]; [tauto|]. destruct (Req_EM_T y x) as [->|N].
  - split; [discriminate|]. intros H. exfalso. auto.
  - destruct (index_of x l) as [k|]; cbn [option_map]; split; try discriminate; intros H; try tauto.
    exfalso. assert (Some k = None) by (apply IH; tauto). discriminate.
Qed.
