(** Proofs about the sections cut by ReversePropellerBladeX. *)
From Coq Require Import Reals List Bool Lra Lia Arith Permutation.
From Verif Require Import Base ProfileModel ProfileSpec ProfileProofs BladeModel BladeSpec ReverseModel ReverseSpec ReverseProofs ReverseProofs2 ReverseProofs4 ReverseProofs6
  ChordModel CamberModel CamberProofs2 ReconstructModel ReconstructProofs ReconstructProofs2 SliceModel SliceSpec.
Import ListNotations.
Open Scope R_scope.

Lemma radial_iff : forall x y z, radial (x, y, z) = true <-> x = 0.
Proof. intros. unfold radial, dot3. destruct Req_EM_T; split; intros; try lra; congruence. Qed.
Lemma radial_no : forall n, fst (fst n) <> 0 -> radial n = false.
Proof. intros [[x y] z] H. cbn in H. destruct (radial (x, y, z)) eqn:E; [|reflexivity]. apply radial_iff in E. contradiction. Qed.

Lemma lateral_app : forall F (a b : list (F * pt3)), lateral_faces F (a ++ b) = lateral_faces F a ++ lateral_faces F b.
Proof. intros. unfold lateral_faces. rewrite filter_app, map_app. reflexivity. Qed.
Lemma lateral_none : forall F (l : list (F * pt3)), Forall (fun g => fst (fst (snd g)) <> 0) l -> lateral_faces F l = [].
Proof.
  intros F l H. unfold lateral_faces. induction H as [|g l N _ IH]; [reflexivity|]. destruct g as [g m]. cbn [snd] in N. cbn [filter snd]. rewrite (radial_no _ N). exact IH.
Qed.
Lemma lateral_cons : forall F f y z (l : list (F * pt3)), lateral_faces F ((f, (0, y, z)) :: l) = f :: lateral_faces F l.
Proof. intros. unfold lateral_faces. cbn [filter snd]. rewrite (proj2 (radial_iff 0 y z) eq_refl). reflexivity. Qed.
Lemma final_snoc : forall A (l : list A) x, final (l ++ [x]) = Ok x.
Proof. intros A l x. induction l as [|a l IH]; [reflexivity|]. cbn. destruct (l ++ [x]) eqn:E; [destruct l; discriminate|]. exact IH. Qed.
Lemma last_lateral : forall F (fs : list (F * pt3)) f, final (lateral_faces F fs) = Ok f <-> last_radial fs f.
Proof.
  intros F fs f. split.
  - induction fs as [|[g [[x y] z]] fs IH] using rev_ind; [discriminate|]. rewrite lateral_app. destruct (Req_dec x 0) as [->|N].
    + rewrite lateral_cons. cbn [lateral_faces filter map]. rewrite final_snoc. intros H. injection H as <-.
      exists fs, [], y, z. split; [reflexivity|constructor].
    + rewrite lateral_none with (l := [_]) by (constructor; [exact N|constructor]). rewrite app_nil_r. intros H.
      destruct (IH H) as (l1 & l2 & y' & z' & -> & FA). exists l1, (l2 ++ [(g, (x, y, z))]), y', z'.
      rewrite <- app_assoc. split; [reflexivity|]. apply Forall_app. split; [exact FA|]. constructor; [exact N|constructor].
  - intros (l1 & l2 & y & z & -> & FA). rewrite lateral_app, lateral_cons, (lateral_none _ _ FA). apply final_snoc.
Qed.
Lemma only_lateral : forall F (fs : list (F * pt3)) f, only_radial fs f -> lateral_faces F fs = [f].
Proof.
  intros F fs f (l1 & l2 & y & z & -> & A & B). rewrite lateral_app, lateral_cons, (lateral_none _ _ A), (lateral_none _ _ B). reflexivity.
Qed.

Lemma split_parity : forall E (l : list E) c, (Nat.modulo c 2 = 0%nat -> split_edges c l = (odds l, evens l)) /\
  (Nat.modulo c 2 = 1%nat -> split_edges c l = (evens l, odds l)).
Proof.
  assert (S0 : forall c, Nat.modulo c 2 = 0%nat -> Nat.modulo (S c) 2 = 1%nat).
  { intros c H. pose proof (Nat.div_mod c 2 ltac:(lia)). rewrite H in H0. rewrite H0. replace (S (2 * (c / 2) + 0))%nat with (1 + (c / 2) * 2)%nat by lia.
    apply Nat.mod_add. lia. }
  assert (S1 : forall c, Nat.modulo c 2 = 1%nat -> Nat.modulo (S c) 2 = 0%nat).
  { intros c H. pose proof (Nat.div_mod c 2 ltac:(lia)). rewrite H in H0. rewrite H0. replace (S (2 * (c / 2) + 1))%nat with (0 + (c / 2 + 1) * 2)%nat by lia.
    apply Nat.mod_add. lia. }
  assert (O : forall A (a : A) l, odds (a :: l) = a :: evens l) by (intros A a [|b l]; reflexivity).
  assert (V : forall A (a : A) l, evens (a :: l) = odds l) by reflexivity.
  intros E l. induction l as [|e l IH]; intros c; [split; reflexivity|]. cbn [split_edges]. destruct (IH (S c)) as [A B]. split; intros H.
  - rewrite (B (S0 c H)), (S0 c H). cbn [Nat.eqb]. rewrite O, V. reflexivity.
  - rewrite (A (S1 c H)), (S1 c H). cbn [Nat.eqb]. rewrite O, V. reflexivity.
Qed.

Section Slice.
Variables F E C : Type.
Variable cylinder : R -> res (list (F * pt3)).
Variable cut_edges : F -> res (list E).
Variable make_wire : list E -> res cwire.
Variables (tops bottoms : cwire -> pt3 -> pt3 -> list pt3) (middle : pt3 -> pt3 -> pt3 -> pt3 -> res pt3).
Variable fit : list pt3 -> res C.
Variable cubic : list R -> list R -> res (R -> res R).
Notation cut_at := (cut_at F E C cylinder cut_edges make_wire tops bottoms middle fit).
Notation slice := (slice F E C cylinder cut_edges make_wire tops bottoms middle fit).
Notation rounds := (rounds F E C cylinder cut_edges make_wire tops bottoms middle fit cubic).
Notation new_bladex := (new_bladex F E C cylinder cut_edges make_wire tops bottoms middle fit cubic).

Lemma cut_inv : forall n radius lat w c ct, cut_at n radius = Ok (lat, w, c, ct) ->
  exists fs f es wt wb, cylinder radius = Ok fs /\ lat = lateral_faces F fs /\ last_radial fs f /\ cut_edges f = Ok es /\
    make_wire es = Ok w /\ make_wire (odds es) = Ok wt /\ make_wire (evens es) = Ok wb /\
    c_te ct = cw_value wt 0 /\ c_le ct = cw_value wt (cw_last wt) /\
    camber_points (tops wt) (bottoms wb) middle 500 radius (c_le ct) (c_te ct) = Ok (c_camber ct) /\ fit (c_camber ct) = Ok c /\
    equidistant w 1000 (c_airfoil ct) /\ n <> 1%nat /\ equidistant wt n (c_top ct) /\ equidistant wb n (c_bottom ct).
Proof.
  intros n radius lat w c ct H. unfold SliceModel.cut_at in H.
  apply bind_ok in H as (fs & E1 & H). destruct (final (lateral_faces F fs)) as [f|] eqn:E2; [|discriminate].
  apply bind_ok in H as (es & E3 & H). apply bind_ok in H as (w' & E4 & H). rewrite (proj1 (split_parity E es 0) eq_refl) in H.
  apply bind_ok in H as (wt & E5 & H). apply bind_ok in H as (wb & E6 & H). apply bind_ok in H as (cam & E7 & H).
  apply bind_ok in H as (c' & E8 & H). apply bind_ok in H as (air & E9 & H). apply bind_ok in H as (top & E10 & H). apply bind_ok in H as (bot & E11 & H).
  injection H as <- <- <- <-. exists fs, f, es, wt, wb. cbn [c_te c_le c_camber c_airfoil c_top c_bottom].
  split; [exact E1|]. split; [reflexivity|]. split; [apply last_lateral; exact E2|]. split; [exact E3|]. split; [exact E4|]. split; [exact E5|]. split; [exact E6|].
  split; [reflexivity|]. split; [reflexivity|]. split; [exact E7|]. split; [exact E8|].
  split; [exact (closed_ok _ _ _ _ E9)|]. split; [|split; [exact (closed_ok _ _ _ _ E10)|exact (closed_ok _ _ _ _ E11)]].
  intros ->. discriminate E10.
Qed.

Lemma rounds_inv : forall n radii v v' ss, rounds n radii v = Ok (v', ss) ->
  exists ls, Forall2 (fun radius l => cut_at n radius = Ok l) radii ls /\ mapM (section_bladex cubic slice n) radii = Ok ss /\
    v_faces F C v' = v_faces F C v ++ concat (map (fun l => fst (fst (fst l))) ls) /\
    v_wires F C v' = v_wires F C v ++ map (fun l => snd (fst (fst l))) ls /\
    v_cambers F C v' = v_cambers F C v ++ map (fun l => snd (fst l)) ls.
Proof.
  intros n radii. induction radii as [|radius radii IH]; intros v v' ss H; cbn [SliceModel.rounds] in H.
  - injection H as <- <-. exists []. split; [constructor|]. split; [reflexivity|]. cbn. rewrite !app_nil_r. auto.
  - apply bind_ok in H as ([[[lat w] c] ct] & E1 & H). apply bind_ok in H as (s & E2 & H). apply bind_ok in H as ([v1 ss1] & E3 & H).
    injection H as <- <-. apply IH in E3 as (ls & A & B & X & Y & Z). cbn [v_faces v_wires v_cambers] in X, Y, Z.
    exists ((lat, w, c, ct) :: ls). split; [constructor; assumption|]. cbn [mapM]. rewrite E2. cbn [bind fst snd]. rewrite B. split; [reflexivity|].
    cbn [map concat fst snd]. rewrite X, Y, Z, <- !app_assoc. auto.
Qed.
Lemma rounds_ok : forall n radii v, (forall radius, In radius radii -> exists l s, cut_at n radius = Ok l /\ section_bladex cubic slice n radius = Ok s) ->
  exists r, rounds n radii v = Ok r.
Proof.
  intros n radii. induction radii as [|radius radii IH]; intros v H; cbn [SliceModel.rounds]; [eauto|].
  destruct (H radius (or_introl eq_refl)) as ([[[lat w] c] ct] & s & -> & E2). cbn [bind]. rewrite E2. cbn [bind].
  destruct (IH (mkViews F C (v_faces F C v ++ lat) (v_wires F C v ++ [w]) (v_cambers F C v ++ [c]))) as (r & ->); [intros; apply H; right; assumption|].
  cbn [bind]. eauto.
Qed.

Lemma forall2_nth : forall {A B} (P : A -> B -> Prop) l m i a, Forall2 P l m -> nth_error l i = Some a -> exists b, nth_error m i = Some b /\ P a b.
Proof. intros A B P l m i a H. revert i. induction H; intros [|i] Ei; cbn in *; try discriminate; eauto. injection Ei as <-. eauto. Qed.
Lemma forall2_length : forall {A B} (P : A -> B -> Prop) l m, Forall2 P l m -> List.length l = List.length m.
Proof. intros A B P l m H. induction H; cbn; congruence. Qed.

(** ** The object is the one of ReverseModel.v *)
Lemma bladex_cut : forall radii n v r, new_bladex radii n = Ok (v, r) ->
  reverse_bladex cubic slice radii n = Ok r /\
  List.length (v_wires F C v) = List.length radii /\ List.length (v_cambers F C v) = List.length radii /\
  forall j radius, nth_error radii j = Some radius -> exists lat w c ct, cut_at n radius = Ok (lat, w, c, ct) /\ slice radius n = Ok ct /\
    nth_error (v_wires F C v) j = Some w /\ nth_error (v_cambers F C v) j = Some c.
Proof.
  intros radii n v r H. unfold SliceModel.new_bladex in H. apply bind_ok in H as ([v' ss] & E1 & H). injection H as <- <-.
  apply rounds_inv in E1 as (ls & A & B & X & Y & Z). cbn [fst snd v_faces v_wires v_cambers app] in *.
  split; [unfold reverse_bladex; rewrite B; reflexivity|]. rewrite Y, Z, !map_length. pose proof (forall2_length _ _ _ A) as L.
  split; [auto|]. split; [auto|]. intros j radius Ej. destruct (forall2_nth _ _ _ _ _ A Ej) as ([[[lat w] c] ct] & Ln & Q).
  exists lat, w, c, ct. split; [exact Q|]. split; [unfold SliceModel.slice; rewrite Q; reflexivity|]. rewrite !nth_error_map, Ln. auto.
Qed.

Theorem bladex_section : forall radii n v r, new_bladex radii n = Ok (v, r) ->
  forall j radius, nth_error radii j = Some radius -> exists s fs f es w wt wb cam c T air top bottom,
    nth_error (pitch_list r) j = Some (s_pitch s) /\ nth_error (chord_length_list r) j = Some (s_chord s) /\
    nth_error (r_xup r) j = Some (linspace 0 1 n) /\ nth_error (r_yup r) j = Some (s_yup s) /\ nth_error (r_ydown r) j = Some (s_ydown s) /\
    cylinder radius = Ok fs /\ last_radial fs f /\ cut_edges f = Ok es /\
    make_wire es = Ok w /\ make_wire (odds es) = Ok wt /\ make_wire (evens es) = Ok wb /\
    nth_error (v_wires F C v) j = Some w /\ nth_error (v_cambers F C v) j = Some c /\ fit cam = Ok c /\
    let le := unroll radius (cw_value wt (cw_last wt)) in let te := unroll radius (cw_value wt 0) in
    camber_points (tops wt) (bottoms wb) middle 500 radius (cw_value wt (cw_last wt)) (cw_value wt 0) = Ok cam /\
    0 < pdist le te /\ mirror_similarity (/ pdist le te) T /\ T le = (0, 0) /\ T te = (1, 0) /\ s_chord s = pdist le te / 1000 /\
    equidistant w 1000 air /\ equidistant wt n top /\ equidistant wb n bottom /\
    s_airfoil s = map (fun p => T (unroll_positive radius p)) air /\
    exists top' bottom', upside (map (fun p => T (unroll radius p)) top) (map (fun p => T (unroll radius p)) bottom) top' bottom' /\
      surface_from cubic n top' (s_top s) (s_yup s) /\ surface_from cubic n bottom' (s_bottom s) (s_ydown s).
Proof.
  intros radii n v r H j radius Ej. apply bladex_cut in H as (RB & _ & _ & K). destruct (K j radius Ej) as (lat & w & c & ct & Q & SL & W & CC).
  apply cut_inv in Q as (fs & f & es & wt & wb & E1 & _ & E2 & E3 & E4 & E5 & E6 & TE & LE & CP & FI & AI & _ & TP & BT).
  apply bladex_lists in RB as (_ & RB & _). destruct (RB j radius Ej) as (s & SB & P1 & _ & _ & _ & _ & P2 & P3 & _ & P4 & P5).
  pose proof SB as SB'. apply section_bladex_inv in SB' as (_ & _ & _ & HN & _).
  assert (L1 : (2 <= List.length (c_top ct))%nat) by (rewrite (proj1 TP); lia).
  assert (L2 : (2 <= List.length (c_bottom ct))%nat) by (rewrite (proj1 BT); lia).
  pose proof (bladex_profile _ _ _ _ _ SB) as PR. destruct PR as (EX & _); [intros c0 Q0; rewrite SL in Q0; injection Q0 as <-; auto|].
  apply bladex_plane in SB as (ct' & T & SL' & PL). rewrite SL in SL'. injection SL' as <-. cbv zeta in PL.
  destruct PL as (D & MS & T0 & T1 & _ & _ & _ & CH & AF & _ & SF). destruct (SF L1 L2) as (t' & b' & U & S1 & S2).
  rewrite EX in P3. rewrite LE in D, MS, T0, CH, CP. rewrite TE in D, MS, T1, CH, CP.
  exists s, fs, f, es, w, wt, wb, (c_camber ct), c, T, (c_airfoil ct), (c_top ct), (c_bottom ct).
  do 15 (split; [assumption|]). do 9 (split; [assumption|]). exists t', b'. auto.
Qed.

(** The wire starts and ends at the edges. *)
Theorem bladex_ends : forall n radius ct, (2 <= n)%nat -> slice radius n = Ok ct ->
  (forall es wt, make_wire es = Ok wt -> measured wt /\ cw_first wt = 0) ->
  nth_error (c_top ct) 0 = Some (c_te ct) /\ nth_error (c_top ct) (n - 1) = Some (c_le ct).
Proof.
  intros n radius ct N H M. unfold SliceModel.slice in H. apply bind_ok in H as ([[[lat w] c] ct'] & Q & H). injection H as <-. cbn [snd].
  apply cut_inv in Q as (fs & f & es & wt & wb & E1 & _ & E2 & E3 & E4 & E5 & E6 & TE & LE & CP & FI & AI & _ & (_ & TP) & BT).
  destruct (M _ _ E5) as ((M1 & M2) & M3). rewrite !TP, TE, LE by lia. split; f_equal.
  - cbn [INR]. rewrite Rmult_0_l, M1, M3. reflexivity.
  - rewrite <- M2. f_equal. field. apply not_0_INR. lia.
Qed.

(** ** Failures and success *)
Theorem bladex_fails : forall radius radii n fs, cylinder radius = Ok fs ->
  (Forall (fun g => fst (fst (snd g)) <> 0) fs -> new_bladex (radius :: radii) n = Err TypeError) /\
  (forall f e w x, last_radial fs f -> cut_edges f = Ok [e] -> make_wire [e] = Ok w -> make_wire [] = Err x -> new_bladex (radius :: radii) n = Err x) /\
  (forall f es w wt wb cam c, last_radial fs f -> cut_edges f = Ok es -> make_wire es = Ok w -> make_wire (odds es) = Ok wt -> make_wire (evens es) = Ok wb ->
     camber_points (tops wt) (bottoms wb) middle 500 radius (cw_value wt (cw_last wt)) (cw_value wt 0) = Ok cam -> fit cam = Ok c ->
     new_bladex (radius :: radii) 1 = Err OtherException).
Proof.
  intros radius radii n fs E1. unfold SliceModel.new_bladex. cbn [SliceModel.rounds]. unfold SliceModel.cut_at. rewrite E1. cbn [bind]. split; [|split].
  - intros H. rewrite (lateral_none _ _ H). reflexivity.
  - intros f e w x LR E2 E3 E4. rewrite (proj2 (last_lateral F fs f) LR), E2. cbn [bind]. rewrite E3. cbn [bind split_edges Nat.eqb Nat.modulo].
    cbn. rewrite E3. cbn [bind]. rewrite E4. reflexivity.
  - intros f es w wt wb cam c LR E2 E3 E4 E5 E6 E7. rewrite (proj2 (last_lateral F fs f) LR), E2. cbn [bind]. rewrite E3.
    rewrite (proj1 (split_parity E es 0) eq_refl). cbn [bind]. rewrite E4. cbn [bind]. rewrite E5. cbn [bind].
    change n_camber_points with 500%nat. rewrite E6. cbn [bind]. rewrite E7. cbn [bind].
    destruct (closed_total 1000 (cw_length w) (cw_along w)) as (air & A1); [apply Nat.leb_le; reflexivity|].
    change airfoil_points_number with 1000%nat. rewrite A1. reflexivity.
Qed.

Theorem bladex_total : forall radii n, total_interpolant cubic -> (2 <= n <= 500)%nat ->
  (forall radius, In radius radii -> radius <> 0 /\ exists fs f es w wt wb cam c, cylinder radius = Ok fs /\ last_radial fs f /\ cut_edges f = Ok es /\
     make_wire es = Ok w /\ make_wire (odds es) = Ok wt /\ make_wire (evens es) = Ok wb /\
     camber_points (tops wt) (bottoms wb) middle 500 radius (cw_value wt (cw_last wt)) (cw_value wt 0) = Ok cam /\ cam <> [] /\ fit cam = Ok c /\
     snd (unroll radius (cw_value wt (cw_last wt))) <> snd (unroll radius (cw_value wt 0))) ->
  exists v r, new_bladex radii n = Ok (v, r).
Proof.
  intros radii n TI N H. unfold SliceModel.new_bladex.
  destruct (rounds_ok n radii (mkViews F C [] [] [])) as ([v ss] & ->); [|cbn [bind]; eauto].
  intros radius I. destruct (H radius I) as (R0 & fs & f & es & w & wt & wb & cam & c & E1 & LR & E2 & E3 & E4 & E5 & E6 & NC & E7 & NE).
  destruct (closed_total 1000 (cw_length w) (cw_along w)) as (air & A1); [apply Nat.leb_le; reflexivity|].
  destruct (closed_total n (cw_length wt) (cw_along wt)) as (top & A2); [lia|].
  destruct (closed_total n (cw_length wb) (cw_along wb)) as (bot & A3); [lia|].
  set (ct := mkCut (cw_value wt (cw_last wt)) (cw_value wt 0) cam air top bot).
  assert (Q : cut_at n radius = Ok (lateral_faces F fs, w, c, ct)).
  { unfold SliceModel.cut_at. rewrite E1. cbn [bind]. rewrite (proj2 (last_lateral F fs f) LR), E2. cbn [bind]. rewrite E3.
    rewrite (proj1 (split_parity E es 0) eq_refl). cbn [bind]. rewrite E4. cbn [bind]. rewrite E5. cbn [bind].
    change n_camber_points with 500%nat. rewrite E6. cbn [bind]. rewrite E7. cbn [bind]. change airfoil_points_number with 1000%nat. rewrite A1. cbn [bind]. rewrite A2. cbn [bind]. rewrite A3. reflexivity. }
  assert (SL : slice radius n = Ok ct) by (unfold SliceModel.slice; rewrite Q; reflexivity).
  destruct (bladex_succeeds cubic slice n radius ct TI N SL R0) as (s & S).
  - exact NE.
  - exact NC.
  - change (c_top ct) with top. rewrite (proj1 (closed_ok _ _ _ _ A2)). lia.
  - change (c_bottom ct) with bot. rewrite (proj1 (closed_ok _ _ _ _ A3)). lia.
  - eauto.
Qed.

(** ** Display *)
Theorem views_in_step : forall radii n v r, new_bladex radii n = Ok (v, r) ->
  (forall radius fs, In radius radii -> cylinder radius = Ok fs -> exists f, only_radial fs f) ->
  List.length (v_faces F C v) = List.length radii /\
  forall j radius, nth_error radii j = Some radius -> exists fs f, cylinder radius = Ok fs /\ last_radial fs f /\ nth_error (v_faces F C v) j = Some f.
Proof.
  intros radii n v r H ON. unfold SliceModel.new_bladex in H. apply bind_ok in H as ([v' ss] & E1 & H). injection H as <- <-.
  apply rounds_inv in E1 as (ls & A & _ & X & _). cbn [fst snd v_faces app] in *. rewrite X. clear X ss v'.
  induction A as [|radius [[[lat w] c] ct] radii ls Q A IH]; [split; [reflexivity|intros [|j] ? Ej; discriminate]|].
  apply cut_inv in Q as (fs & f & es & wt & wb & E1 & EL & E2 & _).
  destruct (ON radius fs (or_introl eq_refl) E1) as (g & OR). rewrite (only_lateral _ _ _ OR) in EL. subst lat.
  assert (g = f).
  { apply last_lateral in E2. rewrite (only_lateral _ _ _ OR) in E2. injection E2. auto. } subst g.
  destruct IH as [L K]; [intros; eapply ON; [right; eassumption|assumption]|].
  cbn [map concat fst app List.length]. split; [congruence|]. intros [|j] rad Ej; cbn [nth_error] in *.
  - injection Ej as <-. exists fs, f. auto.
  - apply K. exact Ej.
Qed.
Theorem displayed : forall radii n v r, new_bladex radii n = Ok (v, r) ->
  (forall radius fs, In radius radii -> cylinder radius = Ok fs -> exists f, only_radial fs f) ->
  forall radius window,
  (~ In radius radii -> forall k, display_cylinder F C window v k radii radius = ([], Err ValueError) /\ display_section F C window v k radii radius = ([], Err ValueError)) /\
  (In radius radii -> exists fs f w c, cylinder radius = Ok fs /\ last_radial fs f /\ (exists es, cut_edges f = Ok es /\ make_wire es = Ok w) /\
     (forall e, window = Err e -> display_cylinder F C window v NdArray radii radius = ([], Err e) /\ display_section F C window v NdArray radii radius = ([], Err e)) /\
     (window = Ok tt -> display_cylinder F C window v NdArray radii radius = ([Blade F C; Surface F C f; Wire F C w], Ok tt) /\
        display_section F C window v NdArray radii radius = ([Surface F C f; Wire F C w; Green F C c], Ok tt))).
Proof.
  intros radii n v r H ON radius window.
  destruct (display_array radii radius) as [DA DN]. destruct (display_list radii radius) as [_ DL]. split.
  - intros NI k. unfold display_cylinder, display_section. destruct k.
    + rewrite (proj2 DL NI). auto.
    + rewrite (proj2 DN NI). auto.
  - intros I. destruct (display_index NdArray radii radius) as [i|e] eqn:D.
    2:{ exfalso. unfold display_index in D. destruct (index_of radius radii) eqn:X; [discriminate|]. injection D as <-. apply (proj1 DN eq_refl). exact I. }
    destruct (proj1 (DA i) eq_refl) as [Ei _].
    destruct (views_in_step _ _ _ _ H ON) as [_ V]. destruct (V _ _ Ei) as (fs & f & E1 & LR & Vf).
    destruct (bladex_cut _ _ _ _ H) as (_ & _ & _ & K). destruct (K _ _ Ei) as (lat & w & c & ct & Q & _ & Vw & Vc).
    apply cut_inv in Q as (fs' & f' & es & wt & wb & E1' & _ & E2 & E3 & E4 & _).
    rewrite E1 in E1'. injection E1' as <-.
    assert (f' = f) by (apply last_lateral in E2, LR; congruence). subst f'.
    exists fs, f, w, c. split; [exact E1|]. split; [exact LR|]. split; [eauto|]. split.
    + intros e ->. unfold display_cylinder, display_section. rewrite D. auto.
    + intros ->. unfold display_cylinder, display_section. rewrite D. cbn [bind]. unfold item. rewrite Vf, Vw, Vc. auto.
Qed.
End Slice.
