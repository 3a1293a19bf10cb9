From Coq Require Import Reals List Bool Lia Lra Permutation String.
From Coq Require Import List.
From Verif Require Import Base ProfileModel ProfileSpec ProfileProofs ProfileProofs2 ProfileProofs3 CustomModel.
From Verif Require CustomSpec CustomProofs CustomProofs4.
From Verif Require Import BladeModel BladeSpec BladeProofs BladeProofs2 BladeProofs3
  BladeProofs4 BladeProofs5 BladeProofs6 PathModel PathSpec PathProofs ReverseModel ReverseSpec ReverseProofs ReverseProofs2 ReverseProofs3 ReverseProofs4 ReverseProofs5 ReverseProofs6 ReverseProofs7
  ReconstructModel ReconstructProofs.
Import ListNotations.
Open Scope R_scope.

(** The points of the profile in the arrays of the object. *)
Lemma profile_recovered : forall refl st b st' b' up down, consistent b -> NoDup (sections b) ->
  Forall (fun r => r <> 0) (radii b) -> thickness b = None -> camber b = None ->
  (forall s, In s (sections b) -> uniform (st s)) ->
  apply_transformations refl st b = (st', b', Ok tt) -> coordinates b' = Built up down ->
  forall i s r c P k sk le te L, station b i s r c P k sk ->
    first (upper (st s)) = Ok le -> first (lower (st s)) = Ok le ->
    final (upper (st s)) = Ok te -> final (lower (st s)) = Ok te -> psub te le = (L, 0) -> 0 < L -> c <> 0 -> 0 < r ->
    (forall a, In a (upper (st s)) \/ In a (lower (st s)) ->
       r * Rabs (sk * (PI / 180)) + Rabs c * pdist a (pscale (1 / 2) (padd le te)) < PI * r) ->
    (forall a, In a (upper (st s)) -> snd le <= snd a) -> (exists a, In a (upper (st s)) /\ snd le < snd a) ->
  forall rowu rowd, nth_error up (List.length (sections b) - 1 - i) = Some rowu ->
    nth_error down (List.length (sections b) - 1 - i) = Some rowd ->
  forall cubic slice rl n v j, true_slice slice n r rowu rowd -> reverse_bladex cubic slice rl n = Ok v -> nth_error rl j = Some (1000 * r) ->
  exists t yu yd, section_bladex cubic slice n (1000 * r) = Ok t /\
  surface_from cubic n (map (in_chord le L) (upper (st s))) (s_top t) yu /\
  surface_from cubic n (map (in_chord le L) (lower (st s))) (s_bottom t) yd /\
  nth_error (r_xup v) j = Some (linspace 0 1 n) /\ nth_error (r_xdown v) j = Some (linspace 0 1 n) /\
  nth_error (r_yup v) j = Some yu /\ nth_error (r_ydown v) j = Some yd /\
  (interpolates cubic ->
   (ordered (fun a b : pt => fst a < fst b) (upper (st s)) -> map (fun a => fst (in_chord le L a)) (upper (st s)) = linspace 0 1 n ->
    yu = map (fun a => snd (in_chord le L a)) (upper (st s))) /\
   (ordered (fun a b : pt => fst a < fst b) (lower (st s)) -> map (fun a => fst (in_chord le L a)) (lower (st s)) = linspace 0 1 n ->
    yd = map (fun a => snd (in_chord le L a)) (lower (st s)))).
Proof.
  intros refl st b st' b' up down C ND F T K U H HB i s r c P k sk le te L S A1 A2 A3 A4 HD HL Hc Hr HR HU HP
    rowu rowd Eu Ed cubic slice rl n v j HT HV HJ.
  destruct HT as (ct & a & z & HS & Ea & Ez & T1 & T2 & T3 & T4).
  destruct (reverse_bladex_row _ _ _ _ _ _ _ HV HJ) as (t & Et & _ & _ & _ & _ & _ & _ & X1 & X2 & X3 & X4).
  destruct (section_recovered refl st b st' b' up down C ND F T K U H HB i s r c P k sk le te L S A1 A2 A3 A4 HD HL Hc Hr HR HU HP
    rowu rowd a z Eu Ed Ea Ez cubic slice n ct t Et HS T1 T2 T3 T4) as (R1 & R2 & R3).
  exists t, (s_yup t), (s_ydown t). rewrite <- R3. split; [exact Et|]. split; [apply resampled_surface; exact R1|]. split; [apply resampled_surface; exact R2|].
  rewrite X1, X2, X3, X4. do 4 (split; [reflexivity|]). intros HI. rewrite R3. split; intros O M.
  - exact (rows_kept _ _ _ _ _ _ _ _ HI HL HD A1 A3 O M R1).
  - exact (rows_kept _ _ _ _ _ _ _ _ HI HL HD A2 A4 O M R2).
Qed.

Lemma half_turn_is : forall p, half_turn p = turn "x" PI p.
Proof. intros [[x y] z]. unfold half_turn, turn. cbn [String.eqb Ascii.eqb Bool.eqb]. rewrite cos_PI, sin_PI. apply f_equal2; [apply f_equal2|]; ring. Qed.
Lemma parameters_turned_x : forall refl st b st' b' up down, consistent b -> NoDup (sections b) ->
  Forall (fun r => r <> 0) (radii b) -> thickness b = None -> camber b = None ->
  (forall s, In s (sections b) -> uniform (st s)) ->
  apply_transformations refl st b = (st', b', Ok tt) -> coordinates b' = Built up down ->
  forall i s r c P k sk le te L, station b i s r c P k sk ->
    first (upper (st s)) = Ok le -> first (lower (st s)) = Ok le ->
    final (upper (st s)) = Ok te -> final (lower (st s)) = Ok te -> psub te le = (L, 0) ->
    0 < r -> r * Rabs (sk * (PI / 180)) + Rabs (c * L) / 2 < PI * r ->
  forall row a z, nth_error up (List.length (sections b) - 1 - i) = Some row -> first row = Ok a -> final row = Ok z ->
  forall cubic sample around voronoi cl rl n v j, reverse_voronoi cubic sample around voronoi cl rl n = Ok v ->
    nth_error rl j = Some (1000 * r) ->
    (forall spline x y full, cl (1000 * r) spline = Ok (x, y, full) ->
      (x = scale3 1000 (turn "x" PI a) /\ y = scale3 1000 (turn "x" PI z)) \/
      (x = scale3 1000 (turn "x" PI z) /\ y = scale3 1000 (turn "x" PI a))) ->
  nth_error (pitch_list v) j = Some (Rabs P) /\ nth_error (skew_angles_list v) j = Some (- sk) /\
  nth_error (rake_list v) j = Some k /\ nth_error (chord_length_list v) j = Some (Rabs (c * L)) /\
  nth_error (skew_list v) j = Some (- (r * (sk * (PI / 180)))).
Proof.
  intros refl st b st' b' up down C ND F T K U H HB i s r c P k sk le te L S A1 A2 A3 A4 HD Hr HR row a z E1 E2 E3 cubic sample around voronoi cl rl n v j HV HJ HE.
  apply (parameters_turned refl st b st' b' up down C ND F T K U H HB i s r c P k sk le te L S A1 A2 A3 A4 HD Hr HR row a z E1 E2 E3 cubic sample around voronoi cl rl n v j HV HJ).
  rewrite !half_turn_is. exact HE.
Qed.
Lemma turned_read_x : exists st' b' up down row a z cubic sample around voronoi cl v,
  apply_transformations false foil_store plain_blade = (st', b', Ok tt) /\ coordinates b' = Built up down /\
  nth_error up 0 = Some row /\ first row = Ok a /\ final row = Ok z /\
  reverse_voronoi cubic sample around voronoi cl [1000 * 1] 3 = Ok v /\
  (forall spline x y full, cl (1000 * 1) spline = Ok (x, y, full) -> x = scale3 1000 (turn "x" PI a) /\ y = scale3 1000 (turn "x" PI z)).
Proof.
  destruct turned_read as (st' & b' & up & down & row & a & z & cubic & sample & around & voronoi & cl & v & H).
  exists st', b', up, down, row, a, z, cubic, sample, around, voronoi, cl, v. rewrite <- !half_turn_is. exact H.
Qed.

(** ** The example of the round trip *)
Lemma linspace3 : linspace 0 1 3 = [0; 1 / 2; 1].
Proof. unfold linspace. cbn [seq map Nat.sub]. change (INR 2) with 2. repeat (apply f_equal2; [cbn [INR]; field|]). reflexivity. Qed.
Lemma foil3_unit : unit_foil 3 foil3 /\ CustomSpec.consistent foil3.
Proof.
  unfold unit_foil. rewrite linspace3. split.
  - do 8 (split; [reflexivity|]). split; [repeat constructor; lra|]. right. left. lra.
  - unfold CustomSpec.consistent, CustomSpec.near. cbn [foil3 xup xdown yup ydown hd last List.length]. split; [|split; [|split; [|split]]].
    + intros i u d L1 L2 E1 E2. assert (i = 1)%nat as -> by lia. cbn in E1, E2. injection E1 as <-. injection E2 as <-. lra.
    + rewrite Rminus_diag_eq, Rabs_R0 by reflexivity. rewrite ?Rabs_R0. lra.
    + rewrite Rminus_diag_eq, Rabs_R0 by reflexivity. rewrite ?Rabs_R1. lra.
    + rewrite Rminus_diag_eq, Rabs_R0 by reflexivity. rewrite ?Rabs_R0. lra.
    + rewrite Rminus_diag_eq, Rabs_R0 by reflexivity. rewrite ?Rabs_R0. lra.
Qed.
Lemma two_stations : forall i s r c P k sk, station two_blade i s r c P k sk ->
  (i = 0%nat /\ s = 0%nat /\ r = 1 /\ c = 1 / 2 /\ P = 3 /\ k = 1 / 10 /\ sk = 5) \/
  (i = 1%nat /\ s = 1%nat /\ r = 2 /\ c = 1 / 4 /\ P = 4 /\ k = 1 / 5 /\ sk = 10).
Proof.
  intros i s r c P k sk [S1 S2 S3 S4 S5 S6]. cbn [two_blade sections radii chords pitch rake skew] in *.
  destruct i as [|[|i]]; cbn [nth_error] in *; [left|right|destruct i; discriminate]; repeat split; congruence.
Qed.
Lemma mid_dist : forall a, In a (upper foil3) \/ In a (lower foil3) -> pdist a (1 / 2, 0) <= 1.
Proof.
  intros a H. unfold pdist, pnorm, psub. apply Rle_trans with (sqrt 1); [|rewrite sqrt_1; lra]. apply sqrt_le_1_alt.
  cbn in H. destruct H as [[<-|[<-|[<-|[]]]]|[<-|[<-|[<-|[]]]]]; cbn [fst snd]; lra.
Qed.
Lemma round_trip_run : exists st' b' up down slice v,
  apply_transformations true foil_store two_blade = (st', b', Ok tt) /\ coordinates b' = Built up down /\
  (forall i s r c P k sk rowu rowd, station two_blade i s r c P k sk -> nth_error up (2 - 1 - i) = Some rowu ->
     nth_error down (2 - 1 - i) = Some rowd -> true_slice slice 3 r rowu rowd) /\
  reverse_bladex table slice (map (fun r => 1000 * r) (radii two_blade)) 3 = Ok v.
Proof.
  destruct two_blade_good as (C & NE & ND & F & T & K & U & S1).
  assert (S0 : station two_blade 0 0 1 (1 / 2) 3 (1 / 10) 5) by (constructor; reflexivity).
  destruct (two_blade_applied true) as (st' & b' & H).
  destruct (apply_sections _ _ _ _ _ C H) as (_ & _ & up & down & EB & _ & _ & W).
  assert (U' : forall s, In s (sections two_blade) -> uniform (foil_store s)) by (intros s I; apply (U s I)).
  destruct (station_planar true _ _ _ _ _ _ C ND F T K U' H EB _ _ _ _ _ _ _ (0, 0) (1, 0) S0 eq_refl eq_refl eq_refl eq_refl) as (V1 & V2).
  destruct (station_planar true _ _ _ _ _ _ C ND F T K U' H EB _ _ _ _ _ _ _ (0, 0) (1, 0) S1 eq_refl eq_refl eq_refl eq_refl) as (V3 & V4).
  cbn [List.length sections two_blade] in V1, V2, V3, V4.
  set (F0 := fun a : pt => seat 1 3 (1 / 10) 5 true (sized (1 / 2) (pscale (1 / 2) (padd (0, 0) (1, 0))) a)) in *.
  set (F1 := fun a : pt => seat 2 4 (1 / 5) 10 true (sized (1 / 4) (pscale (1 / 2) (padd (0, 0) (1, 0))) a)) in *.
  set (u0 := map (wrap 1) (map F0 (upper (foil_store 0%nat)))) in *. set (d0 := map (wrap 1) (map F0 (lower (foil_store 0%nat)))) in *.
  set (u1 := map (wrap 2) (map F1 (upper (foil_store 1%nat)))) in *. set (d1 := map (wrap 2) (map F1 (lower (foil_store 1%nat)))) in *.
  assert (E1 : first u0 = Ok (wrap 1 (F0 (0, 0)))) by reflexivity. assert (E2 : final u0 = Ok (wrap 1 (F0 (1, 0)))) by reflexivity.
  assert (E3 : first u1 = Ok (wrap 2 (F1 (0, 0)))) by reflexivity. assert (E4 : final u1 = Ok (wrap 2 (F1 (1, 0)))) by reflexivity.
  assert (L0 : List.length u0 = 3%nat /\ List.length d0 = 3%nat /\ List.length u1 = 3%nat /\ List.length d1 = 3%nat) by (repeat split; reflexivity).
  set (c0 := cut_of u0 d0 (wrap 1 (F0 (0, 0))) (wrap 1 (F0 (1, 0)))). set (c1 := cut_of u1 d1 (wrap 2 (F1 (0, 0))) (wrap 2 (F1 (1, 0)))).
  set (slice := fun (x : R) (_ : nat) => if Req_EM_T x (1000 * 1) then Ok c0 else Ok c1).
  assert (Q0 : slice (1000 * 1) 3%nat = Ok c0) by (unfold slice; destruct (Req_EM_T (1000 * 1) (1000 * 1)); [reflexivity|contradiction]).
  assert (Q1 : slice (1000 * 2) 3%nat = Ok c1) by (unfold slice; destruct (Req_EM_T (1000 * 2) (1000 * 1)); [exfalso; lra|reflexivity]).
  assert (HD : psub (1, 0) (0, 0) = (1, 0)) by (unfold psub; cbn [fst snd]; f_equal; ring).
  pose proof PI_RGT_0 as PP. pose proof PI2_1 as P1.
  destruct (reading_succeeds true _ _ _ _ _ _ C ND F T K U' H EB _ _ _ _ _ _ _ (0, 0) (1, 0) 1 S0 eq_refl eq_refl eq_refl eq_refl HD ltac:(lra) ltac:(lra)) with
    (rowu := u0) (rowd := d0) (a := wrap 1 (F0 (0, 0))) (z := wrap 1 (F0 (1, 0))) (cubic := table) (n := 3%nat)
    (slice := slice) (ct := c0) as (t0 & ET0); auto using table_total.
  { rewrite (Rabs_right (1 / 2 * 1)) by lra. rewrite (Rabs_right (5 * (PI / 180))) by lra. lra. }
  { lia. } { unfold c0, cut_of, c_camber. destruct u0; discriminate. }
  { unfold c0, cut_of, c_top. rewrite map_length. lia. } { unfold c0, cut_of, c_bottom. rewrite map_length. lia. }
  destruct (reading_succeeds true _ _ _ _ _ _ C ND F T K U' H EB _ _ _ _ _ _ _ (0, 0) (1, 0) 1 S1 eq_refl eq_refl eq_refl eq_refl HD ltac:(lra) ltac:(lra)) with
    (rowu := u1) (rowd := d1) (a := wrap 2 (F1 (0, 0))) (z := wrap 2 (F1 (1, 0))) (cubic := table) (n := 3%nat)
    (slice := slice) (ct := c1) as (t1 & ET1); auto using table_total.
  { rewrite (Rabs_right (1 / 4 * 1)) by lra. rewrite (Rabs_right (10 * (PI / 180))) by lra. lra. }
  { lia. } { unfold c1, cut_of, c_camber. destruct u1; discriminate. }
  { unfold c1, cut_of, c_top. rewrite map_length. lia. } { unfold c1, cut_of, c_bottom. rewrite map_length. lia. }
  exists st', b', up, down, slice. eexists. split; [exact H|]. split; [exact EB|]. split.
  - intros i s r c P k sk rowu rowd S Eu Ed. unfold true_slice. apply two_stations in S as [(-> & -> & -> & _)|(-> & -> & -> & _)].
    + rewrite V1 in Eu. rewrite V2 in Ed. assert (rowu = u0) as -> by congruence. assert (rowd = d0) as -> by congruence.
      exists c0, (wrap 1 (F0 (0, 0))), (wrap 1 (F0 (1, 0))). rewrite Q0, E1, E2. repeat split.
    + rewrite V3 in Eu. rewrite V4 in Ed. assert (rowu = u1) as -> by congruence. assert (rowd = d1) as -> by congruence.
      exists c1, (wrap 2 (F1 (0, 0))), (wrap 2 (F1 (1, 0))). rewrite Q1, E3, E4. repeat split.
  - unfold reverse_bladex. cbn [mapM map radii two_blade]. rewrite ET0. cbn [bind]. rewrite ET1. reflexivity.
Qed.
Lemma round_trip_example : forall american, exists st' b' up down slice v o l o' st2 b2,
  apply_transformations true foil_store two_blade = (st', b', Ok tt) /\ coordinates b' = Built up down /\
  reverse_bladex table slice (map (fun r => 1000 * r) (radii two_blade)) 3 = Ok v /\
  values o = v /\ num_sections o = Some 2%nat /\ recons_sections o = Some l /\ List.length l = 2%nat /\ recons_blade o = None /\
  reconstruct_blade american o = (o', Err AttributeError) /\ recons_blade o' = Some (st2, b2) /\ coordinates b2 = Built up down.
Proof.
  intros american. destruct two_blade_good as (C & NE & ND & F & T & K & U & _).
  destruct round_trip_run as (st' & b' & up & down & slice & v & H & EB & HS & HV).
  set (o := mkRObject v (Some 2%nat) (Some [None; None]) None).
  destruct (reconstruction american foil_store two_blade st' b' up down 3 table slice v o [None; None]) as (o' & st2 & b2 & R1 & R2 & R3 & _);
    auto using table_interpolates; try reflexivity.
  - repeat constructor; lra.
  - repeat constructor; lra.
  - repeat constructor; lra.
  - intros s _. apply foil3_unit.
  - intros i s r c P k sk S a I. assert (I' : pdist a (1 / 2, 0) <= 1) by (apply mid_dist; exact I). pose proof PI_RGT_0. pose proof PI2_1.
    apply two_stations in S as [(_ & _ & -> & -> & _ & _ & ->)|(_ & _ & -> & -> & _ & _ & ->)].
    + rewrite (Rabs_right (5 * (PI / 180))) by lra. lra.
    + rewrite (Rabs_right (10 * (PI / 180))) by lra. lra.
  - exists st', b', up, down, slice, v, o, [None; None], o', st2, b2. repeat split; assumption || reflexivity.
Qed.
(** ** Index of a radius *)
Lemma display_array : forall rl radius, (forall i, display_index NdArray rl radius = Ok i <->
    nth_error rl i = Some radius /\ forall j, (j < i)%nat -> nth_error rl j <> Some radius) /\
  (display_index NdArray rl radius = Err ValueError <-> ~ In radius rl).
Proof.
  intros rl radius. unfold display_index. destruct (index_of radius rl) as [i|] eqn:E.
  - destruct (index_spec _ _ _ E) as (A & B). split.
    + intros j. split; [intros [= <-]; auto|]. intros (A' & B'). f_equal. destruct (lt_eq_lt_dec i j) as [[L|L]|L]; [|exact L|].
      * exfalso. exact (B' i L A).
      * exfalso. exact (B j L A').
    + split; [discriminate|]. intros N. exfalso. apply N. eapply nth_error_In. exact A.
  - apply index_none in E. split.
    + intros i. split; [discriminate|]. intros (A & _). exfalso. apply E. eapply nth_error_In. exact A.
    + tauto.
Qed.
Lemma display_list : forall rl radius, (forall i, display_index PyList rl radius <> Ok i) /\
  (display_index PyList rl radius = Err ValueError <-> ~ In radius rl).
Proof.
  intros rl radius. unfold display_index. destruct (index_of radius rl) as [i|] eqn:E.
  - split; [discriminate|]. split; [discriminate|]. intros N. exfalso. apply N. eapply nth_error_In. apply (index_spec _ _ _ E).
  - apply index_none in E. split; [discriminate|tauto].
Qed.
(** ** Candidates for the camber line *)
Lemma keep_total : forall poly l, poly <> [] -> exists r, keep_inside poly l = Ok r.
Proof.
  intros [|p0 poly] l N; [contradiction|]. induction l as [|p l (r & IH)]; [eexists; reflexivity|]. cbn [keep_inside]. unfold point_inside_polygon. cbn [bind].
  rewrite IH. cbn [bind]. eauto.
Qed.
Lemma keep_none : forall l r, keep_inside [] l = Ok r -> l = [].
Proof. intros [|p l] r H; [reflexivity|discriminate H]. Qed.
Lemma candidates_selected : forall voronoi radius pts, 
  let poly := map (unroll_positive radius) pts in
  (forall cand, camber_candidates voronoi radius pts = Ok cand ->
   exists vs, voronoi poly = Ok vs /\
     selected_by_x (fun p => point_inside_polygon (fst p) (snd p) poly true = Ok true) vs cand) /\
  (forall vs, pts <> [] -> voronoi poly = Ok vs -> exists cand, camber_candidates voronoi radius pts = Ok cand).
Proof.
  intros voronoi radius pts poly. unfold camber_candidates. fold poly. split.
  - intros cand H. apply bind_ok in H as (vs & EV & H). apply bind_ok in H as (ins & EI & H). injection H as <-.
    exists vs. split; [exact EV|]. exists ins. split; [intros p; apply keep_inside_spec; exact EI|]. split; [apply sort_x_perm|]. split; [apply sort_x_ordered|].
    intros x. apply sort_x_stable.
  - intros vs N EV. rewrite EV. cbn [bind]. destruct (keep_total poly vs) as (ins & ->); [unfold poly; destruct pts; [contradiction|discriminate]|]. cbn [bind]. eauto.
Qed.
(** Three vertices, one of them outside, in the triangle of three points. *)
Lemma candidates_example : exists pts cand,
  map (unroll_positive 1) pts = [(0, 0); (4, 0); (0, 2)] /\
  camber_candidates (fun _ => Ok [(2, 1 / 2); (9, 1); (1, 1)]) 1 pts = Ok cand /\ cand = [(1, 1); (2, 1 / 2)].
Proof.
  exists [(0, sin 0, cos 0); (4, sin 0, cos 0); (0, sin 2, cos 2)]. eexists.
  assert (E : map (unroll_positive 1) [(0, sin 0, cos 0); (4, sin 0, cos 0); (0, sin 2, cos 2)] = [(0, 0); (4, 0); (0, 2)]).
  { pose proof PI2_1. cbn [map]. unfold unroll_positive.
    assert (A : forall t, - PI < t <= PI -> arctan2 (sin t) (cos t) = t).
    { intros t I. pose proof (arctan2_polar 1 t ltac:(lra) I) as A. rewrite !Rmult_1_l in A. exact A. }
    rewrite !A by lra. destruct (Rlt_dec 0 0); [lra|]. destruct (Rlt_dec 2 0); [lra|]. rewrite !Rmult_1_l, !Rmult_0_r || rewrite !Rmult_1_l. reflexivity. }
  split; [exact E|]. split; [|reflexivity]. unfold camber_candidates. rewrite E. cbn [bind keep_inside fst snd].
  assert (Q1 : point_inside_polygon 2 (1 / 2) [(0, 0); (4, 0); (0, 2)] true = Ok true).
  { apply polygon_triangle; [repeat constructor; cbn [snd]; lra|off_edges|]. exists (1 / 4), (1 / 2), (1 / 4). cbn [fst snd]. repeat split; lra. }
  assert (Q2 : point_inside_polygon 9 1 [(0, 0); (4, 0); (0, 2)] true = Ok false).
  { apply polygon_triangle; [repeat constructor; cbn [snd]; lra|off_edges|]. intros (u & v & w & U & V & W & S & X & Y); cbn [fst snd] in *; lra. }
  assert (Q3 : point_inside_polygon 1 1 [(0, 0); (4, 0); (0, 2)] true = Ok true).
  { apply polygon_triangle; [repeat constructor; cbn [snd]; lra|off_edges|]. exists (1 / 4), (1 / 4), (1 / 2). cbn [fst snd]. repeat split; lra. }
  rewrite Q1, Q2, Q3. cbn [bind sort_x insert_x fst]. destruct (Rle_dec 2 1); [lra|]. reflexivity.
Qed.
Lemma display_example : display_index NdArray [25; 50; 75; 50] 50 = Ok 1%nat /\ display_index NdArray [25; 50; 75] 60 = Err ValueError /\
  display_index PyList [25; 50; 75] 50 = Err OtherException.
Proof.
  unfold display_index, index_of. repeat match goal with |- context[Req_EM_T ?a ?b] => destruct (Req_EM_T a b); try (exfalso; lra) end.
  repeat split; reflexivity.
Qed.
(** ** Reconstructed sections *)
Lemma sections_from_rows : forall american ps o l,
  num_sections o = Some (List.length ps) -> recons_sections o = Some l -> List.length l = List.length ps ->
  (forall j p, nth_error ps j = Some p -> exists xu yu xd yd q,
     nth_error (r_xup (values o)) j = Some xu /\ nth_error (r_yup (values o)) j = Some yu /\
     nth_error (r_xdown (values o)) j = Some xd /\ nth_error (r_ydown (values o)) j = Some yd /\
     custom_profile american [("xup"%string, KArr xu); ("yup"%string, KArr yu); ("xdown"%string, KArr xd); ("ydown"%string, KArr yd)] = Ok (p, q)) ->
  reconstruct_sections american o = (mkRObject (values o) (num_sections o) (Some (map Some ps)) (recons_blade o), Ok (map Some ps)).
Proof.
  intros american ps o l EN EL LL HP. apply (sections_work american ps o l EN EL LL).
  intros j p E. destruct (HP j p E) as (xu & yu & xd & yd & q & E1 & E2 & E3 & E4 & EC). unfold row_profile, item. rewrite E1, E2, E3, E4. cbn [bind].
  rewrite EC. reflexivity.
Qed.
Lemma sections_example : forall american, exists o l, num_sections o = Some 1%nat /\ recons_sections o = Some l /\
  snd (reconstruct_sections american o) = Ok [Some foil3].
Proof.
  intros american. destruct foil3_unit as (U & C). destruct (unit_accepted american 3 foil3 ltac:(lia) U C) as (q & EQ).
  set (o := mkRObject (mkReversed [] [] [] [] [] [] [] [xup foil3] [xdown foil3] [yup foil3] [ydown foil3]) (Some 1%nat) (Some [None]) None).
  exists o, [None]. split; [reflexivity|]. split; [reflexivity|].
  rewrite (sections_from_rows american [foil3] o [None] eq_refl eq_refl eq_refl); [reflexivity|].
  intros [|[|j]] p E; try discriminate. injection E as <-. exists (xup foil3), (yup foil3), (xdown foil3), (ydown foil3), q. repeat split. exact EQ.
Qed.
Lemma fails_example : forall american make_propeller v,
  history american make_propeller [CallBlade; CallPropeller "s.iges" 4; CallSections] (fresh v) =
    (fresh v, [Err AttributeError; Err AttributeError; Err AttributeError]).
Proof. intros. apply methods_fail. repeat constructor. Qed.

(** The profiles of the object are the sections of the blade made from them. *)
Lemma fill_keeps : forall american js o o' r, fill american js o = (o', r) -> values o' = values o /\ num_sections o' = num_sections o /\ recons_blade o' = recons_blade o.
Proof.
  intros american. induction js as [|j js IH]; intros o o' r H; cbn [fill] in H; [injection H as <- <-; auto|].
  destruct (row_profile american (values o) j) as [p|]; [|injection H as <- <-; auto]. destruct (recons_sections o) as [l|]; [|injection H as <- <-; auto].
  destruct (assign l j (Some p)); [|injection H as <- <-; auto]. apply IH in H. exact H.
Qed.

Theorem blade_shares : forall american o o' e st2 b2, recons_blade o = None -> reconstruct_blade american o = (o', Err e) -> recons_blade o' = Some (st2, b2) ->
  values o' = values o /\ num_sections o' = num_sections o /\
  exists l, recons_sections o' = Some l /\ List.length l = List.length (sections b2) /\
    forall i s, nth_error (sections b2) i = Some s -> nth_error l i = Some (Some (st2 s)).
Proof.
  intros american o o' e st2 b2 N H B. unfold reconstruct_blade in H. destruct (num_sections o) as [n|] eqn:EN; [|injection H as <- <-; congruence].
  destruct (fill american (seq 0 n) o) as [o1 r1] eqn:EF. destruct (fill_keeps _ _ _ _ _ EF) as (K1 & K2 & K3).
  destruct r1; [|injection H as <- <-; congruence]. destruct (recons_sections o1) as [l|]; [|injection H as <- <-; congruence].
  destruct (all_profiles l) as [ps|]; [|injection H as <- <-; congruence].
  match type of H with context[new_blade ?a ?b ?c ?d ?e ?f ?g ?h] => destruct (new_blade a b c d e f g h) as [b0|] eqn:EB end; [|injection H as <- <-; congruence].
  destruct (apply_transformations true (fun i => nth i ps (mkProfile [] [] [] [])) b0) as [[st' b'] r] eqn:EA.
  assert (O : o' = mkRObject (values o1) (num_sections o1) (Some (map (fun i => Some (st' i)) (seq 0 (List.length ps)))) (Some (st', b')))
    by (destruct r; injection H as <- <-; reflexivity).
  subst o'. cbn [recons_blade values num_sections recons_sections] in *. injection B as -> ->.
  assert (S : sections b2 = seq 0 (List.length ps)).
  { assert (S0 : sections b0 = seq 0 (List.length ps)).
    { unfold new_blade in EB. destruct (check_params _) in EB; [injection EB as <-; reflexivity|discriminate]. }
    rewrite <- S0. unfold apply_transformations in EA. destruct (transform_sections _ _ _ _) as [st1 [u|]] in EA; [|injection EA as <- <- <-; reflexivity].
    unfold planar_to_cylindrical in EA. destruct (cylinder_coords st1 b0) as [(up, down)|] in EA; injection EA as <- <- <-; reflexivity. }
  split; [exact K1|]. split; [congruence|]. eexists. split; [reflexivity|]. rewrite map_length, S. split; [reflexivity|].
  intros i s E. rewrite nth_error_map, E. reflexivity.
Qed.
