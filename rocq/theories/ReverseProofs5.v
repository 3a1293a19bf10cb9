From Coq Require Import Reals List Bool Lia Lra Permutation String.
From Coq Require Import List.
From Verif Require Import Base ProfileModel ProfileSpec ProfileProofs ProfileProofs2 ProfileProofs3 BladeModel BladeSpec BladeProofs BladeProofs2 BladeProofs3
  PathModel ReverseModel ReverseSpec ReverseProofs ReverseProofs2 ReverseProofs3 ReverseProofs4.
Import ListNotations.
Open Scope R_scope.

(** ** One section, ReversePropeller *)
Lemma section_voronoi_inv : forall cubic sample around voronoi cl n radius s,
  section_voronoi cubic sample around voronoi cl n radius = Ok s ->
  exists pts cand spline le0 te0 full le3 te3 cam3 air3,
  sample radius = Ok pts /\ camber_candidates voronoi radius pts = Ok cand /\ mapM (wind radius) cand = Ok spline /\
  cl radius spline = Ok (le0, te0, full) /\ order_edges le0 te0 = (le3, te3) /\ full le3 te3 = Ok cam3 /\
  around radius = Ok air3 /\ radius <> 0 /\ (2 <= n)%nat /\
  let le := unroll_positive radius le3 in let te := unroll_positive radius te3 in
  let slope := (fst le - fst te) / (snd le - snd te) in
  let my := (snd le + snd te) / 2 in
  snd le <> snd te /\
  angle (s_frame s) = arctan2 (snd le - snd te) (fst le - fst te) /\
  s_pitch s = Rabs (2 * PI * radius * slope) / 1000 /\
  s_skew_angle s = (my / radius - PI) * 180 / PI /\ s_skew s = (my - PI * radius) / 1000 /\
  s_rake s = - ((fst le + fst te) / 2 - (my - PI * radius) * slope) / 1000 /\
  s_chord s = pdist le te / 1000 /\
  s_le s = (0, 0) /\ s_te s = (1, 0) /\ s_mid s = (1 / 2, 0) /\
  s_airfoil s = map (fun p => onto_chord le te (unroll_positive radius p)) air3 /\
  (exists c1, pin_ends (map (fun p => onto_chord le te (unroll_positive radius p)) cam3) = Ok c1 /\ s_camber s = lex_sort c1) /\
  s_x s = linspace 0 1 n /\
  exists fc up down, cubic (map fst (s_camber s)) (map snd (s_camber s)) = Ok fc /\ split_camber fc (s_airfoil s) = Ok (up, down) /\
    resampled cubic n ((0, 0) :: (1, 0) :: up) (s_top s) (s_yup s) /\
    resampled cubic n ((0, 0) :: (1, 0) :: down) (s_bottom s) (s_ydown s).
Proof.
  intros cubic sample around voronoi cl n radius s H. unfold section_voronoi in H.
  destruct (Nat.ltb n 2) eqn:N2; [discriminate|]. apply Nat.ltb_ge in N2.
  apply bind_ok in H as (pts & E1 & H). apply bind_ok in H as (cand & E2 & H). apply bind_ok in H as (spline & E3 & H).
  apply bind_ok in H as (found & E4 & H). destruct found as [[le0 te0] full]. destruct (order_edges le0 te0) as [le3 te3] eqn:E5.
  apply bind_ok in H as (cam3 & E6 & H). apply bind_ok in H as (air3 & E7 & H).
  exists pts, cand, spline, le0, te0, full, le3, te3, cam3, air3.
  set (le := unroll_positive radius le3) in *. set (te := unroll_positive radius te3) in *.
  apply bind_ok in H as (r & ER & H). destruct r as [[[f [[l t] m]] [cam air]] fc].
  apply extract_inv in ER as (NE & EF & -> & -> & -> & EA & EC & EFc).
  destruct (frame_ok le te NE) as (f0 & E0 & FA & FS & FI & FR & FC & FP & FO & FN & _). rewrite E0 in EF. injection EF as ->.
  rewrite !FO in H. cbn [bind] in H. apply bind_ok in H as (q & EQ & H).
  assert (R0 : radius <> 0). { unfold fdiv in EQ. destruct (Req_EM_T radius 0); [discriminate|assumption]. }
  unfold fdiv in EQ. destruct (Req_EM_T radius 0) in EQ; [contradiction|]. injection EQ as <-.
  apply bind_ok in H as (tb & ET & H). apply bind_ok in H as (rs & ES & H). destruct rs as [[nt nb] [[xs yu] yd]].
  injection H as <-. cbn [s_frame s_pitch s_skew_angle s_skew s_rake s_chord s_le s_te s_mid s_airfoil s_camber s_x s_top s_bottom s_yup s_ydown].
  do 7 (split; [assumption|]). split; [exact R0|]. split; [exact N2|]. cbv zeta. split; [exact NE|]. split; [exact FA|].
  split; [f_equal; f_equal; unfold Rdiv; ring|]. split; [rewrite FS; reflexivity|]. split; [rewrite FS; reflexivity|].
  split; [rewrite FR, FI, FS; f_equal; unfold Rdiv; ring|]. split; [rewrite FC; reflexivity|].
  do 3 (split; [reflexivity|]). split; [rewrite EA, map_map; reflexivity|].
  split. { destruct EC as (c1 & EC1 & EC2). rewrite map_map in EC1. exists c1. auto. }
  apply resample_inv in ES; [|exact N2|cbn; lia|cbn; lia]. destruct ES as (EX & RU & RD). split; [exact EX|].
  exists fc, (fst tb), (snd tb). split; [exact EFc|]. split; [rewrite ET; destruct tb; reflexivity|]. auto.
Qed.

(** ** Edges in order, points inside, sorted by x *)
Lemma order_edges_spec : forall a b l t, order_edges a b = (l, t) ->
  fst (fst t) <= fst (fst l) /\ ((l = a /\ t = b) \/ (l = b /\ t = a)).
Proof.
  intros a b l t H. unfold order_edges in H. destruct (Rlt_dec (fst (fst a)) (fst (fst b))); injection H as <- <-; split; auto; lra.
Qed.
Lemma keep_inside_spec : forall poly l r, keep_inside poly l = Ok r ->
  forall p, In p r <-> In p l /\ point_inside_polygon (fst p) (snd p) poly true = Ok true.
Proof.
  intros poly l. induction l as [|a l IH]; intros r H p; cbn [keep_inside] in H.
  - injection H as <-. cbn. tauto.
  - apply bind_ok in H as (b & EB & H). apply bind_ok in H as (r' & ER & H). injection H as <-. specialize (IH _ ER p).
    destruct b.
    + cbn [In]. rewrite IH. split; [intros [->|(I & Q)]; auto|intros ([->|I] & Q); auto].
    + rewrite IH. cbn [In]. split; [tauto|]. intros ([->|I] & Q); [rewrite EB in Q; discriminate|auto].
Qed.
Lemma insert_x_perm : forall p l, Permutation (insert_x p l) (p :: l).
Proof.
  intros p l. induction l as [|q l IH]; [reflexivity|]. cbn [insert_x]. destruct (Rle_dec (fst p) (fst q)); [reflexivity|].
  rewrite IH. apply perm_swap.
Qed.
Lemma sort_x_perm : forall l, Permutation (sort_x l) l.
Proof. induction l as [|p l IH]; [reflexivity|]. cbn [sort_x]. rewrite insert_x_perm. constructor. exact IH. Qed.
Lemma insert_x_ordered : forall p l, ordered (fun a b : pt => fst a <= fst b) l -> ordered (fun a b : pt => fst a <= fst b) (insert_x p l).
Proof.
  intros p l H. induction H as [|a|a b l P H IH]; cbn [insert_x].
  - constructor.
  - destruct (Rle_dec (fst p) (fst a)); apply o_more; try apply o_one; lra.
  - destruct (Rle_dec (fst p) (fst a)) as [Q|Q]; [apply o_more; [exact Q|apply o_more; auto]|].
    cbn [insert_x] in IH. destruct (Rle_dec (fst p) (fst b)); apply o_more; auto. lra.
Qed.
Lemma sort_x_ordered : forall l, ordered (fun a b : pt => fst a <= fst b) (sort_x l).
Proof. induction l as [|p l IH]; [constructor|]. cbn [sort_x]. apply insert_x_ordered. exact IH. Qed.
(** Points of equal x keep their order. *)
Lemma insert_x_filter : forall x p l, ordered (fun a b : pt => fst a <= fst b) l ->
  filter (fun q => if Req_EM_T (fst q) x then true else false) (insert_x p l) =
  filter (fun q => if Req_EM_T (fst q) x then true else false) (p :: l).
Proof.
  intros x p l. induction l as [|q l IH]; intros O; [reflexivity|]. cbn [insert_x].
  destruct (Rle_dec (fst p) (fst q)) as [Q|Q]; [reflexivity|].
  assert (O' : ordered (fun a b : pt => fst a <= fst b) l) by (inversion O; subst; [constructor|assumption]).
  specialize (IH O'). cbn [filter] in *. rewrite IH.
  destruct (Req_EM_T (fst p) x), (Req_EM_T (fst q) x); try reflexivity. lra.
Qed.
Lemma sort_x_stable : forall x l, filter (fun q => if Req_EM_T (fst q) x then true else false) (sort_x l) =
  filter (fun q => if Req_EM_T (fst q) x then true else false) l.
Proof.
  intros x l. induction l as [|p l IH]; [reflexivity|]. cbn [sort_x]. rewrite insert_x_filter by apply sort_x_ordered.
  cbn [filter]. rewrite IH. reflexivity.
Qed.
Lemma candidates_spec : forall voronoi radius pts cand, camber_candidates voronoi radius pts = Ok cand ->
  exists vs, voronoi (map (unroll_positive radius) pts) = Ok vs /\
  (forall p, In p cand <-> In p vs /\ point_inside_polygon (fst p) (snd p) (map (unroll_positive radius) pts) true = Ok true) /\
  ordered (fun a b : pt => fst a <= fst b) cand.
Proof.
  intros voronoi radius pts cand H. unfold camber_candidates in H. apply bind_ok in H as (vs & EV & H).
  apply bind_ok in H as (ins & EI & H). injection H as <-. exists vs. split; [exact EV|]. split; [|apply sort_x_ordered].
  intros p. rewrite <- (keep_inside_spec _ _ _ EI p). split; apply Permutation_in; [|symmetry]; apply sort_x_perm.
Qed.
Lemma split_camber_spec : forall fc l up down, split_camber fc l = Ok (up, down) ->
  (forall p, In p up <-> In p l /\ 5 / 1000 < fst p < 995 / 1000 /\ exists y, fc (fst p) = Ok y /\ y < snd p) /\
  (forall p, In p down <-> In p l /\ 5 / 1000 < fst p < 995 / 1000 /\ exists y, fc (fst p) = Ok y /\ snd p <= y).
Proof.
  intros fc l. induction l as [|a l IH]; intros up down H; cbn [split_camber] in H.
  - injection H as <- <-. split; intros p; cbn; tauto.
  - assert (CL : forall x, 5 / 1000 < x < 995 / 1000 -> Rmin (Rmax x 0) 1 = x).
    { intros x Q. rewrite Rmax_left, Rmin_left; lra. }
    destruct (Rlt_dec (5 / 1000) (fst a)) as [Q1|Q1].
    2:{ destruct (IH _ _ H) as (I1 & I2). split; intros p; [rewrite I1|rewrite I2]; cbn [In]; (split; [tauto|]); intros ([->|I] & Q & Y); auto; lra. }
    destruct (Rlt_dec (fst a) (995 / 1000)) as [Q2|Q2].
    2:{ destruct (IH _ _ H) as (I1 & I2). split; intros p; [rewrite I1|rewrite I2]; cbn [In]; (split; [tauto|]); intros ([->|I] & Q & Y); auto; lra. }
    rewrite CL in H by lra. apply bind_ok in H as (y & EY & H). apply bind_ok in H as ([u d] & ER & H).
    destruct (IH _ _ ER) as (I1 & I2). cbn [fst snd] in H. destruct (Rlt_dec y (snd a)) as [L|L]; injection H as <- <-.
    + split; intros p.
      * cbn [In]. rewrite I1. split; [intros [->|(I & Q)]; [split; eauto|tauto]|intros ([->|I] & Q); auto].
      * rewrite I2. cbn [In]. split; [tauto|]. intros ([->|I] & Q & z & EZ & LZ); [rewrite EY in EZ; injection EZ as <-; lra|eauto].
    + split; intros p.
      * rewrite I1. cbn [In]. split; [tauto|]. intros ([->|I] & Q & z & EZ & LZ); [rewrite EY in EZ; injection EZ as <-; lra|eauto].
      * cbn [In]. rewrite I2. split; [intros [->|(I & Q)]; [split; [auto|split; [lra|exists y; split; [exact EY|lra]]]|tauto]|intros ([->|I] & Q); auto].
Qed.

(** ** A blade turned by half a revolution *)
Definition half_turn (p : pt3) : pt3 := let '(x, y, z) := p in (x, - y, - z).
Lemma unroll_half : forall r a, 0 < r -> - PI < snd a / r < PI ->
  unroll_positive (1000 * r) (scale3 1000 (half_turn (wrap r a))) = (1000 * fst a, 1000 * (snd a + PI * r)).
Proof.
  intros r [x y] Hr Hy. pose proof PI_RGT_0. cbn [fst snd] in *. unfold unroll_positive, scale3, half_turn, wrap. cbn [fst snd]. f_equal.
  set (t := y / r) in *. assert (EY : y = r * t) by (unfold t; field; lra).
  destruct (Rle_dec t 0) as [L|L].
  - replace (1000 * - (r * sin t)) with (1000 * r * sin (t + PI)) by (rewrite neg_sin; ring).
    replace (1000 * - (r * cos t)) with (1000 * r * cos (t + PI)) by (rewrite neg_cos; ring).
    rewrite arctan2_polar by lra. destruct (Rlt_dec (t + PI) 0); [lra|]. rewrite EY. ring.
  - assert (S1 : sin (t - PI) = - sin t). { rewrite sin_minus, cos_PI, sin_PI. ring. }
    assert (C1 : cos (t - PI) = - cos t). { rewrite cos_minus, cos_PI, sin_PI. ring. }
    replace (1000 * - (r * sin t)) with (1000 * r * sin (t - PI)) by (rewrite S1; ring).
    replace (1000 * - (r * cos t)) with (1000 * r * cos (t - PI)) by (rewrite C1; ring).
    rewrite arctan2_polar by lra. destruct (Rlt_dec (t - PI) 0); [|lra]. rewrite EY. ring.
Qed.
Definition inside_range (r : R) (a : pt) : Prop := - PI < snd a / r < PI.
Lemma recovered_turned : forall cubic sample around voronoi cl n s P r k sk g A B, 0 < r -> inside_range r A -> inside_range r B ->
  psub B A = pscale g (sin (atan (P / (2 * PI * r))), cos (atan (P / (2 * PI * r)))) ->
  pscale (1 / 2) (padd A B) = (- (k + sk * (PI / 180) * P / (2 * PI)), - (r * (sk * (PI / 180)))) ->
  section_voronoi cubic sample around voronoi cl n (1000 * r) = Ok s ->
  (forall spline le te full, cl (1000 * r) spline = Ok (le, te, full) ->
    (le = scale3 1000 (half_turn (wrap r A)) /\ te = scale3 1000 (half_turn (wrap r B))) \/
    (le = scale3 1000 (half_turn (wrap r B)) /\ te = scale3 1000 (half_turn (wrap r A)))) ->
  s_pitch s = Rabs P /\ s_skew_angle s = - sk /\ s_skew s = - (r * (sk * (PI / 180))) /\ s_rake s = k /\ s_chord s = Rabs g.
Proof.
  intros cubic sample around voronoi cl n s P r k sk g A B Hr RA RB HD HM HS HE. pose proof PI_RGT_0 as HP.
  apply section_voronoi_inv in HS as (pts & cand & spline & le0 & te0 & full & le3 & te3 & cam3 & air3 & _ & _ & _ & EC & EO & _ & _ & _ & _ & NE & _ & EP & ESA & ES & ER & ECh & _).
  specialize (HE _ _ _ _ EC). apply order_edges_spec in EO as (_ & EO).
  assert (HE' : (le3 = scale3 1000 (half_turn (wrap r A)) /\ te3 = scale3 1000 (half_turn (wrap r B))) \/
    (le3 = scale3 1000 (half_turn (wrap r B)) /\ te3 = scale3 1000 (half_turn (wrap r A)))).
  { destruct HE as [(-> & ->)|(-> & ->)], EO as [(-> & ->)|(-> & ->)]; auto. }
  clear HE EO.
  assert (SH : forall a b : pt, pdist (1000 * fst a, 1000 * (snd a + PI * r)) (1000 * fst b, 1000 * (snd b + PI * r)) = 1000 * pdist a b).
  { intros [a1 a2] [b1 b2]. rewrite <- (pdist_scale 1000) by lra. unfold pdist, pnorm, psub, pscale. cbn [fst snd]. f_equal. ring. }
  assert (Q : snd A <> snd B /\
     ((fst (unroll_positive (1000 * r) le3) - fst (unroll_positive (1000 * r) te3)) / (snd (unroll_positive (1000 * r) le3) - snd (unroll_positive (1000 * r) te3)) = slope_of A B) /\
     fst (unroll_positive (1000 * r) le3) + fst (unroll_positive (1000 * r) te3) = 1000 * (fst A + fst B) /\
     snd (unroll_positive (1000 * r) le3) + snd (unroll_positive (1000 * r) te3) = 1000 * (snd A + snd B + 2 * PI * r) /\
     pdist (unroll_positive (1000 * r) le3) (unroll_positive (1000 * r) te3) = 1000 * pdist A B).
  { destruct HE' as [(-> & ->)|(-> & ->)]; rewrite !unroll_half in * by assumption; cbn [fst snd] in *.
    - assert (N : snd A <> snd B) by lra. split; [exact N|]. unfold slope_of. split; [field; lra|]. split; [ring|]. split; [ring|]. apply SH.
    - assert (N : snd A <> snd B) by lra. split; [exact N|]. unfold slope_of. split; [field; lra|]. split; [ring|]. split; [ring|].
      rewrite (pdist_sym A B). apply SH. }
  clear HE'. destruct Q as (N & Q1 & Q2 & Q3 & Q4). rewrite Q1 in EP, ER. rewrite Q3 in ESA, ES, ER. rewrite Q2 in ER. rewrite Q4 in ECh.
  destruct (edges_param P r k sk g A B Hr HD HM N) as (S1 & S2 & S3 & S4). rewrite S1 in *. rewrite S2 in ECh.
  assert (F1 : fst A + fst B = 2 * (- (k + sk * (PI / 180) * P / (2 * PI)))) by lra.
  assert (F2 : snd A + snd B = 2 * (- (r * (sk * (PI / 180))))) by lra.
  rewrite F1, F2 in *.
  split; [|split; [|split; [|split]]].
  - rewrite EP. replace (2 * PI * (1000 * r) * (P / (2 * PI * r))) with (P * 1000) by (field; lra).
    rewrite Rabs_mult, (Rabs_right 1000) by lra. field.
  - rewrite ESA. field. lra.
  - rewrite ES. field.
  - rewrite ER. field. lra.
  - rewrite ECh. field.
Qed.
Lemma strict_range : forall r P k sk refl c ref a, 0 < r -> r * Rabs (sk * (PI / 180)) + Rabs c * pdist a ref < PI * r ->
  inside_range r (seat r P k sk refl (sized c ref a)).
Proof.
  intros r P k sk refl c ref a Hr H. pose proof PI_RGT_0.
  destruct (seat_range r P k sk refl c ref a Hr H) as (L & U). split; [exact L|].
  destruct (seat_range r P k (- sk) (negb refl) c ref a Hr) as (L' & _).
  { replace (- sk * (PI / 180)) with (- (sk * (PI / 180))) by ring. rewrite Rabs_Ropp. exact H. }
  assert (E : snd (seat r P k (- sk) (negb refl) (sized c ref a)) = - snd (seat r P k sk refl (sized c ref a))).
  { destruct ref, a. unfold seat, sized, psub, pscale, padd, prot, pneg. destruct refl; cbn [fst snd negb]; ring. }
  rewrite E in L'. unfold Rdiv in L'. rewrite Ropp_mult_distr_l_reverse in L'. unfold Rdiv. lra.
Qed.

Lemma parameters_turned : forall refl st b st' b' up down, consistent b -> NoDup (sections b) ->
  Forall (fun r => r <> 0) (radii b) -> thickness b = None -> camber b = None ->
  (forall s, In s (sections b) -> uniform (st s)) ->
  apply_transformations refl st b = (st', b', Ok tt) -> coordinates b' = Built up down ->
  forall i s r c P k sk le te L, station b i s r c P k sk ->
    first (upper (st s)) = Ok le -> first (lower (st s)) = Ok le ->
    final (upper (st s)) = Ok te -> final (lower (st s)) = Ok te -> psub te le = (L, 0) ->
    0 < r -> r * Rabs (sk * (PI / 180)) + Rabs (c * L) / 2 < PI * r ->
  forall row a z, nth_error up (List.length (sections b) - 1 - i) = Some row -> first row = Ok a -> final row = Ok z ->
  forall cubic sample around voronoi cl rl n v j, reverse_voronoi cubic sample around voronoi cl rl n = Ok v ->
    nth_error rl j = Some (1000 * r) ->
    (forall spline x y full, cl (1000 * r) spline = Ok (x, y, full) ->
      (x = scale3 1000 (half_turn a) /\ y = scale3 1000 (half_turn z)) \/
      (x = scale3 1000 (half_turn z) /\ y = scale3 1000 (half_turn a))) ->
  nth_error (pitch_list v) j = Some (Rabs P) /\ nth_error (skew_angles_list v) j = Some (- sk) /\
  nth_error (rake_list v) j = Some k /\ nth_error (chord_length_list v) j = Some (Rabs (c * L)) /\
  nth_error (skew_list v) j = Some (- (r * (sk * (PI / 180)))).
Proof.
  intros refl st b st' b' up down C ND F T K U H HB i s r c P k sk le te L S A1 A2 A3 A4 HD Hr HR row a z ER EA EZ
    cubic sample around voronoi cl rl n v j HV HJ HE.
  destruct (station_planar refl st b st' b' up down C ND F T K U H HB i s r c P k sk le te S A1 A2 A3 A4) as (W1 & _).
  set (Fn := fun a => seat r P k sk refl (sized c (pscale (1 / 2) (padd le te)) a)) in *.
  rewrite W1 in ER. injection ER as <-.
  apply (first_map Fn), (first_map (wrap r)) in A1. rewrite EA in A1. injection A1 as ->.
  apply (final_map Fn), (final_map (wrap r)) in A3. rewrite EZ in A3. injection A3 as ->.
  destruct (reverse_voronoi_row _ _ _ _ _ _ _ _ _ _ HV HJ) as (s0 & HS & R1 & R2 & R3 & R4 & R5 & R6 & _).
  rewrite R2, R3, R4, R5, R6. destruct (seat_edges r P k sk refl c le te L Hr HD) as (D1 & D2).
  destruct (half_chord le te L HD) as (G1 & G2). rewrite (Rabs_mult c L) in HR.
  assert (I1 : inside_range r (Fn le)) by (apply strict_range; [exact Hr|rewrite G1; lra]).
  assert (I2 : inside_range r (Fn te)) by (apply strict_range; [exact Hr|rewrite G2; lra]).
  destruct (recovered_turned cubic sample around voronoi cl n s0 P r k sk _ (Fn le) (Fn te) Hr I1 I2 D1 D2 HS HE) as (-> & -> & -> & -> & ->).
  repeat split. f_equal. rewrite !Rabs_mult. destruct refl; rewrite ?Rabs_Ropp; reflexivity.
Qed.
