From Coq Require Import Reals List Bool Lia Lra Permutation String.
From Coq Require Import List.
From Verif Require Import Base ProfileModel ProfileSpec ProfileProofs ProfileProofs2 ProfileProofs3 CustomProofs2 BladeModel BladeSpec BladeProofs BladeProofs2 BladeProofs3
  BladeProofs6 PathModel ReverseModel ReverseSpec ReverseProofs ReverseProofs2 ReverseProofs3 ReverseProofs4 ReverseProofs5.
Import ListNotations.
Open Scope R_scope.

Lemma resampled_surface : forall cubic n l nodes ys, resampled cubic n l nodes ys -> surface_from cubic n l nodes ys.
Proof.
  intros cubic n l nodes ys (P & f & vs & A & B & C). exists (lex_sort l), f, vs.
  split; [apply lex_sort_perm|]. split; [apply lex_sort_ordered|]. auto.
Qed.
Lemma argmax_first : forall l best bi i, exists m j, (forall x, In x l -> x <= m) /\ best <= m /\
  ((argmax_from best bi i l = bi /\ m = best) \/
   (argmax_from best bi i l = (i + j)%nat /\ best < m /\ nth_error l j = Some m /\ forall j' x, (j' < j)%nat -> nth_error l j' = Some x -> x < m)).
Proof.
  induction l as [|a l IH]; intros best bi i; cbn [argmax_from].
  - exists best, 0%nat. split; [intros x []|]. split; [lra|]. left. auto.
  - destruct (Rlt_dec best a) as [L|L].
    + destruct (IH a i (S i)) as (m & j & A & B & C). destruct C as [(C1 & C2)|(C1 & C2 & C3 & C4)].
      * subst m. exists a, 0%nat. split; [intros x [<-|I]; [lra|auto]|]. split; [lra|]. right. rewrite C1. split; [lia|]. split; [exact L|].
        split; [reflexivity|]. intros j' x Q; lia.
      * exists m, (S j). split; [intros x [<-|I]; [lra|auto]|]. split; [lra|]. right. rewrite C1. split; [lia|]. split; [lra|].
        split; [exact C3|]. intros [|j'] x Q E; [injection E as <-; lra|apply (C4 j' x); [lia|exact E]].
    + destruct (IH best bi (S i)) as (m & j & A & B & C). destruct C as [(C1 & C2)|(C1 & C2 & C3 & C4)].
      * exists m, 0%nat. split; [intros x [<-|I]; [lra|auto]|]. split; [lra|]. left. auto.
      * exists m, (S j). split; [intros x [<-|I]; [lra|auto]|]. split; [lra|]. right. rewrite C1. split; [lia|]. split; [lra|].
        split; [exact C3|]. intros [|j'] x Q E; [injection E as <-; lra|apply (C4 j' x); [lia|exact E]].
Qed.
Lemma argmax_is_first : forall l i, argmax l = Ok i -> exists m, nth_error l i = Some m /\ (forall x, In x l -> x <= m) /\
  forall j x, (j < i)%nat -> nth_error l j = Some x -> x < m.
Proof.
  intros [|a l] i H; [discriminate|]. unfold argmax in H. injection H as <-.
  destruct (argmax_first l a 0 1) as (m & j & A & B & [(C1 & C2)|(C1 & C2 & C3 & C4)]); rewrite C1.
  - subst m. exists a. split; [reflexivity|]. split; [intros x [<-|I]; [lra|auto]|]. intros j' x Q; lia.
  - exists m. split; [exact C3|]. split; [intros x [<-|I]; [lra|auto]|]. intros [|j'] x Q E; [injection E as <-; exact C2|apply (C4 j' x); [lia|exact E]].
Qed.
Lemma oriented_upside : forall (t b t' b' : list pt), oriented t b t' b' -> upside t b t' b'.
Proof.
  unfold oriented, upside, pt. intros t b t' b' (i & y & EI & EY & O). apply argmax_is_first in EI as (m & EM & A & B).
  rewrite nth_error_map in EM, EY. destruct (nth_error t i) as [p|] eqn:EP; [|discriminate EM].
  cbn [option_map] in EM, EY. injection EM as <-. injection EY as <-. exists i, p. split; [exact EP|]. split; [|split; [|exact O]].
  - intros q I. apply A. apply in_map_iff. exists q. auto.
  - intros j q L E. apply (B j); [exact L|]. rewrite nth_error_map, E. reflexivity.
Qed.

(** ** Sections *)
Lemma pdist_positive : forall a b, a <> b -> 0 < pdist a b.
Proof. intros [a b] [d e] N. unfold pdist, pnorm, psub. cbn [fst snd]. apply sqrt_lt_R0. exact (squares_positive _ _ _ _ N). Qed.
Lemma bladex_plane : forall cubic slice n radius s, section_bladex cubic slice n radius = Ok s ->
  exists c T, slice radius n = Ok c /\
  let le := unroll radius (c_le c) in let te := unroll radius (c_te c) in
  0 < pdist le te /\ mirror_similarity (/ pdist le te) T /\ T le = (0, 0) /\ T te = (1, 0) /\
  s_le s = (0, 0) /\ s_te s = (1, 0) /\ s_mid s = (1 / 2, 0) /\ s_chord s = pdist le te / 1000 /\
  s_airfoil s = map (fun p => T (unroll_positive radius p)) (c_airfoil c) /\
  (exists m, Permutation (s_camber s) m /\ ordered lex (s_camber s) /\
     ((2 <= List.length (firstn n (c_camber c)))%nat -> pinned (map (fun p => T (unroll_positive radius p)) (firstn n (c_camber c))) m)) /\
  ((2 <= List.length (c_top c))%nat -> (2 <= List.length (c_bottom c))%nat ->
   exists top bottom, upside (map (fun p => T (unroll radius p)) (c_top c)) (map (fun p => T (unroll radius p)) (c_bottom c)) top bottom /\
     surface_from cubic n top (s_top s) (s_yup s) /\ surface_from cubic n bottom (s_bottom s) (s_ydown s)).
Proof.
  intros cubic slice n radius s H.
  apply section_bladex_inv in H as (c & EC & R0 & HN & NE & _ & _ & _ & _ & _ & ECh & EL & ET & EM & EA & EX & TB & EK).
  set (le := unroll radius (c_le c)) in *. set (te := unroll radius (c_te c)) in *.
  assert (N : le <> te) by (intros Q; apply NE; rewrite Q; reflexivity).
  exists c, (onto_chord le te). split; [exact EC|]. cbv zeta. destruct (onto_chord_ends le te N) as (O1 & O2).
  split; [apply pdist_positive; exact N|].
  split; [apply onto_chord_similar; exact N|]. do 6 (split; [assumption|]). split; [exact EA|]. split.
  - destruct EK as (c1 & E1 & E2). exists c1. rewrite E2. split; [apply lex_sort_perm|]. split; [apply lex_sort_ordered|].
    intros L. apply pin_inv; [rewrite map_length; exact L|exact E1].
  - intros L1 L2. destruct (TB L1 L2) as (top & bot & O & U & D). exists top, bot. split; [apply oriented_upside; exact O|].
    split; apply resampled_surface; assumption.
Qed.
Lemma order_edges_exact : forall a b l t, order_edges a b = (l, t) ->
  (l = a /\ t = b /\ fst (fst b) <= fst (fst a)) \/ (l = b /\ t = a /\ fst (fst a) < fst (fst b)).
Proof.
  intros a b l t H. unfold order_edges in H. destruct (Rlt_dec (fst (fst a)) (fst (fst b))); injection H as <- <-; [right | left]; repeat split; lra.
Qed.
Lemma voronoi_plane : forall cubic sample around voronoi cl n radius s,
  section_voronoi cubic sample around voronoi cl n radius = Ok s ->
  exists pts cand spline le0 te0 full le3 te3 cam3 air3 T fc up down,
  sample radius = Ok pts /\ camber_candidates voronoi radius pts = Ok cand /\
  Forall2 (fun p q => q = (fst p, radius * sin (snd p / radius), radius * cos (snd p / radius))) cand spline /\
  cl radius spline = Ok (le0, te0, full) /\ ((le3 = le0 /\ te3 = te0 /\ fst (fst te0) <= fst (fst le0)) \/ (le3 = te0 /\ te3 = le0 /\ fst (fst le0) < fst (fst te0))) /\
  full le3 te3 = Ok cam3 /\ around radius = Ok air3 /\
  let le := unroll_positive radius le3 in let te := unroll_positive radius te3 in
  0 < pdist le te /\ mirror_similarity (/ pdist le te) T /\ T le = (0, 0) /\ T te = (1, 0) /\
  s_le s = (0, 0) /\ s_te s = (1, 0) /\ s_mid s = (1 / 2, 0) /\ s_chord s = pdist le te / 1000 /\
  s_airfoil s = map (fun p => T (unroll_positive radius p)) air3 /\
  (exists m, Permutation (s_camber s) m /\ ordered lex (s_camber s) /\
     ((2 <= List.length cam3)%nat -> pinned (map (fun p => T (unroll_positive radius p)) cam3) m)) /\
  cubic (map fst (s_camber s)) (map snd (s_camber s)) = Ok fc /\
  (forall p, In p up <-> In p (s_airfoil s) /\ 5 / 1000 < fst p < 995 / 1000 /\ exists y, fc (fst p) = Ok y /\ y < snd p) /\
  (forall p, In p down <-> In p (s_airfoil s) /\ 5 / 1000 < fst p < 995 / 1000 /\ exists y, fc (fst p) = Ok y /\ snd p <= y) /\
  surface_from cubic n ((0, 0) :: (1, 0) :: up) (s_top s) (s_yup s) /\
  surface_from cubic n ((0, 0) :: (1, 0) :: down) (s_bottom s) (s_ydown s).
Proof.
  intros cubic sample around voronoi cl n radius s H.
  apply section_voronoi_inv in H as (pts & cand & spline & le0 & te0 & full & le3 & te3 & cam3 & air3 & E1 & E2 & E3 & E4 & E5 & E6 & E7 & R0 & HN &
    NE & _ & _ & _ & _ & _ & ECh & EL & ET & EM & EA & EK & EX & fc & up & down & EF & ES & RU & RD).
  set (le := unroll_positive radius le3) in *. set (te := unroll_positive radius te3) in *.
  assert (N : le <> te) by (intros Q; apply NE; rewrite Q; reflexivity).
  exists pts, cand, spline, le0, te0, full, le3, te3, cam3, air3, (onto_chord le te), fc, up, down.
  split; [exact E1|]. split; [exact E2|]. split.
  { clear - E3 R0. revert spline E3. induction cand as [|p l IH]; intros sp H; cbn [mapM] in H; [injection H as <-; constructor|].
    apply bind_ok in H as (q & EQ & H). apply bind_ok in H as (r & ER & H). injection H as <-. constructor; [|apply IH; exact ER].
    unfold wind, fdiv in EQ. destruct (Req_EM_T radius 0); [contradiction|]. injection EQ as <-. reflexivity. }
  split; [exact E4|]. split; [exact (order_edges_exact _ _ _ _ E5)|]. split; [exact E6|]. split; [exact E7|].
  cbv zeta. fold le te. destruct (onto_chord_ends le te N) as (O1 & O2).
  split; [apply pdist_positive; exact N|].
  split; [apply onto_chord_similar; exact N|]. do 6 (split; [assumption|]). split; [exact EA|]. split.
  - destruct EK as (c1 & G1 & G2). exists c1. rewrite G2. split; [apply lex_sort_perm|]. split; [apply lex_sort_ordered|].
    intros L. apply pin_inv; [rewrite map_length; exact L|exact G1].
  - split; [exact EF|]. destruct (split_camber_spec _ _ _ _ ES) as (S1 & S2). split; [exact S1|]. split; [exact S2|].
    split; apply resampled_surface; assumption.
Qed.

(** Closed profile on [0, 1]. *)
Lemma surface_closed : forall cubic n l nodes ys, (2 <= n)%nat -> surface_from cubic n l nodes ys ->
  List.length ys = n /\ first ys = Ok 0 /\ final ys = Ok 0 /\ List.length nodes = List.length l /\
  (exists y, first nodes = Ok (0, y)) /\ (exists y, final nodes = Ok (1, y)).
Proof.
  intros cubic n l nodes ys HN (sorted & f & vs & P & _ & (p & q & mid & E1 & E2) & _ & EV & (a & b & m & F1 & F2)).
  assert (L : List.length ys = List.length vs) by (rewrite F1, F2; cbn; rewrite !app_length; reflexivity).
  split; [rewrite L, (mapM_len _ _ _ EV); apply linspace_length|]. rewrite F2. split; [reflexivity|].
  split; [exact (final_snoc (0 :: m) 0)|]. split.
  { rewrite <- (Permutation_length P), E1, E2. cbn. rewrite !app_length. reflexivity. }
  rewrite E2. split; [exists (snd p); reflexivity|]. exists (snd q). exact (final_snoc ((0, snd p) :: mid) (1, snd q)).
Qed.
Lemma first_linspace : forall n, (2 <= n)%nat -> first (linspace 0 1 n) = Ok 0 /\ final (linspace 0 1 n) = Ok 1.
Proof.
  intros n H. unfold linspace. destruct n as [|n]; [lia|]. split.
  - cbn [seq map]. apply (f_equal (@Ok R)). cbn [INR]. ring.
  - rewrite seq_S, map_app. cbn [map]. rewrite final_snoc. apply (f_equal (@Ok R)). cbn [Nat.add].
    replace (S n - 1)%nat with n by lia. assert (INR n <> 0) by (apply not_0_INR; lia). field. exact H0.
Qed.
Lemma surfaces_profile : forall cubic n l m nt nb yu yd, (2 <= n)%nat -> surface_from cubic n l nt yu -> surface_from cubic n m nb yd ->
  let p := mkProfile (linspace 0 1 n) (linspace 0 1 n) yu yd in
  uniform p /\ first (upper p) = Ok (0, 0) /\ first (lower p) = Ok (0, 0) /\ final (upper p) = Ok (1, 0) /\ final (lower p) = Ok (1, 0) /\
  update_edges p = Ok ((0, 0), (1, 0)).
Proof.
  intros cubic n l m nt nb yu yd HN SU SD.
  destruct (surface_closed _ _ _ _ _ HN SU) as (A1 & A2 & A3 & _). destruct (surface_closed _ _ _ _ _ HN SD) as (B1 & B2 & B3 & _).
  destruct (first_linspace n HN) as (C1 & C2). cbv zeta. set (xs := linspace 0 1 n) in *.
  assert (LX : List.length xs = n) by (unfold xs; apply linspace_length).
  assert (FC : forall (ys : list R) x y, first xs = Ok x -> first ys = Ok y -> first (combine xs ys) = Ok (x, y)).
  { intros ys x y. destruct xs, ys; try discriminate. intros [= ->] [= ->]. reflexivity. }
  assert (FL : forall (us ys : list R) x y, List.length us = List.length ys -> final us = Ok x -> final ys = Ok y -> final (combine us ys) = Ok (x, y)).
  { induction us as [|u us IH]; intros [|w ys] x y L; try discriminate. destruct us as [|u' us], ys as [|w' ys]; try discriminate.
    - intros [= ->] [= ->]. reflexivity.
    - intros H1 H2. apply (IH (w' :: ys) x y); auto. }
  assert (U : uniform (mkProfile xs xs yu yd)) by (repeat split; cbn [xup xdown yup ydown]; congruence).
  assert (Q1 : first (upper (mkProfile xs xs yu yd)) = Ok (0, 0)) by (apply FC; auto).
  assert (Q2 : first (lower (mkProfile xs xs yu yd)) = Ok (0, 0)) by (apply FC; auto).
  assert (Q3 : final (upper (mkProfile xs xs yu yd)) = Ok (1, 0)) by (apply FL; auto; cbn [xup yup]; congruence).
  assert (Q4 : final (lower (mkProfile xs xs yu yd)) = Ok (1, 0)) by (apply FL; auto; cbn [xdown ydown]; congruence).
  do 5 (split; [assumption|]). apply closed_edges; assumption.
Qed.
Lemma bladex_profile : forall cubic slice n radius s, section_bladex cubic slice n radius = Ok s ->
  (forall c, slice radius n = Ok c -> (2 <= List.length (c_top c))%nat /\ (2 <= List.length (c_bottom c))%nat) ->
  s_x s = linspace 0 1 n /\ let p := mkProfile (s_x s) (s_x s) (s_yup s) (s_ydown s) in
  uniform p /\ first (upper p) = Ok (0, 0) /\ first (lower p) = Ok (0, 0) /\ final (upper p) = Ok (1, 0) /\ final (lower p) = Ok (1, 0) /\
  update_edges p = Ok ((0, 0), (1, 0)).
Proof.
  intros cubic slice n radius s H HL. pose proof H as H'.
  apply section_bladex_inv in H' as (c & EC & _ & HN & _ & _ & _ & _ & _ & _ & _ & _ & _ & _ & _ & EX & TB & _).
  destruct (HL c EC) as (L1 & L2). destruct (TB L1 L2) as (t & b & _ & RU & RD). split; [exact EX|]. rewrite EX.
  eapply surfaces_profile; [lia|apply resampled_surface; exact RU|apply resampled_surface; exact RD].
Qed.
Lemma voronoi_profile : forall cubic sample around voronoi cl n radius s,
  section_voronoi cubic sample around voronoi cl n radius = Ok s ->
  s_x s = linspace 0 1 n /\ let p := mkProfile (s_x s) (s_x s) (s_yup s) (s_ydown s) in
  uniform p /\ first (upper p) = Ok (0, 0) /\ first (lower p) = Ok (0, 0) /\ final (upper p) = Ok (1, 0) /\ final (lower p) = Ok (1, 0) /\
  update_edges p = Ok ((0, 0), (1, 0)).
Proof.
  intros cubic sample around voronoi cl n radius s H.
  apply section_voronoi_inv in H as (pts & cand & spline & le0 & te0 & full & le3 & te3 & cam3 & air3 & E1 & E2 & E3 & E4 & E5 & E6 & E7 & R0 & HN &
    NE & _ & _ & _ & _ & _ & ECh & EL & ET & EM & EA & EK & EX & fc & up & down & EF & ES & RU & RD).
  split; [exact EX|]. rewrite EX. eapply surfaces_profile; [exact HN|apply resampled_surface; exact RU|apply resampled_surface; exact RD].
Qed.
Lemma bladex_flat : forall cubic slice n radius c, (2 <= n <= 500)%nat -> slice radius n = Ok c ->
  snd (unroll radius (c_le c)) = snd (unroll radius (c_te c)) -> section_bladex cubic slice n radius = Err NonFinite.
Proof.
  intros cubic slice n radius c (H1 & H2) EC E. unfold section_bladex. rewrite (proj2 (Nat.ltb_ge n 2) H1), (proj2 (Nat.ltb_ge 500 n) H2), EC.
  cbn [bind]. unfold extract. rewrite (frame_flat _ _ E). reflexivity.
Qed.
Lemma bladex_lists : forall cubic slice rl n v, reverse_bladex cubic slice rl n = Ok v ->
  radii_list v = rl /\
  (forall j x, nth_error rl j = Some x -> exists s, section_bladex cubic slice n x = Ok s /\
     nth_error (pitch_list v) j = Some (s_pitch s) /\ nth_error (pitch_angles_list v) j = Some (angle (s_frame s)) /\
     nth_error (skew_angles_list v) j = Some (s_skew_angle s) /\ nth_error (skew_list v) j = Some (s_skew s) /\
     nth_error (rake_list v) j = Some (s_rake s) /\ nth_error (chord_length_list v) j = Some (s_chord s) /\
     nth_error (r_xup v) j = Some (s_x s) /\ nth_error (r_xdown v) j = Some (s_x s) /\
     nth_error (r_yup v) j = Some (s_yup s) /\ nth_error (r_ydown v) j = Some (s_ydown s)) /\
  List.length (pitch_list v) = List.length rl /\ List.length (pitch_angles_list v) = List.length rl /\
  List.length (skew_angles_list v) = List.length rl /\ List.length (skew_list v) = List.length rl /\
  List.length (rake_list v) = List.length rl /\ List.length (chord_length_list v) = List.length rl /\
  List.length (r_xup v) = List.length rl /\ List.length (r_xdown v) = List.length rl /\
  List.length (r_yup v) = List.length rl /\ List.length (r_ydown v) = List.length rl.
Proof.
  intros cubic slice rl n v H. pose proof H as H'. unfold reverse_bladex in H. apply bind_ok in H as (l & EL & H). injection H as <-.
  pose proof (map_length_all rl l (mapM_len _ _ _ EL)) as M. cbv zeta in M. split; [tauto|]. split; [|tauto].
  intros j x E. destruct (reverse_bladex_row _ _ _ _ _ _ _ H' E) as (s & ES & R). exists s. split; [exact ES|]. unfold row_of in R. tauto.
Qed.

(** ** When it succeeds *)
Lemma total_mapM : forall f xs, (forall x, exists y, f x = Ok y) -> exists ys, @mapM R R f xs = Ok ys.
Proof.
  intros f xs H. induction xs as [|x xs (ys & IH)]; [exists []; reflexivity|]. destruct (H x) as (y & E). exists (y :: ys). cbn [mapM]. rewrite E, IH. reflexivity.
Qed.
Lemma resample_ok : forall cubic n t b, total_interpolant cubic -> (2 <= n)%nat -> (2 <= List.length t)%nat -> (2 <= List.length b)%nat ->
  exists r, resample cubic n t b = Ok r.
Proof.
  intros cubic n t b HT HN L1 L2. unfold resample.
  destruct (pin_ok (lex_sort t)) as (t1 & -> & _); [rewrite lex_sort_length; exact L1|]. cbn [bind].
  destruct (pin_ok (lex_sort b)) as (b1 & -> & _); [rewrite lex_sort_length; exact L2|]. cbn [bind].
  destruct (HT (map fst t1) (map snd t1)) as (f1 & -> & F1). cbn [bind]. destruct (HT (map fst b1) (map snd b1)) as (f2 & -> & F2). cbn [bind].
  destruct (total_mapM f1 (linspace 0 1 n) F1) as (v1 & E1). rewrite E1. cbn [bind].
  destruct (zero_ok v1) as (w1 & -> & _); [rewrite (mapM_len _ _ _ E1), linspace_length; exact HN|]. cbn [bind].
  destruct (total_mapM f2 (linspace 0 1 n) F2) as (v2 & E2). rewrite E2. cbn [bind].
  destruct (zero_ok v2) as (w2 & -> & _); [rewrite (mapM_len _ _ _ E2), linspace_length; exact HN|]. cbn [bind]. eauto.
Qed.
Lemma pin_nonempty : forall l, l <> [] -> exists m, pin_ends l = Ok m.
Proof.
  intros [|p [|q l]] N; [contradiction|eexists; reflexivity|]. destruct (pin_ok (p :: q :: l)) as (m & E & _); [cbn; lia|]. eauto.
Qed.
Lemma bladex_succeeds : forall cubic slice n radius c, total_interpolant cubic -> (2 <= n <= 500)%nat -> slice radius n = Ok c -> radius <> 0 ->
  snd (unroll radius (c_le c)) <> snd (unroll radius (c_te c)) -> c_camber c <> [] ->
  (2 <= List.length (c_top c))%nat -> (2 <= List.length (c_bottom c))%nat -> exists s, section_bladex cubic slice n radius = Ok s.
Proof.
  intros cubic slice n radius c HT (H1 & H2) EC R0 NE NC L1 L2. unfold section_bladex. rewrite (proj2 (Nat.ltb_ge n 2) H1), (proj2 (Nat.ltb_ge 500 n) H2), EC.
  cbn [bind]. destruct (frame_ok _ _ NE) as (f & EF & _ & _ & _ & _ & _ & _ & FO & FN & FL & FT & FM). unfold extract. rewrite EF. cbn [bind].
  rewrite !(mapM_all _ _ _ FN), FL, FT, FM. cbn [bind].
  destruct (pin_nonempty (map (onto_chord (unroll radius (c_le c)) (unroll radius (c_te c))) (map (unroll_positive radius) (firstn n (c_camber c))))) as (m & EM).
  { destruct (c_camber c); [contradiction|]. destruct n; [lia|discriminate]. }
  rewrite EM. cbn [bind]. destruct (HT (map fst (lex_sort m)) (map snd (lex_sort m))) as (fc & -> & _). cbn [bind].
  rewrite !FO. cbn [bind]. unfold fdiv at 1. destruct (Req_EM_T radius 0); [contradiction|]. cbn [bind].
  unfold transform_top_bottom. rewrite !(mapM_all _ _ _ FN). cbn [bind].
  set (T := map (onto_chord (unroll radius (c_le c)) (unroll radius (c_te c))) (map (unroll radius) (c_top c))).
  set (B := map (onto_chord (unroll radius (c_le c)) (unroll radius (c_te c))) (map (unroll radius) (c_bottom c))).
  assert (LT : List.length T = List.length (c_top c)) by (unfold T; rewrite !map_length; reflexivity).
  assert (LB : List.length B = List.length (c_bottom c)) by (unfold B; rewrite !map_length; reflexivity).
  destruct (vmax_ok (map (fun p => Rabs (snd p)) T)) as (mx & EV); [destruct T; [cbn in LT; lia|discriminate]|].
  destruct (argmax_vmax _ _ EV) as (i & EI & EN). rewrite EI. cbn [bind].
  assert (IL : (i < List.length (map snd T))%nat).
  { pose proof (proj1 (nth_error_Some _ i) ltac:(rewrite EN; discriminate)) as IL. rewrite map_length in IL. rewrite map_length. exact IL. }
  unfold item. destruct (nth_error (map snd T) i) as [y|] eqn:EY; [|apply nth_error_Some in IL; contradiction]. cbn [bind].
  destruct (Rlt_dec y 0); cbn [bind fst snd].
  - destruct (resample_ok cubic n (negate_y T) (negate_y B) HT H1) as ([[nt nb] [[xs yu] yd]] & ->);
      [unfold negate_y; rewrite map_length; rewrite <- LT in L1; exact L1|unfold negate_y; rewrite map_length; rewrite <- LB in L2; exact L2|]. cbn [bind]. eauto.
  - destruct (resample_ok cubic n T B HT H1) as ([[nt nb] [[xs yu] yd]] & ->); [rewrite <- LT in L1; exact L1|rewrite <- LB in L2; exact L2|]. cbn [bind]. eauto.
Qed.
Lemma split_total : forall fc l, (forall x, exists y, fc x = Ok y) -> exists r, split_camber fc l = Ok r.
Proof.
  intros fc l H. induction l as [|p l (r & IH)]; [exists ([], []); reflexivity|]. cbn [split_camber].
  destruct (Rlt_dec (5 / 1000) (fst p)); [|eauto]. destruct (Rlt_dec (fst p) (995 / 1000)); [|eauto].
  destruct (H (Rmin (Rmax (fst p) 0) 1)) as (y & ->). rewrite IH. cbn [bind]. destruct (Rlt_dec y (snd p)); eauto.
Qed.
Lemma voronoi_succeeds : forall cubic sample around voronoi cl n radius pts cand spline le0 te0 full le3 te3 cam3 air3,
  total_interpolant cubic -> (2 <= n)%nat -> sample radius = Ok pts -> camber_candidates voronoi radius pts = Ok cand ->
  mapM (wind radius) cand = Ok spline -> cl radius spline = Ok (le0, te0, full) -> order_edges le0 te0 = (le3, te3) -> full le3 te3 = Ok cam3 ->
  around radius = Ok air3 -> radius <> 0 -> snd (unroll_positive radius le3) <> snd (unroll_positive radius te3) -> cam3 <> [] ->
  exists s, section_voronoi cubic sample around voronoi cl n radius = Ok s.
Proof.
  intros cubic sample around voronoi cl n radius pts cand spline le0 te0 full le3 te3 cam3 air3 HT H1 E1 E2 E3 E4 E5 E6 E7 R0 NE NC.
  unfold section_voronoi. rewrite (proj2 (Nat.ltb_ge n 2) H1), E1. cbn [bind]. rewrite E2. cbn [bind]. rewrite E3. cbn [bind]. rewrite E4. cbn [bind].
  rewrite E5, E6. cbn [bind]. rewrite E7. cbn [bind].
  destruct (frame_ok _ _ NE) as (f & EF & _ & _ & _ & _ & _ & _ & FO & FN & FL & FT & FM). unfold extract. rewrite EF. cbn [bind].
  rewrite !(mapM_all _ _ _ FN), FL, FT, FM. cbn [bind].
  destruct (pin_nonempty (map (onto_chord (unroll_positive radius le3) (unroll_positive radius te3)) (map (unroll_positive radius) cam3))) as (m & EM).
  { destruct cam3; [contradiction|discriminate]. }
  rewrite EM. cbn [bind]. destruct (HT (map fst (lex_sort m)) (map snd (lex_sort m))) as (fc & -> & TF). cbn [bind].
  rewrite !FO. cbn [bind]. unfold fdiv at 1. destruct (Req_EM_T radius 0); [contradiction|]. cbn [bind].
  match goal with |- context [split_camber fc ?l] => destruct (split_total fc l TF) as (r & ->) end. cbn [bind].
  match goal with |- context [resample cubic n ?t ?b] => destruct (resample_ok cubic n t b HT H1) as ([[nt nb] [[xs yu] yd]] & ->); [cbn; lia|cbn; lia|] end.
  cbn [bind]. eauto.
Qed.
