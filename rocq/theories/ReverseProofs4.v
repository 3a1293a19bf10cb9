From Coq Require Import Reals List Bool Lia Lra Permutation.
From Verif Require Import Base ProfileModel ProfileSpec ProfileProofs ProfileProofs2 ProfileProofs3 CustomProofs2 BladeModel BladeSpec BladeProofs BladeProofs2 BladeProofs3
  PathModel ReverseModel ReverseSpec ReverseProofs ReverseProofs2 ReverseProofs3.
Import ListNotations.
Open Scope R_scope.

(** ** Rows of the object *)
Definition row_of (v : reversed) (j : nat) (s : section) : Prop :=
  nth_error (pitch_angles_list v) j = Some (angle (s_frame s)) /\ nth_error (pitch_list v) j = Some (s_pitch s) /\
  nth_error (skew_angles_list v) j = Some (s_skew_angle s) /\ nth_error (skew_list v) j = Some (s_skew s) /\
  nth_error (rake_list v) j = Some (s_rake s) /\ nth_error (chord_length_list v) j = Some (s_chord s) /\
  nth_error (r_xup v) j = Some (s_x s) /\ nth_error (r_xdown v) j = Some (s_x s) /\
  nth_error (r_yup v) j = Some (s_yup s) /\ nth_error (r_ydown v) j = Some (s_ydown s).
Lemma collect_row : forall rl l j s, nth_error l j = Some s -> row_of (collect rl l) j s.
Proof.
  intros rl l j s H. unfold row_of, collect.
  cbn [pitch_angles_list pitch_list skew_angles_list skew_list rake_list chord_length_list r_xup r_xdown r_yup r_ydown].
  repeat split; rewrite nth_error_map, H; reflexivity.
Qed.
Lemma reverse_bladex_row : forall cubic slice rl n v j x, reverse_bladex cubic slice rl n = Ok v -> nth_error rl j = Some x ->
  exists s, section_bladex cubic slice n x = Ok s /\ row_of v j s.
Proof.
  intros cubic slice rl n v j x H E. unfold reverse_bladex in H. apply bind_ok in H as (l & EL & H). injection H as <-.
  destruct (mapM_nth _ _ _ EL) as (_ & Q & _). destruct (Q _ _ E) as (s & N & ES). exists s. split; [exact ES|]. apply collect_row. exact N.
Qed.
Lemma reverse_voronoi_row : forall cubic sample around voronoi cl rl n v j x, reverse_voronoi cubic sample around voronoi cl rl n = Ok v -> nth_error rl j = Some x ->
  exists s, section_voronoi cubic sample around voronoi cl n x = Ok s /\ row_of v j s.
Proof.
  intros cubic sample around voronoi cl rl n v j x H E. unfold reverse_voronoi in H. apply bind_ok in H as (l & EL & H). injection H as <-.
  destruct (mapM_nth _ _ _ EL) as (_ & Q & _). destruct (Q _ _ E) as (s & N & ES). exists s. split; [exact ES|]. apply collect_row. exact N.
Qed.
Lemma map_length_all : forall rl l, List.length l = List.length rl -> let v := collect rl l in
  radii_list v = rl /\ List.length (pitch_angles_list v) = List.length rl /\ List.length (pitch_list v) = List.length rl /\
  List.length (skew_angles_list v) = List.length rl /\ List.length (skew_list v) = List.length rl /\
  List.length (rake_list v) = List.length rl /\ List.length (chord_length_list v) = List.length rl /\
  List.length (r_xup v) = List.length rl /\ List.length (r_xdown v) = List.length rl /\
  List.length (r_yup v) = List.length rl /\ List.length (r_ydown v) = List.length rl.
Proof.
  intros rl l H v. unfold v, collect. cbn [radii_list pitch_angles_list pitch_list skew_angles_list skew_list rake_list chord_length_list r_xup r_xdown r_yup r_ydown].
  rewrite !map_length. tauto.
Qed.

(** ** A blade *)
Lemma station_planar : forall refl st b st' b' up down, consistent b -> NoDup (sections b) ->
  Forall (fun r => r <> 0) (radii b) -> thickness b = None -> camber b = None ->
  (forall s, In s (sections b) -> uniform (st s)) ->
  apply_transformations refl st b = (st', b', Ok tt) -> coordinates b' = Built up down ->
  forall i s r c P k sk le te, station b i s r c P k sk ->
    first (upper (st s)) = Ok le -> first (lower (st s)) = Ok le ->
    final (upper (st s)) = Ok te -> final (lower (st s)) = Ok te ->
    let F := fun a => seat r P k sk refl (sized c (pscale (1 / 2) (padd le te)) a) in
    nth_error up (List.length (sections b) - 1 - i) = Some (map (wrap r) (map F (upper (st s)))) /\
    nth_error down (List.length (sections b) - 1 - i) = Some (map (wrap r) (map F (lower (st s)))).
Proof.
  intros refl st b st' b' up down C ND F T K U H HB i s r c P k sk le te S A1 A2 A3 A4.
  destruct (apply_places _ _ _ _ _ C ND F T K U H) as (A & _).
  destruct (A _ _ _ _ _ _ _ S) as (ref & R & M).
  assert (Us : uniform (st s)) by (apply U; eapply nth_error_In, (st_section _ _ _ _ _ _ _ _ S)).
  rewrite (closed_reference _ le te Us A1 A2 A3 A4) in R. injection R as <-.
  destruct (apply_sections _ _ _ _ _ C H) as (_ & _ & up' & down' & EB & _ & _ & W).
  rewrite HB in EB. injection EB as <- <-. destruct (W _ _ _ _ _ _ _ S) as (W1 & W2).
  destruct M as (_ & M1 & M2). rewrite M1 in W1. rewrite M2 in W2. cbv zeta. auto.
Qed.
Lemma first_map : forall {A B} (f : A -> B) l a, first l = Ok a -> first (map f l) = Ok (f a).
Proof. intros A B f [|x l] a H; [discriminate|]. injection H as <-. reflexivity. Qed.
Lemma final_map : forall {A B} (f : A -> B) l a, final l = Ok a -> final (map f l) = Ok (f a).
Proof.
  intros A B f l a H. induction l as [|x l IH]; [discriminate|]. destruct l as [|y l]; [injection H as <-; reflexivity|].
  cbn [map]. cbn [map] in IH. apply IH. exact H.
Qed.

Lemma half_chord : forall le te L, psub te le = (L, 0) ->
  pdist le (pscale (1 / 2) (padd le te)) = Rabs L / 2 /\ pdist te (pscale (1 / 2) (padd le te)) = Rabs L / 2.
Proof.
  intros [lx ly] [tx ty] L H. unfold psub in H. cbn [fst snd] in H. injection H as D1 D2.
  assert (tx = lx + L) as -> by lra. assert (ty = ly) as -> by lra. unfold pdist, pnorm, psub, pscale, padd. cbn [fst snd].
  assert (E : Rabs L / 2 = Rabs (L / 2)) by (unfold Rdiv; rewrite Rabs_mult, (Rabs_right (/ 2)); lra).
  rewrite E, <- sqrt_Rsqr_abs. unfold Rsqr. split; f_equal; field.
Qed.

Lemma parameters_recovered : forall refl st b st' b' up down, consistent b -> NoDup (sections b) ->
  Forall (fun r => r <> 0) (radii b) -> thickness b = None -> camber b = None ->
  (forall s, In s (sections b) -> uniform (st s)) ->
  apply_transformations refl st b = (st', b', Ok tt) -> coordinates b' = Built up down ->
  forall i s r c P k sk le te L, station b i s r c P k sk ->
    first (upper (st s)) = Ok le -> first (lower (st s)) = Ok le ->
    final (upper (st s)) = Ok te -> final (lower (st s)) = Ok te -> psub te le = (L, 0) ->
    0 < r -> r * Rabs (sk * (PI / 180)) + Rabs (c * L) / 2 < PI * r ->
  forall row a z, nth_error up (List.length (sections b) - 1 - i) = Some row -> first row = Ok a -> final row = Ok z ->
  forall cubic slice rl n v j ct, reverse_bladex cubic slice rl n = Ok v -> nth_error rl j = Some (1000 * r) ->
    slice (1000 * r) n = Ok ct ->
    (c_le ct = scale3 1000 a /\ c_te ct = scale3 1000 z) \/ (c_le ct = scale3 1000 z /\ c_te ct = scale3 1000 a) ->
  nth_error (pitch_list v) j = Some (Rabs P) /\ nth_error (skew_angles_list v) j = Some sk /\
  nth_error (rake_list v) j = Some k /\ nth_error (chord_length_list v) j = Some (Rabs (c * L)) /\
  nth_error (skew_list v) j = Some (- (r * (sk * (PI / 180)))).
Proof.
  intros refl st b st' b' up down C ND F T K U H HB i s r c P k sk le te L S A1 A2 A3 A4 HD Hr HR row a z ER EA EZ
    cubic slice rl n v j ct HV HJ HC HE.
  destruct (station_planar refl st b st' b' up down C ND F T K U H HB i s r c P k sk le te S A1 A2 A3 A4) as (W1 & _).
  set (Fn := fun a => seat r P k sk refl (sized c (pscale (1 / 2) (padd le te)) a)) in *.
  rewrite W1 in ER. injection ER as <-.
  apply (first_map Fn), (first_map (wrap r)) in A1. rewrite EA in A1. injection A1 as ->.
  apply (final_map Fn), (final_map (wrap r)) in A3. rewrite EZ in A3. injection A3 as ->.
  destruct (reverse_bladex_row _ _ _ _ _ _ _ HV HJ) as (s0 & HS & R1 & R2 & R3 & R4 & R5 & R6 & _).
  rewrite R2, R3, R4, R5, R6. destruct (seat_edges r P k sk refl c le te L Hr HD) as (D1 & D2).
  destruct (half_chord le te L HD) as (G1 & G2). rewrite (Rabs_mult c L) in HR.
  assert (I1 : in_range r (Fn le)) by (apply seat_range; [exact Hr|rewrite G1; lra]).
  assert (I2 : in_range r (Fn te)) by (apply seat_range; [exact Hr|rewrite G2; lra]).
  destruct (recovered cubic slice n s0 P r k sk _ (Fn le) (Fn te) ct Hr I1 I2 D1 D2 HS HC HE) as (-> & -> & -> & -> & ->).
  repeat split. f_equal. rewrite !Rabs_mult. destruct refl; rewrite ?Rabs_Ropp; reflexivity.
Qed.

(** ** The profile *)
Lemma ordered_map : forall {A B} (P : A -> A -> Prop) (Q : B -> B -> Prop) (f : A -> B) l, (forall a b, P a b -> Q (f a) (f b)) ->
  ordered P l -> ordered Q (map f l).
Proof. intros A B P Q f l H O. induction O; cbn [map] in *; constructor; auto. Qed.
Lemma pinned_id : forall l m a z, pinned l m -> first l = Ok a -> final l = Ok z -> fst a = 0 -> fst z = 1 -> m = l.
Proof.
  intros l m a z (p & q & mid & -> & ->) H1 H2 E1 E2. injection H1 as ->.
  assert (F : final (a :: mid ++ [q]) = Ok q).
  { clear. change (a :: mid ++ [q]) with ((a :: mid) ++ [q]). generalize (a :: mid). intros l. induction l as [|x l IH]; [reflexivity|].
    cbn [app]. destruct (l ++ [q]) eqn:E; [destruct l; discriminate|]. rewrite <- IH. reflexivity. }
  rewrite F in H2. injection H2 as ->. destruct a as [ax ay], z as [zx zy]. cbn [fst snd] in *. subst. reflexivity.
Qed.
Lemma up_oriented : forall (N B top bot : list pt), (forall a, In a N -> 0 <= snd a) -> (exists a, In a N /\ 0 < snd a) ->
  oriented (map flip_y N) B top bot -> top = N /\ bot = map flip_y B.
Proof.
  intros N B top bot HN (a & IA & PA) (i & y & EI & EY & O).
  assert (FF : forall l, map flip_y (map flip_y l) = l).
  { intros l. rewrite map_map. transitivity (map (fun p : pt => p) l); [|apply map_id]. apply map_ext. intros [u w]. unfold flip_y. cbn [fst snd]. f_equal. ring. }
  assert (Y : y < 0).
  { set (l := map (fun p => Rabs (snd p)) (map flip_y N)) in *.
    assert (I : In (Rabs (snd (flip_y a))) l) by (unfold l; apply (in_map (fun p => Rabs (snd p))), in_map, IA).
    destruct (vmax_ok l) as (m & EM); [intros E; rewrite E in I; exact I|].
    destruct (argmax_vmax l m EM) as (i' & EI' & Em). rewrite EI in EI'. injection EI' as <-.
    apply vmax_spec in EM as (_ & BM). specialize (BM _ I). unfold flip_y in BM. cbn [snd] in BM. rewrite Rabs_Ropp, Rabs_right in BM by lra.
    unfold l in Em. rewrite map_map in Em. rewrite map_map in EY. rewrite nth_error_map in Em. rewrite nth_error_map in EY.
    destruct (nth_error N i) as [p|] eqn:EN; [|discriminate Em]. cbn [option_map] in Em, EY. inversion Em; subst m. inversion EY; subst y.
    apply nth_error_In in EN. specialize (HN _ EN). unfold flip_y in *. cbn [snd] in *. rewrite Rabs_Ropp, Rabs_right in BM by lra. lra. }
  destruct O as [(_ & -> & ->)|(Y' & _)]; [|lra]. split; [apply FF|reflexivity].
Qed.
Lemma flip_flip : forall l, map flip_y (map flip_y l) = l.
Proof. intros l. rewrite map_map. transitivity (map (fun p : pt => p) l); [|apply map_id]. apply map_ext. intros [u w]. unfold flip_y. cbn [fst snd]. f_equal. ring. Qed.


Lemma nodes_kept : forall cubic n le te L l nodes ys, 0 < L -> psub te le = (L, 0) ->
  first l = Ok le -> final l = Ok te -> ordered (fun a b => fst a < fst b) l ->
  resampled cubic n (map (in_chord le L) l) nodes ys -> nodes = map (in_chord le L) l.
Proof.
  intros cubic n [lx ly] [tx ty] L l nodes ys HL HD E1 E2 O (PN & _). unfold psub in HD. cbn [fst snd] in HD. injection HD as D1 D2.
  rewrite lex_sort_id in PN.
  - apply (pinned_id _ _ (in_chord (lx, ly) L (lx, ly)) (in_chord (lx, ly) L (tx, ty)) PN (first_map _ _ _ E1) (final_map _ _ _ E2));
      unfold in_chord, pscale, psub; cbn [fst snd]; [ring|]. rewrite D1. field. lra.
  - apply (ordered_map (fun a b => fst a < fst b) lex); [|exact O]. intros a b H. left. unfold in_chord, pscale, psub. cbn [fst snd].
    apply Rmult_lt_compat_l; [apply Rinv_0_lt_compat; exact HL|lra].
Qed.
Lemma mapM_nodes : forall f xs ys, (forall i x y, nth_error xs i = Some x -> nth_error ys i = Some y -> f x = Ok y) ->
  List.length xs = List.length ys -> @mapM R R f xs = Ok ys.
Proof.
  intros f xs. induction xs as [|x xs IH]; intros [|y ys] H L; try discriminate; [reflexivity|].
  cbn [mapM]. rewrite (H 0%nat x y eq_refl eq_refl). cbn [bind]. rewrite (IH ys); [reflexivity| |injection L; auto].
  intros i u w E1 E2. exact (H (S i) u w E1 E2).
Qed.
Lemma final_snoc : forall {A} (l : list A) q, final (l ++ [q]) = Ok q.
Proof.
  intros A l q. induction l as [|x l IH]; [reflexivity|]. cbn [app]. destruct (l ++ [q]) eqn:E; [destruct l; discriminate|]. rewrite <- IH. reflexivity.
Qed.
Lemma zeroed_id : forall l m, zeroed l m -> first l = Ok 0 -> final l = Ok 0 -> m = l.
Proof.
  intros l m (a & b & mid & -> & ->) H1 H2. injection H1 as ->.
  change (0 :: mid ++ [b]) with ((0 :: mid) ++ [b]) in H2. rewrite final_snoc in H2. injection H2 as ->. reflexivity.
Qed.
Lemma ordered_lt_nodup : forall l, ordered Rlt l -> NoDup l.
Proof.
  assert (K : forall l a, ordered Rlt (a :: l) -> forall x, In x l -> a < x).
  { induction l as [|b l IH]; intros a O x I; [destruct I|]. inversion O as [| |? ? ? Q O']; subst. destruct I as [<-|I]; [exact Q|].
    specialize (IH b O' x I). lra. }
  induction l as [|a l IH]; intros O; [constructor|]. constructor.
  - intros I. specialize (K l a O a I). lra.
  - apply IH. inversion O; subst; [constructor|assumption].
Qed.
Lemma rows_kept : forall cubic n le te L l nodes ys, interpolates cubic -> 0 < L -> psub te le = (L, 0) ->
  first l = Ok le -> final l = Ok te -> ordered (fun a b => fst a < fst b) l ->
  map (fun a => fst (in_chord le L a)) l = linspace 0 1 n ->
  resampled cubic n (map (in_chord le L) l) nodes ys -> ys = map (fun a => snd (in_chord le L a)) l.
Proof.
  intros cubic n le te L l nodes ys HI HL HD E1 E2 O EX RS.
  pose proof (nodes_kept cubic n le te L l nodes ys HL HD E1 E2 O RS) as ->.
  destruct RS as (_ & f & vs & EF & EV & Z). rewrite !map_map in EF.
  assert (V : mapM f (linspace 0 1 n) = Ok (map (fun a => snd (in_chord le L a)) l)).
  { rewrite <- EX. apply mapM_nodes; [|rewrite !map_length; reflexivity]. intros i x y. refine (HI _ _ _ i x y _ EF).
    apply ordered_lt_nodup, (ordered_map (fun a b : pt => fst a < fst b)); [|exact O]. intros a b Q. unfold in_chord, pscale, psub. cbn [fst].
    apply Rmult_lt_compat_l; [apply Rinv_0_lt_compat; exact HL|lra]. }
  rewrite V in EV. injection EV as <-. apply zeroed_id; [exact Z| |].
  - rewrite (first_map _ _ _ E1). apply f_equal. unfold in_chord, pscale, psub. cbn [snd]. ring.
  - rewrite (final_map _ _ _ E2). apply f_equal. unfold psub in HD. injection HD as D1 D2. unfold in_chord, pscale, psub. cbn [snd]. rewrite D2. ring.
Qed.

Lemma onto_seats : forall r P k sk refl c le te L a, 0 < r -> c <> 0 -> L <> 0 -> psub te le = (L, 0) ->
  let F := fun x => seat r P k sk refl (sized c (pscale (1 / 2) (padd le te)) x) in
  in_range r (F le) -> in_range r (F te) -> in_range r (F a) -> snd (F le) <> snd (F te) ->
  onto_chord (unroll (1000 * r) (scale3 1000 (wrap r (F le)))) (unroll (1000 * r) (scale3 1000 (wrap r (F te))))
     (unroll (1000 * r) (scale3 1000 (wrap r (F a)))) = flip_y (in_chord le L a).
Proof.
  intros r P k sk refl c le te L a Hr Hc HL HD F I1 I2 I3 N. rewrite !unroll_wrap by assumption.
  rewrite onto_scale; [|intros E; apply N; rewrite E; reflexivity].
  exact (seat_normalised r P k sk refl c le te L a Hr Hc HL HD).
Qed.
Lemma final_in : forall {A} (l : list A) x, final l = Ok x -> In x l.
Proof.
  intros A l x H. induction l as [|y l IH]; [discriminate|]. destruct l as [|z l]; [injection H as ->; left; reflexivity|right; apply IH; exact H].
Qed.
Lemma first_in : forall {A} (l : list A) x, first l = Ok x -> In x l.
Proof. intros A [|y l] x H; [discriminate|]. injection H as ->. left. reflexivity. Qed.
Lemma two_points : forall (l : list pt) a z, first l = Ok a -> final l = Ok z -> a <> z -> (2 <= List.length l)%nat.
Proof. intros [|x [|y l]] a z H1 H2 N; [discriminate| |cbn; lia]. injection H1 as ->. injection H2 as ->. contradiction. Qed.

Lemma section_recovered : forall refl st b st' b' up down, consistent b -> NoDup (sections b) ->
  Forall (fun r => r <> 0) (radii b) -> thickness b = None -> camber b = None ->
  (forall s, In s (sections b) -> uniform (st s)) ->
  apply_transformations refl st b = (st', b', Ok tt) -> coordinates b' = Built up down ->
  forall i s r c P k sk le te L, station b i s r c P k sk ->
    first (upper (st s)) = Ok le -> first (lower (st s)) = Ok le ->
    final (upper (st s)) = Ok te -> final (lower (st s)) = Ok te -> psub te le = (L, 0) -> 0 < L -> c <> 0 ->
    0 < r ->
    (forall a, In a (upper (st s)) \/ In a (lower (st s)) ->
       r * Rabs (sk * (PI / 180)) + Rabs c * pdist a (pscale (1 / 2) (padd le te)) < PI * r) ->
    (forall a, In a (upper (st s)) -> snd le <= snd a) -> (exists a, In a (upper (st s)) /\ snd le < snd a) ->
  forall rowu rowd a z, nth_error up (List.length (sections b) - 1 - i) = Some rowu ->
    nth_error down (List.length (sections b) - 1 - i) = Some rowd -> first rowu = Ok a -> final rowu = Ok z ->
  forall cubic slice n ct t, section_bladex cubic slice n (1000 * r) = Ok t ->
    slice (1000 * r) n = Ok ct -> c_le ct = scale3 1000 a -> c_te ct = scale3 1000 z ->
    c_top ct = map (scale3 1000) rowu -> c_bottom ct = map (scale3 1000) rowd ->
  resampled cubic n (map (in_chord le L) (upper (st s))) (s_top t) (s_yup t) /\
  resampled cubic n (map (in_chord le L) (lower (st s))) (s_bottom t) (s_ydown t) /\ s_x t = linspace 0 1 n.
Proof.
  intros refl st b st' b' up down C ND F T K U H HB i s r c P k sk le te L S A1 A2 A3 A4 HD HL Hc Hr HR HU HP
    rowu rowd a z ERu ERd EA EZ cubic slice n ct t HS HC HE1 HE2 HT HBt.
  destruct (station_planar refl st b st' b' up down C ND F T K U H HB i s r c P k sk le te S A1 A2 A3 A4) as (W1 & W2).
  set (Fn := fun a => seat r P k sk refl (sized c (pscale (1 / 2) (padd le te)) a)) in *.
  rewrite W1 in ERu. injection ERu as <-. rewrite W2 in ERd. injection ERd as <-.
  pose proof (first_map (wrap r) _ _ (first_map Fn _ _ A1)) as Q. rewrite EA in Q. injection Q as ->.
  pose proof (final_map (wrap r) _ _ (final_map Fn _ _ A3)) as Q. rewrite EZ in Q. injection Q as ->.
  apply section_bladex_inv in HS as (c' & EC & _ & _ & NE & _ & _ & _ & _ & _ & _ & _ & _ & _ & _ & EX & TB & _).
  rewrite HC in EC. injection EC as <-. split; [|split; [|exact EX]]; revert TB.
  all: assert (RG : forall a, In a (upper (st s)) \/ In a (lower (st s)) -> in_range r (Fn a)) by (intros a I; apply seat_range; auto).
  all: assert (NL : le <> te) by (intros ->; destruct te; unfold psub in HD; cbn [fst snd] in HD; injection HD as D1 _; lra).
  all: rewrite HE1, HE2 in *; rewrite HT, HBt, !map_length, !map_map.
  all: assert (R1 : in_range r (Fn le)) by (apply RG; left; apply first_in; exact A1).
  all: assert (R2 : in_range r (Fn te)) by (apply RG; left; apply final_in; exact A3).
  all: assert (N : snd (Fn le) <> snd (Fn te)) by (rewrite !unroll_wrap in NE by assumption; unfold pscale in NE; cbn [snd] in NE; lra).
  all: assert (EU : map (fun x => onto_chord (unroll (1000 * r) (scale3 1000 (wrap r (Fn le)))) (unroll (1000 * r) (scale3 1000 (wrap r (Fn te))))
     (unroll (1000 * r) (scale3 1000 (wrap r (Fn x))))) (upper (st s)) = map flip_y (map (in_chord le L) (upper (st s))))
     by (rewrite map_map; apply map_ext_in; intros x I; exact (onto_seats r P k sk refl c le te L x Hr Hc (Rgt_not_eq _ _ HL) HD R1 R2 (RG x ltac:(auto)) N)).
  all: assert (ED : map (fun x => onto_chord (unroll (1000 * r) (scale3 1000 (wrap r (Fn le)))) (unroll (1000 * r) (scale3 1000 (wrap r (Fn te))))
     (unroll (1000 * r) (scale3 1000 (wrap r (Fn x))))) (lower (st s)) = map flip_y (map (in_chord le L) (lower (st s))))
     by (rewrite map_map; apply map_ext_in; intros x I; exact (onto_seats r P k sk refl c le te L x Hr Hc (Rgt_not_eq _ _ HL) HD R1 R2 (RG x ltac:(auto)) N)).
  all: intros TB; destruct TB as (top & bot & O & Ru & Rd);
    [apply (two_points _ le te); assumption|apply (two_points _ le te); assumption|].
  all: rewrite EU, ED in O; apply up_oriented in O as (-> & ->);
    [rewrite flip_flip in Rd; assumption
    |intros x I; apply in_map_iff in I as (y & <- & I); specialize (HU _ I); unfold in_chord, pscale, psub; cbn [snd];
       apply Rmult_le_pos; [left; apply Rinv_0_lt_compat; exact HL|lra]
    |destruct HP as (y & I & PY); exists (in_chord le L y); split; [apply in_map; exact I|]; unfold in_chord, pscale, psub; cbn [snd];
       apply Rmult_lt_0_compat; [apply Rinv_0_lt_compat; exact HL|lra]].
Qed.
