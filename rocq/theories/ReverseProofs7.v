From Coq Require Import Reals List Bool Lia Lra Permutation String.
From Coq Require Import List.
From Verif Require Import Base ProfileModel ProfileSpec ProfileProofs ProfileProofs2 ProfileProofs3 CustomProofs2 BladeModel BladeSpec BladeProofs BladeProofs2 BladeProofs3
  BladeProofs4 BladeProofs5 BladeProofs6 PathModel ReverseModel ReverseSpec ReverseProofs ReverseProofs2 ReverseProofs3 ReverseProofs4 ReverseProofs5 ReverseProofs6.
Import ListNotations.
Open Scope R_scope.

(** ** A table as interpolant *)
Fixpoint lookup (xs ys : list R) (x : R) : R :=
  match xs, ys with a :: xs', b :: ys' => if Req_EM_T a x then b else lookup xs' ys' x | _, _ => 0 end.
Definition table (xs ys : list R) : res (R -> res R) := Ok (fun x => Ok (lookup xs ys x)).
Lemma table_total : total_interpolant table.
Proof. intros xs ys. eexists. split; [reflexivity|]. intros x. eexists. reflexivity. Qed.
Lemma lookup_nth : forall xs ys i x y, NoDup xs -> nth_error xs i = Some x -> nth_error ys i = Some y -> lookup xs ys x = y.
Proof.
  induction xs as [|a xs IH]; intros [|b ys] [|i] x y N E1 E2; try discriminate; cbn [lookup nth_error] in *.
  - injection E1 as ->. injection E2 as ->. destruct (Req_EM_T x x); [reflexivity|contradiction].
  - inversion N as [|? ? NI N']; subst. destruct (Req_EM_T a x) as [->|_]; [|apply (IH ys i x y); auto].
    exfalso. apply NI. eapply nth_error_In. exact E1.
Qed.
Lemma table_interpolates : interpolates table.
Proof. intros xs ys f i x y N E E1 E2. injection E as <-. f_equal. eapply lookup_nth; eauto. Qed.

(** ** Reading a generated section succeeds *)
Lemma edges_apart : forall r P k sk refl c le te L, 0 < r -> c * L <> 0 -> psub te le = (L, 0) ->
  let F := fun a => seat r P k sk refl (sized c (pscale (1 / 2) (padd le te)) a) in snd (F le) <> snd (F te).
Proof.
  intros r P k sk refl c le te L Hr HC HD F. destruct (seat_edges r P k sk refl c le te L Hr HD) as (D1 & _).
  assert (CB : 0 < cos (atan (P / (2 * PI * r)))) by (apply cos_gt_0; pose proof (atan_bound (P / (2 * PI * r))); lra).
  intros E. assert (D2 : snd (F te) - snd (F le) = (if refl then - c else c) * L * cos (atan (P / (2 * PI * r)))) by (apply (f_equal snd) in D1; exact D1).
  assert (Z : (if refl then - c else c) * L * cos (atan (P / (2 * PI * r))) = 0) by lra.
  apply Rmult_integral in Z as [Z|Z]; [|lra]. apply HC. destruct refl; lra.
Qed.
Lemma reading_succeeds : forall refl st b st' b' up down, consistent b -> NoDup (sections b) ->
  Forall (fun r => r <> 0) (radii b) -> thickness b = None -> camber b = None ->
  (forall s, In s (sections b) -> uniform (st s)) ->
  apply_transformations refl st b = (st', b', Ok tt) -> coordinates b' = Built up down ->
  forall i s r c P k sk le te L, station b i s r c P k sk ->
    first (upper (st s)) = Ok le -> first (lower (st s)) = Ok le ->
    final (upper (st s)) = Ok te -> final (lower (st s)) = Ok te -> psub te le = (L, 0) -> c * L <> 0 ->
    0 < r -> r * Rabs (sk * (PI / 180)) + Rabs (c * L) / 2 < PI * r ->
  forall rowu rowd a z, nth_error up (List.length (sections b) - 1 - i) = Some rowu ->
    nth_error down (List.length (sections b) - 1 - i) = Some rowd -> first rowu = Ok a -> final rowu = Ok z ->
  forall cubic slice n ct, total_interpolant cubic -> (2 <= n <= 500)%nat -> slice (1000 * r) n = Ok ct ->
    (c_le ct = scale3 1000 a /\ c_te ct = scale3 1000 z) \/ (c_le ct = scale3 1000 z /\ c_te ct = scale3 1000 a) ->
    c_camber ct <> [] -> (2 <= List.length (c_top ct))%nat -> (2 <= List.length (c_bottom ct))%nat ->
  exists t, section_bladex cubic slice n (1000 * r) = Ok t.
Proof.
  intros refl st b st' b' up down C ND F T K U H HB i s r c P k sk le te L S A1 A2 A3 A4 HD HC Hr HR rowu rowd a z ER ED EA EZ
    cubic slice n ct HT HN HS HE NC L1 L2.
  destruct (station_planar refl st b st' b' up down C ND F T K U H HB i s r c P k sk le te S A1 A2 A3 A4) as (W1 & _).
  pose proof (edges_apart r P k sk refl c le te L Hr HC HD) as NE. cbv zeta in NE.
  set (Fn := fun a => seat r P k sk refl (sized c (pscale (1 / 2) (padd le te)) a)) in *.
  rewrite W1 in ER. injection ER as <-.
  apply (first_map Fn), (first_map (wrap r)) in A1. rewrite EA in A1. injection A1 as ->.
  apply (final_map Fn), (final_map (wrap r)) in A3. rewrite EZ in A3. injection A3 as ->.
  destruct (half_chord le te L HD) as (G1 & G2). rewrite (Rabs_mult c L) in HR.
  assert (I1 : in_range r (Fn le)) by (apply seat_range; [exact Hr|rewrite G1; lra]).
  assert (I2 : in_range r (Fn te)) by (apply seat_range; [exact Hr|rewrite G2; lra]).
  apply (bladex_succeeds cubic slice n (1000 * r) ct); auto; [lra|].
  destruct HE as [(-> & ->)|(-> & ->)]; rewrite !unroll_wrap by assumption; unfold pscale; cbn [snd]; change (snd (Fn le) <> snd (Fn te)) in NE; lra.
Qed.

(** What a section reads on the blade itself. *)
Definition cut_of (ru rd : list pt3) (a z : pt3) : cut :=
  mkCut (scale3 1000 a) (scale3 1000 z) (map (scale3 1000) ru) (map (scale3 1000) ru) (map (scale3 1000) ru) (map (scale3 1000) rd).
Lemma two_blade_read : exists st' b' up down ru rd a z v,
  apply_transformations false foil_store two_blade = (st', b', Ok tt) /\ coordinates b' = Built up down /\
  nth_error up 0 = Some ru /\ nth_error down 0 = Some rd /\ first ru = Ok a /\ final ru = Ok z /\
  reverse_bladex table (fun _ _ => Ok (cut_of ru rd a z)) [1000 * 2] 3 = Ok v.
Proof.
  destruct two_blade_good as (C & NE & ND & F & T & K & U & S).
  destruct (two_blade_applied false) as (st' & b' & H).
  destruct (apply_sections _ _ _ _ _ C H) as (_ & _ & up & down & EB & _ & _ & W).
  destruct (W _ _ _ _ _ _ _ S) as (W1 & W2). cbn [List.length sections two_blade Nat.sub] in W1, W2.
  assert (U' : forall s, In s (sections two_blade) -> uniform (foil_store s)) by (intros s I; apply (U s I)).
  destruct (station_planar false _ _ _ _ _ _ C ND F T K U' H EB _ _ _ _ _ _ _ (0, 0) (1, 0) S eq_refl eq_refl eq_refl eq_refl) as (V1 & V2).
  cbn [List.length sections two_blade Nat.sub] in V1, V2.
  set (Fn := fun a : pt => seat 2 4 (1 / 5) 10 false (sized (1 / 4) (pscale (1 / 2) (padd (0, 0) (1, 0))) a)) in *.
  assert (E1 : first (map (wrap 2) (map Fn (upper (foil_store 1%nat)))) = Ok (wrap 2 (Fn (0, 0)))) by reflexivity.
  assert (E2 : final (map (wrap 2) (map Fn (upper (foil_store 1%nat)))) = Ok (wrap 2 (Fn (1, 0)))) by reflexivity.
  set (ru := map (wrap 2) (map Fn (upper (foil_store 1%nat)))) in *. set (rd := map (wrap 2) (map Fn (lower (foil_store 1%nat)))) in *.
  destruct (reading_succeeds false _ _ _ _ _ _ C ND F T K U' H EB _ _ _ _ _ _ _ (0, 0) (1, 0) 1 S eq_refl eq_refl eq_refl eq_refl) with
    (rowu := ru) (rowd := rd) (a := wrap 2 (Fn (0, 0))) (z := wrap 2 (Fn (1, 0))) (cubic := table) (n := 3%nat)
    (slice := fun (_ : R) (_ : nat) => Ok (cut_of ru rd (wrap 2 (Fn (0, 0))) (wrap 2 (Fn (1, 0)))))
    (ct := cut_of ru rd (wrap 2 (Fn (0, 0))) (wrap 2 (Fn (1, 0)))) as (t & ET); auto using table_total.
  - unfold psub. cbn [fst snd]. f_equal; ring.
  - lra.
  - lra.
  - pose proof PI_RGT_0. rewrite (Rabs_right (1 / 4 * 1)) by lra. rewrite (Rabs_right (10 * (PI / 180))) by lra. pose proof PI2_1. lra.
  - lia.
  - discriminate.
  - unfold cut_of, c_top. rewrite map_length. cbn. lia.
  - unfold cut_of, c_bottom. rewrite map_length. cbn. lia.
  - exists st', b', up, down, ru, rd, (wrap 2 (Fn (0, 0))), (wrap 2 (Fn (1, 0))). eexists. do 6 (split; [assumption|]).
    unfold reverse_bladex. cbn [mapM]. rewrite ET. reflexivity.
Qed.

(** ** The class ReversePropeller and a blade that crosses the half plane y = 0, z > 0 *)
Lemma unroll_positive_wrap : forall r a, 0 < r -> - PI < snd a / r < PI ->
  unroll_positive (1000 * r) (scale3 1000 (wrap r a)) =
    (1000 * fst a, 1000 * (if Rlt_dec (snd a) 0 then snd a + 2 * PI * r else snd a)).
Proof.
  intros r [x y] Hr Hy. cbn [fst snd] in *. pose proof PI_RGT_0. unfold unroll_positive, scale3, wrap. cbn [fst snd]. f_equal.
  set (t := y / r) in *. assert (EY : y = r * t) by (unfold t; field; lra).
  replace (1000 * (r * sin t)) with (1000 * r * sin t) by ring. replace (1000 * (r * cos t)) with (1000 * r * cos t) by ring.
  rewrite arctan2_polar by lra. rewrite EY. destruct (Rlt_dec t 0) as [Q|Q], (Rlt_dec (r * t) 0) as [Q'|Q'].
  - ring.
  - exfalso. apply Q'. nra.
  - exfalso. apply Q. nra.
  - ring.
Qed.

Definition plain_blade : blade :=
  mkBlade [0%nat] [1] [1 / 2] [3] [1 / 10] [0] None None NoCoords None None None None.
Lemma plain_blade_good : consistent plain_blade /\ sections plain_blade <> [] /\ NoDup (sections plain_blade) /\
  Forall (fun r => r <> 0) (radii plain_blade) /\ thickness plain_blade = None /\ camber plain_blade = None /\
  (forall s, In s (sections plain_blade) -> uniform (foil_store s)) /\ station plain_blade 0 0 1 (1 / 2) 3 (1 / 10) 0.
Proof.
  split; [repeat split|]. split; [discriminate|]. split; [constructor; [intros []|constructor]|].
  split; [repeat constructor; lra|]. split; [reflexivity|]. split; [reflexivity|].
  split; [|constructor; reflexivity]. intros s _. destruct foil3_facts as (A & _). exact A.
Qed.
Lemma plain_applied : exists st' b', apply_transformations false foil_store plain_blade = (st', b', Ok tt).
Proof.
  destruct plain_blade_good as (C & NE & ND & F & T & K & U & _).
  destruct (build_succeeds point_surface false foil_store plain_blade 3) as (st' & b' & H); auto using point_surface_total.
  - intros s I. destruct foil3_facts as (A & B & _ & R). split; [exact A|]. split; [exact B|]. exists (1 / 2, 0). exact R.
  - apply build_inv in H as (b1 & _ & _ & H & _). eauto.
Qed.

(** A run of the class ReversePropeller in which the edges are [a] and [z]. *)
Definition full_of (l t : pt3) : res (list pt3) := Ok [l; t].
Definition line_of (a z : pt3) : R -> list pt3 -> res (pt3 * pt3 * (pt3 -> pt3 -> res (list pt3))) :=
  fun _ _ => Ok (a, z, full_of).
Lemma voronoi_run : forall a z r n, 0 < r -> (2 <= n)%nat ->
  snd (unroll_positive (1000 * r) a) <> snd (unroll_positive (1000 * r) z) ->
  exists s, section_voronoi table (fun _ => Ok [a; z]) (fun _ => Ok [a; z]) (fun _ => Ok []) (line_of a z) n (1000 * r) = Ok s.
Proof.
  intros a z r n Hr Hn N. destruct (order_edges a z) as [l t] eqn:E. pose proof (order_edges_spec _ _ _ _ E) as (_ & O).
  eapply (voronoi_succeeds table _ _ _ _ n (1000 * r) [a; z] [] [] a z full_of l t [l; t] [a; z]); auto using table_total; try reflexivity.
  - lra.
  - destruct O as [(-> & ->)|(-> & ->)]; auto.
  - discriminate.
Qed.
Lemma straddling_chord : exists st' b' up down row a z cubic sample around voronoi cl v ch,
  apply_transformations false foil_store plain_blade = (st', b', Ok tt) /\ coordinates b' = Built up down /\
  nth_error up 0 = Some row /\ first row = Ok a /\ final row = Ok z /\
  reverse_voronoi cubic sample around voronoi cl [1000 * 1] 3 = Ok v /\
  (forall spline x y full, cl (1000 * 1) spline = Ok (x, y, full) -> x = scale3 1000 a /\ y = scale3 1000 z) /\
  chord_length_list v = [ch] /\ 3 < ch.
Proof.
  destruct plain_blade_good as (C & NE & ND & F & T & K & U & S). destruct plain_applied as (st' & b' & H).
  destruct (apply_sections _ _ _ _ _ C H) as (_ & _ & up & down & EB & _ & _ & W).
  destruct (station_planar false _ _ _ _ _ _ C ND F T K U H EB _ _ _ _ _ _ _ (0, 0) (1, 0) S eq_refl eq_refl eq_refl eq_refl) as (V1 & V2).
  cbn [List.length sections plain_blade Nat.sub] in V1, V2.
  assert (HD : psub (1, 0) (0, 0) = (1, 0)) by (unfold psub; cbn [fst snd]; f_equal; ring).
  destruct (seat_edges 1 3 (1 / 10) 0 false (1 / 2) (0, 0) (1, 0) 1 ltac:(lra) HD) as (D1 & D2).
  destruct (half_chord (0, 0) (1, 0) 1 HD) as (G1 & G2).
  pose proof PI2_1 as P1. rewrite Rabs_R1 in G1, G2.
  assert (I1 := strict_range 1 3 (1 / 10) 0 false (1 / 2) (pscale (1 / 2) (padd (0, 0) (1, 0))) (0, 0) ltac:(lra)).
  rewrite G1 in I1. specialize (I1 ltac:(rewrite Rmult_0_l, Rabs_R0, Rabs_right by lra; lra)).
  assert (I2 := strict_range 1 3 (1 / 10) 0 false (1 / 2) (pscale (1 / 2) (padd (0, 0) (1, 0))) (1, 0) ltac:(lra)).
  rewrite G2 in I2. specialize (I2 ltac:(rewrite Rmult_0_l, Rabs_R0, Rabs_right by lra; lra)).
  set (Fn := fun a : pt => seat 1 3 (1 / 10) 0 false (sized (1 / 2) (pscale (1 / 2) (padd (0, 0) (1, 0))) a)) in *.
  set (A := seat 1 3 (1 / 10) 0 false (sized (1 / 2) (pscale (1 / 2) (padd (0, 0) (1, 0))) (0, 0))) in *.
  set (B := seat 1 3 (1 / 10) 0 false (sized (1 / 2) (pscale (1 / 2) (padd (0, 0) (1, 0))) (1, 0))) in *.
  assert (CB : 0 < cos (atan (3 / (2 * PI * 1)))) by (apply cos_gt_0; pose proof (atan_bound (3 / (2 * PI * 1))); lra).
  assert (CM : cos (atan (3 / (2 * PI * 1))) <= 1) by apply COS_bound.
  assert (Y1 : snd B - snd A = 1 / 2 * 1 * cos (atan (3 / (2 * PI * 1)))) by (apply (f_equal snd) in D1; exact D1).
  assert (Y2 : 1 / 2 * (snd A + snd B) = 0). { apply (f_equal snd) in D2. unfold pscale, padd in D2. cbn [snd] in D2. rewrite D2. ring. }
  assert (QA : unroll_positive (1000 * 1) (scale3 1000 (wrap 1 A)) = (1000 * fst A, 1000 * (snd A + 2 * PI * 1))).
  { rewrite unroll_positive_wrap by (assumption || lra). destruct (Rlt_dec (snd A) 0); [reflexivity|lra]. }
  assert (QB : unroll_positive (1000 * 1) (scale3 1000 (wrap 1 B)) = (1000 * fst B, 1000 * snd B)).
  { rewrite unroll_positive_wrap by (assumption || lra). destruct (Rlt_dec (snd B) 0); [lra|reflexivity]. }
  destruct (voronoi_run (scale3 1000 (wrap 1 A)) (scale3 1000 (wrap 1 B)) 1 3) as (s & ES); [lra|lia| |].
  { rewrite QA, QB. cbn [snd]. lra. }
  exists st', b', up, down. eexists. exists (wrap 1 A), (wrap 1 B).
  exists table. do 3 eexists. exists (line_of (scale3 1000 (wrap 1 A)) (scale3 1000 (wrap 1 B))). eexists. exists (s_chord s).
  split; [exact H|]. split; [exact EB|]. split; [exact V1|]. split; [reflexivity|]. split; [reflexivity|].
  split; [unfold reverse_voronoi; cbn [mapM]; rewrite ES; reflexivity|].
  split; [intros spline x y full [= <- <- _]; auto|]. split; [reflexivity|].
  apply section_voronoi_inv in ES as (pts & cand & spline & le0 & te0 & full & le3 & te3 & cam3 & air3 & _ & _ & _ & E4 & E5 & _ & _ & _ & _ & _ & _ & _ & _ & _ & _ & ECh & _).
  assert (Q0 : scale3 1000 (wrap 1 A) = le0 /\ scale3 1000 (wrap 1 B) = te0).
  { unfold line_of in E4. clear - E4. set (u := scale3 1000 (wrap 1 A)) in *. set (w := scale3 1000 (wrap 1 B)) in *. clearbody u w. injection E4 as E1 E2 _. auto. }
  destruct Q0 as (<- & <-). apply order_edges_spec in E5 as (_ & O). rewrite ECh.
  assert (PD : pdist (unroll_positive (1000 * 1) le3) (unroll_positive (1000 * 1) te3) =
     pdist (1000 * fst A, 1000 * (snd A + 2 * PI * 1)) (1000 * fst B, 1000 * snd B)).
  { destruct O as [(-> & ->)|(-> & ->)]; rewrite QA, QB; [reflexivity|apply pdist_sym]. }
  rewrite PD. unfold pdist, pnorm, psub. cbn [fst snd].
  match goal with |- _ < sqrt (?x * ?x + ?y * ?y) / 1000 => pose proof (sqrt_bound y x) as SB; rewrite (Rplus_comm (y * y)) in SB;
    assert (YY : 3000 < y) by lra end.
  rewrite Rabs_right in SB by lra. lra.
Qed.
(** The same blade turned by half a revolution. *)
Lemma turned_read : exists st' b' up down row a z cubic sample around voronoi cl v,
  apply_transformations false foil_store plain_blade = (st', b', Ok tt) /\ coordinates b' = Built up down /\
  nth_error up 0 = Some row /\ first row = Ok a /\ final row = Ok z /\
  reverse_voronoi cubic sample around voronoi cl [1000 * 1] 3 = Ok v /\
  (forall spline x y full, cl (1000 * 1) spline = Ok (x, y, full) -> x = scale3 1000 (half_turn a) /\ y = scale3 1000 (half_turn z)).
Proof.
  destruct plain_blade_good as (C & NE & ND & F & T & K & U & S). destruct plain_applied as (st' & b' & H).
  destruct (apply_sections _ _ _ _ _ C H) as (_ & _ & up & down & EB & _ & _ & W).
  destruct (station_planar false _ _ _ _ _ _ C ND F T K U H EB _ _ _ _ _ _ _ (0, 0) (1, 0) S eq_refl eq_refl eq_refl eq_refl) as (V1 & V2).
  cbn [List.length sections plain_blade Nat.sub] in V1, V2.
  assert (HD : psub (1, 0) (0, 0) = (1, 0)) by (unfold psub; cbn [fst snd]; f_equal; ring).
  pose proof (edges_apart 1 3 (1 / 10) 0 false (1 / 2) (0, 0) (1, 0) 1 ltac:(lra) ltac:(lra) HD) as NA. cbv zeta in NA.
  destruct (half_chord (0, 0) (1, 0) 1 HD) as (G1 & G2).
  pose proof PI2_1 as P1. rewrite Rabs_R1 in G1, G2.
  assert (I1 := strict_range 1 3 (1 / 10) 0 false (1 / 2) (pscale (1 / 2) (padd (0, 0) (1, 0))) (0, 0) ltac:(lra)).
  rewrite G1 in I1. specialize (I1 ltac:(rewrite Rmult_0_l, Rabs_R0, Rabs_right by lra; lra)).
  assert (I2 := strict_range 1 3 (1 / 10) 0 false (1 / 2) (pscale (1 / 2) (padd (0, 0) (1, 0))) (1, 0) ltac:(lra)).
  rewrite G2 in I2. specialize (I2 ltac:(rewrite Rmult_0_l, Rabs_R0, Rabs_right by lra; lra)).
  set (A := seat 1 3 (1 / 10) 0 false (sized (1 / 2) (pscale (1 / 2) (padd (0, 0) (1, 0))) (0, 0))) in *.
  set (B := seat 1 3 (1 / 10) 0 false (sized (1 / 2) (pscale (1 / 2) (padd (0, 0) (1, 0))) (1, 0))) in *.
  destruct (voronoi_run (scale3 1000 (half_turn (wrap 1 A))) (scale3 1000 (half_turn (wrap 1 B))) 1 3) as (s & ES); [lra|lia| |].
  { rewrite !unroll_half by (assumption || lra). cbn [snd]. lra. }
  exists st', b', up, down. eexists. exists (wrap 1 A), (wrap 1 B).
  exists table. do 3 eexists. exists (line_of (scale3 1000 (half_turn (wrap 1 A))) (scale3 1000 (half_turn (wrap 1 B)))). eexists.
  split; [exact H|]. split; [exact EB|]. split; [exact V1|]. split; [reflexivity|]. split; [reflexivity|].
  split; [unfold reverse_voronoi; cbn [mapM]; rewrite ES; reflexivity|].
  intros spline x y full [= <- <- _]; auto.
Qed.
