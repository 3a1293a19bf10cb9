(** Proofs: geometry of the placement, repeated use of sections, overrides,
    order of the sections (C44 - C49). *)
From Coq Require Import Reals List ZArith String Lra Lia Bool.
From Verif Require Import Base ProfileModel ProfileSpec ProfileProofs ProfileProofs2 ProfileProofs3 BladeModel BladeSpec BladeProofs BladeProofs2.
Import ListNotations.
Open Scope R_scope.

(** ** Geometry *)
Lemma seat_dist : forall r P k sk refl a b, pdist (seat r P k sk refl a) (seat r P k sk refl b) = pdist a b.
Proof.
  intros. unfold seat. rewrite pdist_padd, prot_dist. destruct refl; [apply pdist_pneg|reflexivity].
Qed.

Lemma sized_dist : forall c ref a b, pdist (sized c ref a) (sized c ref b) = Rabs c * pdist a b.
Proof.
  intros c ref a b. unfold pdist. rewrite <- pnorm_scale. f_equal.
  unfold sized, psub, pscale; cbn [fst snd]. f_equal; ring.
Qed.

Lemma moved_dist : forall f p q n, (forall a b, pdist (f a) (f b) = n * pdist a b) -> moved f p q ->
  List.length (points q) = List.length (points p) /\
  forall i j a b a' b', nth_error (points p) i = Some a -> nth_error (points p) j = Some b ->
    nth_error (points q) i = Some a' -> nth_error (points q) j = Some b' ->
    pdist a' b' = n * pdist a b.
Proof.
  intros f p q n H (U & A & B).
  assert (E : points q = map f (points p)) by (unfold points; rewrite A, B, map_app; reflexivity).
  rewrite E. split; [apply map_length|]. intros i j a b a' b' Hi Hj Hi' Hj'.
  rewrite (map_nth_error f _ _ Hi) in Hi'. rewrite (map_nth_error f _ _ Hj) in Hj'.
  injection Hi' as <-. injection Hj' as <-. apply H.
Qed.

Lemma apply_shape : forall refl st b st' b', consistent b -> NoDup (sections b) ->
  Forall (fun r => r <> 0) (radii b) -> thickness b = None -> camber b = None ->
  (forall s, In s (sections b) -> uniform (st s)) ->
  apply_transformations refl st b = (st', b', Ok tt) ->
  forall i s r c P k sk, station b i s r c P k sk ->
    List.length (points (st' s)) = List.length (points (st s)) /\
    forall m n a a' d d', nth_error (points (st s)) m = Some a -> nth_error (points (st s)) n = Some d ->
      nth_error (points (st' s)) m = Some a' -> nth_error (points (st' s)) n = Some d' ->
      pdist a' d' = Rabs c * pdist a d.
Proof.
  intros refl st b st' b' C ND F T K U H i s r c P k sk S.
  destruct (apply_places _ _ _ _ _ C ND F T K U H) as (A & _).
  destruct (A _ _ _ _ _ _ _ S) as (ref & R & M).
  destruct (moved_dist _ _ _ (Rabs c) (fun a d => eq_trans (seat_dist r P k sk refl (sized c ref a) (sized c ref d)) (sized_dist c ref a d)) M) as (L & D).
  split; auto. intros m n a a' d d' Hm Hn Hm' Hn'. eapply D; eauto.
Qed.

Lemma seat_reflect : forall r P k sk a, let o := seat r P k sk false (0, 0) in
  seat r P k sk true a = psub (pscale 2 o) (seat r P k sk false a).
Proof.
  intros r P k sk [x y] o. unfold o, seat, padd, psub, pscale, prot, pneg; cbn [fst snd]. f_equal; ring.
Qed.

Lemma seat_zero : forall r P k sk refl, seat r P k sk refl (0, 0) =
  (- (k + sk * (PI / 180) * P / (2 * PI)), - (r * (sk * (PI / 180)))).
Proof. intros. destruct refl; unfold seat, padd, prot, pneg; cbn [fst snd]; f_equal; ring. Qed.

Lemma apply_reflected : forall st b st1 b1 st2 b2, consistent b -> NoDup (sections b) ->
  Forall (fun r => r <> 0) (radii b) -> thickness b = None -> camber b = None ->
  (forall s, In s (sections b) -> uniform (st s)) ->
  apply_transformations true st b = (st1, b1, Ok tt) -> apply_transformations false st b = (st2, b2, Ok tt) ->
  forall i s r c P k sk, station b i s r c P k sk ->
    points (st1 s) = map (psub (pscale 2 (- (k + sk * (PI / 180) * P / (2 * PI)), - (r * (sk * (PI / 180)))))) (points (st2 s)).
Proof.
  intros st b st1 b1 st2 b2 C ND F T K U H1 H2 i s r c P k sk S.
  destruct (apply_places _ _ _ _ _ C ND F T K U H1) as (A1 & _).
  destruct (apply_places _ _ _ _ _ C ND F T K U H2) as (A2 & _).
  destruct (A1 _ _ _ _ _ _ _ S) as (ref & R & _ & X1 & Y1).
  destruct (A2 _ _ _ _ _ _ _ S) as (ref' & R' & _ & X2 & Y2). rewrite R in R'. injection R' as <-.
  unfold points. rewrite X1, Y1, X2, Y2, !map_app, !map_map.
  f_equal; apply map_ext; intros a; rewrite seat_reflect, seat_zero; reflexivity.
Qed.

(** Edges of the placed section. *)
Lemma first_in : forall {A} (l : list A) x, first l = Ok x -> In x l.
Proof. intros A [|y l] x H; [discriminate|]. injection H as ->. left; auto. Qed.

Lemma moved_ends : forall f p q, moved f p q ->
  (forall a, first (upper p) = Ok a -> first (upper q) = Ok (f a)) /\
  (forall a, first (lower p) = Ok a -> first (lower q) = Ok (f a)) /\
  (forall a, final (upper p) = Ok a -> final (upper q) = Ok (f a)) /\
  (forall a, final (lower p) = Ok a -> final (lower q) = Ok (f a)).
Proof.
  intros f p q (_ & A & B). rewrite A, B.
  repeat split; intros a H; rewrite ?first_map, ?final_map, H; reflexivity.
Qed.

Lemma closed_moved : forall f p q, closed p -> moved f p q -> closed q.
Proof.
  intros f p q (le & te & A & B & C & D) M. destruct (moved_ends _ _ _ M) as (W & X & Y & Z).
  exists (f le), (f te). auto.
Qed.

Lemma first_combine : forall (a b : list R) x, first (combine a b) = Ok x -> first a = Ok (fst x) /\ first b = Ok (snd x).
Proof. intros [|x a] [|y b] p H; try discriminate. injection H as <-. auto. Qed.
Lemma final_combine : forall (a b : list R) x, List.length a = List.length b -> final (combine a b) = Ok x ->
  final a = Ok (fst x) /\ final b = Ok (snd x).
Proof.
  induction a as [|x a IH]; intros [|y b] p L H; try discriminate.
  destruct a as [|x' a], b as [|y' b]; try discriminate.
  - injection H as <-. auto.
  - apply (IH (y' :: b) p); auto.
Qed.

Lemma closed_edges : forall p le te, uniform p -> first (upper p) = Ok le -> first (lower p) = Ok le ->
  final (upper p) = Ok te -> final (lower p) = Ok te -> update_edges p = Ok (le, te).
Proof.
  intros p le te (U1 & U2 & U3) A B C D. unfold upper, lower in *.
  apply first_combine in A as (A1 & A2). apply first_combine in B as (B1 & B2).
  apply final_combine in C as (C1 & C2); [|auto]. apply final_combine in D as (D1 & D2); [|auto].
  unfold update_edges. rewrite A1, B1, A2, C1, C2, D1, D2. cbn [bind].
  assert (Z : forall x, ~ edge_tol < Rabs (x - x)).
  { intros x. unfold edge_tol. rewrite Rminus_diag_eq, Rabs_R0 by reflexivity. lra. }
  destruct (Rlt_dec edge_tol (Rabs (fst le - fst le))) as [Q|_]; [exfalso; exact (Z _ Q)|].
  destruct (Rlt_dec edge_tol (Rabs (fst te - fst te))) as [Q|_]; [exfalso; exact (Z _ Q)|].
  destruct (Req_EM_T (snd te) (snd te)) as [_|Q]; [|contradiction].
  destruct le, te. reflexivity.
Qed.

Lemma closed_reference : forall p le te, uniform p -> first (upper p) = Ok le -> first (lower p) = Ok le ->
  final (upper p) = Ok te -> final (lower p) = Ok te ->
  reference_point p = Ok (pscale (1 / 2) (padd le te)).
Proof.
  intros p le te U A B C D. unfold reference_point. rewrite (closed_edges p le te U A B C D). cbn [bind fst snd].
  unfold pscale, padd; cbn [fst snd]. apply (f_equal Ok), f_equal2; lra.
Qed.

(** Closed unit profile: where the edges go. *)
Lemma placed_edges : forall refl st b st' b', consistent b -> NoDup (sections b) ->
  Forall (fun r => r <> 0) (radii b) -> thickness b = None -> camber b = None ->
  (forall s, In s (sections b) -> uniform (st s)) ->
  apply_transformations refl st b = (st', b', Ok tt) ->
  forall i s r c P k sk le te, station b i s r c P k sk ->
    first (upper (st s)) = Ok le -> first (lower (st s)) = Ok le ->
    final (upper (st s)) = Ok te -> final (lower (st s)) = Ok te -> psub te le = (1, 0) ->
    exists le' te', first (upper (st' s)) = Ok le' /\ first (lower (st' s)) = Ok le' /\
      final (upper (st' s)) = Ok te' /\ final (lower (st' s)) = Ok te' /\
      psub te' le' = pscale (if refl then - c else c)
         (sin (atan (P / (2 * PI * r))), cos (atan (P / (2 * PI * r)))) /\
      pscale (1 / 2) (padd le' te') =
         (- (k + sk * (PI / 180) * P / (2 * PI)), - (r * (sk * (PI / 180)))) /\
      wrap r (pscale (1 / 2) (padd le' te')) =
         (- (k + sk * (PI / 180) * P / (2 * PI)), - (r * sin (sk * (PI / 180))), r * cos (sk * (PI / 180))).
Proof.
  intros refl st b st' b' C ND F T K U H i s r c P k sk le te S A1 A2 A3 A4 HV.
  destruct (apply_places _ _ _ _ _ C ND F T K U H) as (A & _).
  destruct (A _ _ _ _ _ _ _ S) as (ref & R & M).
  assert (Us : uniform (st s)) by (apply U; eapply nth_error_In, (st_section _ _ _ _ _ _ _ _ S)).
  rewrite (closed_reference _ le te Us A1 A2 A3 A4) in R. injection R as <-.
  destruct (moved_ends _ _ _ M) as (W & X & Y & Z).
  assert (Hr : r <> 0) by (rewrite Forall_forall in F; apply F; eapply nth_error_In, (st_radius _ _ _ _ _ _ _ _ S)).
  set (a := atan (P / (2 * PI * r))).
  assert (HM : pscale (1 / 2) (padd (seat r P k sk refl (sized c (pscale (1 / 2) (padd le te)) le))
       (seat r P k sk refl (sized c (pscale (1 / 2) (padd le te)) te))) =
       (- (k + sk * (PI / 180) * P / (2 * PI)), - (r * (sk * (PI / 180))))).
  { destruct le as [lx ly], te as [tx ty]. unfold seat, sized, padd, pscale, psub, prot, pneg; cbn [fst snd].
    destruct refl; cbn [fst snd]; f_equal; field; pose proof PI_RGT_0; lra. }
  exists (seat r P k sk refl (sized c (pscale (1 / 2) (padd le te)) le)),
         (seat r P k sk refl (sized c (pscale (1 / 2) (padd le te)) te)).
  split; auto. split; auto. split; auto. split; auto. split; [|split].
  - destruct le as [lx ly], te as [tx ty]. unfold psub in HV; cbn [fst snd] in HV.
    injection HV as V1 V2.
    unfold seat, sized, padd, pscale, psub, prot, pneg; cbn [fst snd].
    fold a. rewrite cos_shift, sin_shift.
    replace tx with (lx + 1) by lra. replace ty with ly by lra.
    destruct refl; cbn [fst snd]; f_equal; ring.
  - exact HM.
  - rewrite HM. unfold wrap; cbn [fst snd].
    replace (- (r * (sk * (PI / 180))) / r) with (- (sk * (PI / 180))) by (field; auto).
    rewrite sin_neg, cos_neg. apply f_equal2; [apply f_equal2; [reflexivity|ring]|reflexivity].
Qed.

(** ** Repeated use *)
Lemma transform_visits : forall b refl is st st',
  consistent b -> Forall (fun r => r <> 0) (radii b) -> thickness b = None -> camber b = None ->
  (forall s, In s (sections b) -> uniform (st s)) -> (forall i, In i is -> (i < List.length (sections b))%nat) ->
  transform_sections b refl is st = (st', Ok tt) ->
  forall s, visits b refl s is (st s) (st' s).
Proof.
  intros b refl is. induction is as [|i is IH]; intros st st' C F T K U HI H s; cbn [transform_sections] in H.
  - injection H as <-. constructor.
  - destruct (consistent_station b i C (HI i (or_introl eq_refl))) as (s0 & r & c & P & k & sk & S).
    rewrite (st_section _ _ _ _ _ _ _ _ S) in H.
    destruct (run_steps (section_steps b refl i) (st s0)) as [p [[]|e]] eqn:ER; [|discriminate].
    assert (Hr : r <> 0) by (rewrite Forall_forall in F; apply F; eapply nth_error_In, (st_radius _ _ _ _ _ _ _ _ S)).
    assert (Us : uniform (st s0)) by (apply U; eapply nth_error_In, (st_section _ _ _ _ _ _ _ _ S)).
    destruct (section_inv b refl i s0 r c P k sk _ _ S Hr Us ER) as (ref & p1 & p2 & p3 & R & M1 & E2 & E3 & M).
    rewrite T in E2. rewrite K in E3. subst p3 p2.
    assert (M' : moved (fun a => seat r P k sk refl (sized c ref a)) (st s0) p) by (eapply moved_compose; [exact M1|apply M, M1]).
    assert (V : visits b refl s is (upd st s0 p s) (st' s)).
    { apply (IH (upd st s0 p) st' C F T K); auto.
      - intros t Ht. destruct (Nat.eq_dec t s0) as [->|N]; [rewrite upd_same; apply M'|rewrite upd_other by auto; auto].
      - intros j Hj. apply HI. right; auto. }
    destruct (Nat.eq_dec s s0) as [->|N].
    + rewrite upd_same in V. eapply v_use; eauto.
    + rewrite upd_other in V by auto. apply v_skip; auto. rewrite (st_section _ _ _ _ _ _ _ _ S). congruence.
Qed.

Lemma apply_visits : forall refl st b st' b', consistent b ->
  Forall (fun r => r <> 0) (radii b) -> thickness b = None -> camber b = None ->
  (forall s, In s (sections b) -> uniform (st s)) ->
  apply_transformations refl st b = (st', b', Ok tt) ->
  forall s, visits b refl s (seq 0 (List.length (sections b))) (st s) (st' s).
Proof.
  intros refl st b st' b' C F T K U H s. apply apply_inv in H as (up & down & HT & _ & _).
  eapply transform_visits; eauto. intros i Hi. apply in_seq in Hi. lia.
Qed.

(** A section object used at two radii. *)
Lemma apply_shared : forall refl st b st' b' s, consistent b -> sections b = [s; s] ->
  Forall (fun r => r <> 0) (radii b) -> thickness b = None -> camber b = None -> uniform (st s) ->
  apply_transformations refl st b = (st', b', Ok tt) ->
  exists r0 c0 P0 k0 sk0 r1 c1 P1 k1 sk1 ref0 ref1 q,
    station b 0 s r0 c0 P0 k0 sk0 /\ station b 1 s r1 c1 P1 k1 sk1 /\
    reference_point (st s) = Ok ref0 /\ moved (fun a => seat r0 P0 k0 sk0 refl (sized c0 ref0 a)) (st s) q /\
    reference_point q = Ok ref1 /\ moved (fun a => seat r1 P1 k1 sk1 refl (sized c1 ref1 a)) q (st' s) /\
    coordinates b' = Built [map (wrap r1) (upper (st' s)); map (wrap r0) (upper (st' s))]
                           [map (wrap r1) (lower (st' s)); map (wrap r0) (lower (st' s))].
Proof.
  intros refl st b st' b' s C Hs F T K U H.
  assert (V : visits b refl s (seq 0 (List.length (sections b))) (st s) (st' s)).
  { eapply apply_visits; eauto. intros t Ht. rewrite Hs in Ht. destruct Ht as [<-|[<-|[]]]; auto. }
  destruct (apply_sections _ _ _ _ _ C H) as (_ & _ & up & down & Hc & L1 & L2 & W).
  rewrite Hs in V, L1, L2. cbn [List.length seq] in V, L1, L2.
  inversion V as [|? ? ? ? N|i is r0 c0 P0 k0 sk0 ref0 p p' q S0 R0 M0 V1]; subst.
  { exfalso. apply N. rewrite Hs. reflexivity. }
  inversion V1 as [|? ? ? ? N|i is r1 c1 P1 k1 sk1 ref1 p q' q S1 R1 M1 V2]; subst.
  { exfalso. apply N. rewrite Hs. reflexivity. }
  inversion V2; subst.
  exists r0, c0, P0, k0, sk0, r1, c1, P1, k1, sk1, ref0, ref1, p'.
  split; auto. split; auto. split; auto. split; auto. split; auto. split; auto.
  destruct (W _ _ _ _ _ _ _ S0) as (A & B). destruct (W _ _ _ _ _ _ _ S1) as (A' & B').
  rewrite Hs in A, B, A', B'. cbn in A, B, A', B'. rewrite Hc.
  destruct up as [|u0 [|u1 [|]]]; try discriminate. destruct down as [|d0 [|d1 [|]]]; try discriminate.
  cbn in *. injection A as ->. injection B as ->. injection A' as ->. injection B' as ->. reflexivity.
Qed.

Lemma seat_sized_no_fixed_pair : forall r P k sk refl c ref a b, c <> 0 -> a <> b ->
  ~ (seat r P k sk refl (sized c ref a) = a /\ seat r P k sk refl (sized c ref b) = b).
Proof.
  intros r P k sk refl c ref [ax ay] [bx by_] Hc Hab (A & B).
  assert (HC : 0 < cos (atan (P / (2 * PI * r)))).
  { pose proof (atan_bound (P / (2 * PI * r))). apply cos_gt_0; lra. }
  unfold seat, sized, padd, pscale, psub, prot, pneg in A, B; cbn [fst snd] in A, B.
  rewrite cos_shift, sin_shift in A, B.
  set (C := cos (atan (P / (2 * PI * r)))) in *. set (Z := sin (atan (P / (2 * PI * r)))) in *.
  set (m := if refl then - c else c).
  assert (E1 : m * (Z * (ax - bx) - C * (ay - by_)) = ax - bx).
  { unfold m. destruct refl; cbn [fst snd] in A, B; injection A as A1 A2; injection B as B1 B2; rewrite <- A1 at 2; rewrite <- B1 at 2; ring. }
  assert (E2 : m * (C * (ax - bx) + Z * (ay - by_)) = ay - by_).
  { unfold m. destruct refl; cbn [fst snd] in A, B; injection A as A1 A2; injection B as B1 B2; rewrite <- A2 at 2; rewrite <- B2 at 2; ring. }
  clearbody C Z.
  assert (Q : m * C * ((ax - bx) * (ax - bx) + (ay - by_) * (ay - by_)) = 0).
  { transitivity ((ax - bx) * (m * (C * (ax - bx) + Z * (ay - by_))) - (ay - by_) * (m * (Z * (ax - bx) - C * (ay - by_)))); [ring|].
    rewrite E1, E2. ring. }
  assert (Hm : m <> 0) by (unfold m; destruct refl; lra).
  assert (D : (ax - bx) * (ax - bx) + (ay - by_) * (ay - by_) <> 0).
  { intros D. apply Hab. pose proof (Rle_0_sqr (ax - bx)) as S1. pose proof (Rle_0_sqr (ay - by_)) as S2. unfold Rsqr in *.
    assert (T1 : (ax - bx) * (ax - bx) = 0) by lra. assert (T2 : (ay - by_) * (ay - by_) = 0) by lra.
    apply Rsqr_0_uniq in T1. apply Rsqr_0_uniq in T2. f_equal; lra. }
  apply Rmult_integral in Q as [Q|Q]; [|contradiction]. apply Rmult_integral in Q as [Q|Q]; lra.
Qed.

Lemma moved_points : forall f p q, moved f p q -> points q = map f (points p).
Proof. intros f p q (_ & A & B). unfold points. rewrite A, B, map_app. reflexivity. Qed.

Lemma map_fixed : forall {A} (f : A -> A) l x, map f l = l -> In x l -> f x = x.
Proof. intros A f. induction l as [|y l IH]; intros x E []; injection E as E1 E2; [congruence|auto]. Qed.

(** The second call. *)
Lemma apply_twice_differs : forall refl refl' st b st1 b1 st2 b2, consistent b -> NoDup (sections b) ->
  Forall (fun r => r <> 0) (radii b) -> thickness b = None -> camber b = None ->
  (forall s, In s (sections b) -> uniform (st s)) ->
  apply_transformations refl st b = (st1, b1, Ok tt) ->
  apply_transformations refl' st1 b1 = (st2, b2, Ok tt) ->
  forall i s r c P k sk a d, station b i s r c P k sk -> c <> 0 ->
    In a (points (st s)) -> In d (points (st s)) -> a <> d -> st2 s <> st1 s.
Proof.
  intros refl refl' st b st1 b1 st2 b2 C ND F T K U H1 H2 i s r c P k sk a d S Hc Ha Hd Had E.
  destruct (apply_places _ _ _ _ _ C ND F T K U H1) as (A1 & _).
  destruct (apply_sections _ _ _ _ _ C H1) as ((e1 & e2 & e3 & e4 & e5 & e6 & e7 & e8) & _ & _).
  assert (C1 : consistent b1) by (unfold consistent in *; rewrite <- e1, <- e2, <- e3, <- e4, <- e5, <- e6; exact C).
  assert (S1 : station b1 i s r c P k sk) by (destruct S; constructor; congruence).
  destruct (apply_places refl' st1 b1 st2 b2 C1) as (A2 & _); auto; try congruence.
  { intros t Ht. rewrite <- e1 in Ht. apply In_nth_error in Ht as (j & Hj).
    assert (L : (j < List.length (sections b))%nat) by (apply nth_error_Some; rewrite Hj; discriminate).
    destruct (consistent_station b j C L) as (t' & r' & c' & P' & k' & sk' & S').
    rewrite (st_section _ _ _ _ _ _ _ _ S') in Hj. injection Hj as ->.
    destruct (A1 _ _ _ _ _ _ _ S') as (ref & _ & M). apply M. }
  destruct (A1 _ _ _ _ _ _ _ S) as (ref & _ & M). destruct (A2 _ _ _ _ _ _ _ S1) as (ref' & _ & M').
  rewrite E in M'. apply moved_points in M, M'.
  assert (I : forall x, In x (points (st s)) -> In (seat r P k sk refl (sized c ref x)) (points (st1 s))).
  { intros x Hx. rewrite M. apply in_map_iff. eauto. }
  apply (seat_sized_no_fixed_pair r P k sk refl' c ref' (seat r P k sk refl (sized c ref a)) (seat r P k sk refl (sized c ref d)) Hc).
  - intros Q. apply Had.
    assert (D : pdist (seat r P k sk refl (sized c ref a)) (seat r P k sk refl (sized c ref d)) = Rabs c * pdist a d).
    { rewrite seat_dist. apply sized_dist. }
    rewrite Q in D. unfold pdist at 1 in D. unfold psub, pnorm in D; cbn [fst snd] in D.
    rewrite !Rminus_diag_eq, Rmult_0_l, Rplus_0_l, sqrt_0 in D by reflexivity.
    symmetry in D. apply Rmult_integral in D as [D|D]; [exfalso; exact (Rabs_no_R0 c Hc D)|].
    unfold pdist, pnorm, psub in D. destruct a as [ax ay], d as [dx dy]; cbn [fst snd] in D.
    pose proof (Rle_0_sqr (ax - dx)) as X1. pose proof (Rle_0_sqr (ay - dy)) as X2. unfold Rsqr in *.
    apply sqrt_eq_0 in D; [|lra].
    assert (T1 : (ax - dx) * (ax - dx) = 0) by lra. assert (T2 : (ay - dy) * (ay - dy) = 0) by lra.
    apply Rsqr_0_uniq in T1. apply Rsqr_0_uniq in T2. f_equal; lra.
  - symmetry in M'. split; [exact (map_fixed _ _ _ M' (I a Ha))|exact (map_fixed _ _ _ M' (I d Hd))].
Qed.

(** Closed sections can be transformed again. *)
Lemma apply_again : forall refl refl' st b st1 b1 m, consistent b -> sections b <> [] -> NoDup (sections b) ->
  Forall (fun r => r <> 0) (radii b) -> thickness b = None -> camber b = None ->
  (forall s, In s (sections b) -> uniform (st s) /\ List.length (xup (st s)) = m /\ closed (st s)) ->
  apply_transformations refl st b = (st1, b1, Ok tt) ->
  exists st2 b2, apply_transformations refl' st1 b1 = (st2, b2, Ok tt).
Proof.
  intros refl refl' st b st1 b1 m C NE ND F T K U H1.
  destruct (apply_places _ _ _ _ _ C ND F T K (fun s H => proj1 (U s H)) H1) as (A1 & _).
  destruct (apply_sections _ _ _ _ _ C H1) as ((e1 & e2 & e3 & e4 & e5 & e6 & e7 & e8) & _ & _).
  apply (apply_succeeds refl' st1 b1 m); try congruence.
  - unfold consistent in *; rewrite <- e1, <- e2, <- e3, <- e4, <- e5, <- e6; exact C.
  - intros t Ht. rewrite <- e1 in Ht. destruct (U t Ht) as (Ut & Lt & Ct). apply In_nth_error in Ht as (j & Hj).
    assert (L : (j < List.length (sections b))%nat) by (apply nth_error_Some; rewrite Hj; discriminate).
    destruct (consistent_station b j C L) as (t' & r' & c' & P' & k' & sk' & S').
    rewrite (st_section _ _ _ _ _ _ _ _ S') in Hj. injection Hj as ->.
    destruct (A1 _ _ _ _ _ _ _ S') as (ref & _ & M).
    split; [apply M|]. split; [erewrite moved_length; eauto|].
    destruct (closed_moved _ _ _ Ct M) as (le & te & X1 & X2 & X3 & X4).
    eexists. eapply closed_reference; eauto. apply M.
Qed.
