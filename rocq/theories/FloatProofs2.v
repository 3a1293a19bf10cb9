(** Whole profiles in binary64. *)
From Coq Require Import Reals ZArith List Lra Lia Bool Sorted.
From Flocq Require Import Core BinarySingleNaN.
From Verif Require Import Base PpgFloatModel PpgFloatProofs ProfileModel FloatModel FloatSpec FloatProofs.
Import ListNotations.
Open Scope R_scope.

Lemma forall2_maps : forall (f : b64 -> b64) (g : R -> R) (r : R -> R -> Prop) (ok : R -> Prop) l,
  (forall x, finite x = true -> ok (val x) -> r (val (f x)) (g (val x))) ->
  Forall is_number l -> Forall ok (map real l) -> Forall2 r (map real (map f l)) (map g (map real l)).
Proof.
  intros f g r ok l H. induction l as [|x l IH]; intros N O; cbn; constructor.
  - inversion N; inversion O; subst. apply H; auto.
  - apply IH; [inversion N|inversion O]; auto.
Qed.
Lemma forall_map_number : forall (f : b64 -> b64) (ok : R -> Prop) l,
  (forall x, finite x = true -> ok (val x) -> finite (f x) = true) ->
  Forall is_number l -> Forall ok (map real l) -> Forall is_number (map f l).
Proof.
  intros f ok l H. induction l as [|x l IH]; intros N O; cbn; constructor.
  - inversion N; inversion O; subst. apply H; auto.
  - apply IH; [inversion N|inversion O]; auto.
Qed.
Lemma forall2_eq : forall (a b : list R), Forall2 eq a b -> a = b.
Proof. induction 1; congruence. Qed.

(** ** Reflection *)
Lemma reflect64_twice : forall p, reflect64 (reflect64 p) = p.
Proof.
  intros [a b c d]. unfold reflect64, scale_coords64. cbn [fxup fxdown fyup fydown]. rewrite !map_map.
  assert (E : forall l, map (fun x => fmul (fmul x minus_one) minus_one) l = l).
  { intros l. rewrite <- (map_id l) at 2. apply map_ext. intros x. rewrite !times_minus_one. apply fneg_twice. }
  rewrite !E. reflexivity.
Qed.
Lemma reflect64_meaning : forall p, meaning (reflect64 p) = reflect (meaning p) /\ (numbers (reflect64 p) <-> numbers p).
Proof.
  intros [a b c d]. unfold meaning, reflect64, scale_coords64, reflect, vscale. cbn [fxup fxdown fyup fydown xup xdown yup ydown]. split.
  - assert (E : forall l, map real (map (fun x => fmul x minus_one) l) = map (fun x => x * -1) (map real l)).
    { intros l. rewrite !map_map. apply map_ext. intros x. rewrite times_minus_one. unfold real. rewrite fneg_val. ring. }
    rewrite !E. reflexivity.
  - unfold numbers. cbn [fxup fxdown fyup fydown].
    assert (E : forall l, Forall is_number (map (fun x => fmul x minus_one) l) <-> Forall is_number l).
    { intros l. rewrite Forall_map. assert (K : forall x, is_number (fmul x minus_one) <-> is_number x).
      { intros x. rewrite times_minus_one. unfold is_number. change (is_finite (fneg x)) with (finite (fneg x)). rewrite fneg_finite. reflexivity. }
      split; apply Forall_impl; intros; apply K; auto. }
    rewrite !E. reflexivity.
Qed.

(** ** Translation *)
Lemma translate64_error : forall v p, numbers p -> is_number (fst v) -> is_number (snd v) ->
  every (fun z => Rabs z <= huge) (translate (real (fst v), real (snd v)) (meaning p)) ->
  numbers (translate64 v p) /\
  pointwise (fun got exact => Rabs (got - exact) <= eps * Rabs exact)
    (meaning (translate64 v p)) (translate (real (fst v), real (snd v)) (meaning p)).
Proof.
  intros [vx vy] [a b c d] (N1 & N2 & N3 & N4) Fx Fy (B1 & B2 & B3 & B4). cbn [fst snd fxup fxdown fyup fydown] in *.
  cbn [translate meaning xup xdown yup ydown fst snd fxup fxdown fyup fydown] in B1, B2, B3, B4. unfold vshift in *. rewrite Forall_map in B1, B2, B3, B4.
  assert (T : forall w l, is_number w -> Forall is_number l -> Forall (fun x => Rabs (x + real w) <= huge) (map real l) ->
    Forall is_number (map (fun x => fadd x w) l) /\
    Forall2 (fun got exact => Rabs (got - exact) <= eps * Rabs exact) (map real (map (fun x => fadd x w) l)) (map (fun x => x + real w) (map real l))).
  { intros w l Fw N B. split.
    - eapply forall_map_number; [|exact N|exact B]. intros x Fn O. apply shift_error; auto.
    - eapply forall2_maps; [|exact N|exact B]. intros x Fn O. apply shift_error; auto. }
  destruct (T vx a Fx N1 B1), (T vx b Fx N2 B2), (T vy c Fy N3 B3), (T vy d Fy N4 B4).
  split; repeat split; auto.
Qed.

Lemma translate64_grid : forall e v p, (-1074 <= e <= 970)%Z -> numbers p -> is_number (fst v) -> is_number (snd v) ->
  every (on_grid e) (meaning p) -> on_grid e (real (fst v)) -> on_grid e (real (snd v)) ->
  meaning (translate64 v p) = translate (real (fst v), real (snd v)) (meaning p) /\
  meaning (translate64 (fneg (fst v), fneg (snd v)) (translate64 v p)) = meaning p.
Proof.
  intros e [vx vy] [a b c d] He (N1 & N2 & N3 & N4) Fx Fy (B1 & B2 & B3 & B4) Gx Gy. cbn [fst snd fxup fxdown fyup fydown] in *.
  cbn [meaning xup xdown yup ydown fxup fxdown fyup fydown] in B1, B2, B3, B4.
  assert (T : forall w l, is_number w -> on_grid e (real w) -> Forall is_number l -> Forall (on_grid e) (map real l) ->
    map real (map (fun x => fadd x w) l) = map (fun x => x + real w) (map real l) /\
    map real (map (fun x => fadd x (fneg w)) (map (fun x => fadd x w) l)) = map real l).
  { intros w l Fw Gw N B. split.
    - apply forall2_eq. eapply forall2_maps; [|exact N|exact B]. intros x Fn O. apply (shift_grid e); auto.
    - rewrite (map_map (fun x => fadd x w) (fun x => fadd x (fneg w))). rewrite <- (map_id (map real l)). apply forall2_eq. eapply forall2_maps; [|exact N|exact B]. intros x Fn O. apply (back_grid e); auto. }
  unfold meaning, translate64, translate, vshift. cbn [fst snd fxup fxdown fyup fydown xup xdown yup ydown].
  destruct (T vx a Fx Gx N1 B1) as (E1 & R1), (T vx b Fx Gx N2 B2) as (E2 & R2), (T vy c Fy Gy N3 B3) as (E3 & R3), (T vy d Fy Gy N4 B4) as (E4 & R4).
  rewrite E1, E2, E3, E4, R1, R2, R3, R4. auto.
Qed.

Lemma translate64_back : forall v p, numbers p -> is_number (fst v) -> is_number (snd v) ->
  every (fun z => Rabs z <= huge / 4) (meaning p) -> Rabs (real (fst v)) <= huge / 4 -> Rabs (real (snd v)) <= huge / 4 ->
  let back := meaning (translate64 (fneg (fst v), fneg (snd v)) (translate64 v p)) in
  let bound w := fun got x : R => Rabs (got - x) <= 2 * eps * (Rabs x + Rabs (x + w)) in
  Forall2 (bound (real (fst v))) (xup back) (xup (meaning p)) /\ Forall2 (bound (real (fst v))) (xdown back) (xdown (meaning p)) /\
  Forall2 (bound (real (snd v))) (yup back) (yup (meaning p)) /\ Forall2 (bound (real (snd v))) (ydown back) (ydown (meaning p)).
Proof.
  intros [vx vy] [a b c d] (N1 & N2 & N3 & N4) Fx Fy (B1 & B2 & B3 & B4) Gx Gy. cbn [fst snd fxup fxdown fyup fydown] in *.
  cbn [meaning xup xdown yup ydown fxup fxdown fyup fydown] in B1, B2, B3, B4.
  unfold meaning, translate64. cbn [fst snd fxup fxdown fyup fydown xup xdown yup ydown]. cbv zeta.
  assert (T : forall w l, is_number w -> Rabs (real w) <= huge / 4 -> Forall is_number l -> Forall (fun z => Rabs z <= huge / 4) (map real l) ->
    Forall2 (fun got x => Rabs (got - x) <= 2 * eps * (Rabs x + Rabs (x + real w))) (map real (map (fun x => fadd x (fneg w)) (map (fun x => fadd x w) l))) (map real l)).
  { intros w l Fw Gw N B. rewrite (map_map (fun x => fadd x w) (fun x => fadd x (fneg w))). rewrite <- (map_id (map real l)). eapply forall2_maps; [|exact N|exact B]. intros x Fn O. apply back_error; auto. }
  repeat split; apply T; auto.
Qed.

Lemma translate64_sorted : forall v p, numbers p -> is_number (fst v) ->
  Forall (fun z => Rabs z <= huge) (xup (translate (real (fst v), real (snd v)) (meaning p))) ->
  StronglySorted Rle (map real (fxup p)) -> StronglySorted Rle (map real (fxup (translate64 v p))).
Proof.
  intros [vx vy] [a b c d] (N1 & _) Fx B S. cbn [translate translate64 meaning xup fxup fst snd] in *. unfold vshift in B. rewrite Forall_map in B.
  clear b c d. induction a as [|x a IH]; cbn [map] in *; [constructor|].
  inversion N1; inversion B; inversion S; subst. constructor; [apply IH; auto|].
  apply Forall_forall. intros z Hz. rewrite map_map in Hz. apply in_map_iff in Hz as (y & <- & Hy).
  assert (Fy : finite y = true) by (match goal with H : Forall is_number a |- _ => exact (proj1 (Forall_forall _ _) H y Hy) end).
  assert (By : Rabs (val y + val vx) <= huge) by (match goal with H : Forall (fun x => Rabs (x + real vx) <= huge) (map real a) |- _ => exact (proj1 (Forall_forall _ _) H (real y) (in_map real _ _ Hy)) end).
  assert (Le : val x <= val y) by (match goal with H : Forall (Rle (real x)) (map real a) |- _ => exact (proj1 (Forall_forall _ _) H (real y) (in_map real _ _ Hy)) end).
  apply shift_monotone; auto.
Qed.

(** 0.1 moved by 0.7 and back; 1 and the next number moved by 2. *)
Definition f01 : b64 := @B754_finite 53 1024 false 7205759403792794 (-56) eq_refl.
Definition f07 : b64 := @B754_finite 53 1024 false 6305039478318694 (-53) eq_refl.
Definition f1 : b64 := @B754_finite 53 1024 false 4503599627370496 (-52) eq_refl.
Definition f1next : b64 := @B754_finite 53 1024 false 4503599627370497 (-52) eq_refl.
Lemma back_01 : B2SF (fadd (fadd f01 f07) (fneg f07)) = SpecFloat.S754_finite false 7205759403792792 (-56).
Proof. vm_compute. reflexivity. Qed.
Lemma collapse : B2SF (fadd f1 two64) = B2SF (fadd f1next two64).
Proof. vm_compute. reflexivity. Qed.
Lemma sf_same : forall x y : b64, B2SF x = B2SF y -> x = y.
Proof. intros x y H. apply B2SF_inj. exact H. Qed.

Lemma back_refuted : exists x v : b64, is_number x /\ is_number v /\ 0 < real x < 1 /\ 0 < real v < 1 /\ real (fadd (fadd x v) (fneg v)) <> real x.
Proof.
  exists f01, f07. split; [reflexivity|]. split; [reflexivity|]. pose proof back_01 as A. apply sf_val in A. unfold real. rewrite A.
  unfold f01, f07. cbn [B2R SpecFloat.cond_Zopp]. unfold F2R. cbn [Fnum Fexp].
  assert (P : forall m e, 0 < IZR m -> IZR m < bpow radix2 e -> 0 < IZR m * bpow radix2 (- e) < 1).
  { intros m e H1 H2. rewrite bpow_opp. pose proof (bpow_gt_0 radix2 e) as B. split.
    - apply Rmult_lt_0_compat; [lra|]. apply Rinv_0_lt_compat. lra.
    - apply Rmult_lt_reg_r with (bpow radix2 e); [lra|]. rewrite Rmult_assoc, Rinv_l by lra. lra. }
  split; [apply (P 7205759403792794%Z 56%Z); cbn; lra|]. split; [apply (P 6305039478318694%Z 53%Z); cbn; lra|].
  pose proof (bpow_gt_0 radix2 (-56)). intros C. apply Rmult_eq_reg_r in C; [|lra]. apply eq_IZR in C. discriminate.
Qed.
Lemma strict_refuted : exists x y v : b64, is_number x /\ is_number y /\ is_number v /\ real x < real y /\ fadd x v = fadd y v.
Proof.
  exists f1, f1next, two64. repeat (split; [reflexivity|]). split; [|apply sf_same, collapse].
  unfold real, f1, f1next. cbn [B2R SpecFloat.cond_Zopp]. unfold F2R. cbn [Fnum Fexp].
  pose proof (bpow_gt_0 radix2 (-52)). apply Rmult_lt_compat_r; auto. apply IZR_lt. reflexivity.
Qed.

(** ** Edges and reference point *)
Lemma tol64_val : 1 / 10000 <= val tol64 <= 1 / 10000 + / 10 ^ 18 /\ finite tol64 = true.
Proof. split; [|reflexivity]. unfold B2R, tol64, F2R. cbn. lra. Qed.

Lemma close_enough : forall x y, finite x = true -> finite y = true -> Rabs (val x - val y) <= huge ->
  (Rabs (val x - val y) <= 1 / 10000 -> Bltb tol64 (fabs64 (fsub x y)) = false) /\
  (Bltb tol64 (fabs64 (fsub x y)) = false -> Rabs (val x - val y) <= 1 / 10000 + / 10 ^ 15).
Proof.
  intros x y Fx Fy B. destruct (fsub_ok x y Fx Fy B) as (E & F). destruct tol64_val as ((T1 & T2) & Ft).
  assert (Fa : finite (fabs64 (fsub x y)) = true) by (unfold fabs64; rewrite is_finite_Babs; auto).
  rewrite Bltb_correct by auto. unfold fabs64. rewrite B2R_Babs, E.
  change (SpecFloat.fexp 53 1024) with fexp64 in *. split.
  - intros H. apply Rlt_bool_false. apply abs_round_le_generic; [apply valid64|apply valid_rnd_N|apply format_val|lra].
  - intros H. destruct (Rlt_bool_spec (val tol64) (Rabs (rnd (val x - val y)))) as [|L]; [discriminate|].
    pose proof (rnd_add_error x (fneg y)) as D. rewrite fneg_val in D. change (val x + - val y) with (val x - val y) in D.
    pose proof (Rabs_triang_inv (val x - val y) (rnd (val x - val y))) as T. rewrite (Rabs_minus_sym (val x - val y) (rnd (val x - val y))) in T.
    pose proof eps_bounds as [E1 E2].
    assert (E3 : eps <= / 10 ^ 15). { unfold eps. cbn. lra. }
    pose proof (Rabs_pos (val x - val y)) as P.
    assert (Q : Rabs (val x - val y) <= 1 / 5000) by (assert (eps * Rabs (val x - val y) <= / 1024 * Rabs (val x - val y)) by (apply Rmult_le_compat_r; lra); lra).
    assert (Q2 : eps * Rabs (val x - val y) <= / 10 ^ 15 * (1 / 5000)).
    { apply Rmult_le_compat; lra. }
    lra.
Qed.

Lemma edges64 : forall p le te, update_edges64 p = Ok (le, te) ->
  first (fxup p) = Ok (fst le) /\ first (fyup p) = Ok (snd le) /\ final (fxup p) = Ok (fst te) /\
  exists yun ydn, final (fyup p) = Ok yun /\ final (fydown p) = Ok ydn /\
  (is_number yun -> is_number ydn -> Rabs (real yun + real ydn) <= huge ->
   is_number (snd te) /\ Rmin (real yun) (real ydn) <= real (snd te) <= Rmax (real yun) (real ydn)).
Proof.
  intros p le te H. unfold update_edges64 in H.
  destruct (first (fxup p)) as [xu0|]; [|discriminate]. destruct (first (fxdown p)) as [xd0|]; [|discriminate]. cbn [bind] in H.
  destruct (Bltb _ _); [discriminate|].
  destruct (final (fxup p)) as [xun|]; [|discriminate]. destruct (final (fxdown p)) as [xdn|]; [|discriminate]. cbn [bind] in H.
  destruct (Bltb _ _); [discriminate|].
  destruct (first (fyup p)) as [yu0|]; [|discriminate]. destruct (final (fyup p)) as [yun|]; [|discriminate]. destruct (final (fydown p)) as [ydn|]; [|discriminate].
  cbn [bind] in H.
  assert (E1 : (xu0, yu0) = le) by congruence. assert (E2 : (xun, if Beqb yun ydn then yun else fmul half64 (fadd yun ydn)) = te) by congruence.
  subst le te. cbn [fst snd]. repeat (split; [reflexivity|]). exists yun, ydn. split; auto. split; auto.
  intros Fu Fd B. destruct (Beqb yun ydn) eqn:Q.
  - split; auto. rewrite Beqb_correct in Q by auto. destruct (Req_bool_spec (B2R yun) (B2R ydn)) as [Q'|]; [|discriminate].
    unfold real. rewrite Q'. unfold Rmin, Rmax. destruct (Rle_dec (B2R ydn) (B2R ydn)); lra.
  - destruct (Rle_dec (real yun) (real ydn)) as [L|L].
    + rewrite Rmin_left, Rmax_right by auto. apply average_between; auto.
    + rewrite Rmin_right, Rmax_left by lra. destruct (average_between ydn yun Fd Fu) as (A1 & A2).
      * unfold real in B. rewrite Rplus_comm. exact B.
      * unfold real in L. lra.
      * assert (C : fadd yun ydn = fadd ydn yun).
        { unfold fadd. destruct yun as [s|s| |s m e Hm], ydn as [s'|s'| |s' m' e' Hm']; try discriminate; unfold Bplus.
          - reflexivity.
          - reflexivity.
          - rewrite (Z.min_comm e e'). unfold Fplus_naive. rewrite Z.add_comm. reflexivity. }
        rewrite C. split; auto.
Qed.

(** The reference point. *)
Lemma average_error : forall a b, finite a = true -> finite b = true -> Rabs (val a + val b) <= huge ->
  finite (fmul half64 (fadd a b)) = true /\ Rabs (val (fmul half64 (fadd a b)) - (val a + val b) / 2) <= 3 * eps * Rabs ((val a + val b) / 2) + eta.
Proof.
  intros a b Fa Fb B. destruct (fadd_ok a b Fa Fb B) as (E & F). destruct half64_val as (V & Fh).
  assert (Hs : Rabs (val (fadd a b)) <= huge).
  { rewrite E. apply abs_round_le_generic; auto using huge_format. apply valid64. apply valid_rnd_N. }
  destruct (times_error half64 (fadd a b) Fh F) as (F2 & E2).
  { rewrite V, Rabs_mult, (Rabs_pos_eq (/ 2)) by lra. pose proof (Rabs_pos (val (fadd a b))). lra. }
  split; auto. pose proof (rnd_add_error a b) as A. rewrite <- E in A. rewrite V in E2. pose proof eps_bounds as EB.
  set (m := val (fmul half64 (fadd a b))) in *. set (s := val (fadd a b)) in *. set (x := val a + val b) in *.
  unfold Rdiv. rewrite (Rabs_mult x (/ 2)), (Rabs_pos_eq (/ 2)) by lra.
  rewrite (Rabs_mult (/ 2) s), (Rabs_pos_eq (/ 2)) in E2 by lra.
  assert (S : Rabs s <= Rabs x + eps * Rabs x). { replace s with ((s - x) + x) by ring. eapply Rle_trans; [apply Rabs_triang|]. lra. }
  replace (m - x * / 2) with ((m - / 2 * s) + / 2 * (s - x)) by ring. eapply Rle_trans; [apply Rabs_triang|].
  rewrite (Rabs_mult (/ 2) (s - x)), (Rabs_pos_eq (/ 2)) by lra. pose proof (Rabs_pos x).
  assert (eps * Rabs s <= eps * (2 * Rabs x)) by (apply Rmult_le_compat_l; [lra|]; nra). lra.
Qed.
Lemma reference64 : forall p le te, update_edges64 p = Ok (le, te) ->
  is_number (fst le) -> is_number (snd le) -> is_number (fst te) -> is_number (snd te) ->
  Rabs (real (fst le) + real (fst te)) <= huge -> Rabs (real (snd le) + real (snd te)) <= huge ->
  exists r, reference_point64 p = Ok r /\ is_number (fst r) /\ is_number (snd r) /\
    (let mx := (real (fst le) + real (fst te)) / 2 in Rabs (real (fst r) - mx) <= 3 * eps * Rabs mx + eta) /\
    (let my := (real (snd le) + real (snd te)) / 2 in Rabs (real (snd r) - my) <= 3 * eps * Rabs my + eta).
Proof.
  intros p le te H A B C D X Y. unfold reference_point64. rewrite H. cbn [bind fst snd]. eexists. split; [reflexivity|]. cbn [fst snd].
  destruct (average_error (fst le) (fst te) A C X) as (E1 & E2). destruct (average_error (snd le) (snd te) B D Y) as (E3 & E4). auto.
Qed.

Lemma edges64_accept : forall p xu0 xd0 xun xdn yu0 yun ydn, numbers p ->
  first (fxup p) = Ok xu0 -> first (fxdown p) = Ok xd0 -> final (fxup p) = Ok xun -> final (fxdown p) = Ok xdn ->
  first (fyup p) = Ok yu0 -> final (fyup p) = Ok yun -> final (fydown p) = Ok ydn ->
  is_number xu0 -> is_number xd0 -> is_number xun -> is_number xdn ->
  Rabs (real xu0 - real xd0) <= huge -> Rabs (real xun - real xdn) <= huge ->
  (Rabs (real xu0 - real xd0) <= 1 / 10000 -> Rabs (real xun - real xdn) <= 1 / 10000 -> exists e, update_edges64 p = Ok e) /\
  (forall e, update_edges64 p = Ok e -> Rabs (real xu0 - real xd0) <= 1 / 10000 + / 10 ^ 15 /\ Rabs (real xun - real xdn) <= 1 / 10000 + / 10 ^ 15) /\
  (forall e, update_edges64 p = Err e -> e = ValueError).
Proof.
  intros p xu0 xd0 xun xdn yu0 yun ydn N A1 A2 A3 A4 A5 A6 A7 F1 F2 F3 F4 B1 B2.
  destruct (close_enough xu0 xd0 F1 F2 B1) as (C1 & C2). destruct (close_enough xun xdn F3 F4 B2) as (C3 & C4).
  unfold update_edges64. rewrite A1, A2, A3, A4, A5, A6, A7. cbn [bind]. unfold real in *. split; [|split].
  - intros H1 H2. rewrite C1, C3 by auto. eauto.
  - intros e H. destruct (Bltb tol64 (fabs64 (fsub xu0 xd0))); [discriminate|]. destruct (Bltb tol64 (fabs64 (fsub xun xdn))); [discriminate|]. auto.
  - intros e H. destruct (Bltb tol64 (fabs64 (fsub xu0 xd0))); [congruence|]. destruct (Bltb tol64 (fabs64 (fsub xun xdn))); congruence.
Qed.

(** A NaN passes the checks. *)
Definition nan64 : b64 := @B754_nan 53 1024.
Lemma nan_accepted : forall p, first (fxup p) = Ok nan64 -> final (fxup p) = Ok nan64 -> fxdown p <> [] -> fyup p <> [] -> fydown p <> [] ->
  exists e, update_edges64 p = Ok e.
Proof.
  intros p A B D U L. unfold update_edges64. rewrite A, B.
  assert (K : forall (l : list b64), l <> [] -> (exists x, first l = Ok x) /\ exists y, final l = Ok y).
  { intros l H. split; [destruct l; [congruence|cbn; eauto]|]. induction l as [|x [|y l] IH]; [congruence|cbn; eauto|]. destruct IH as (z & Z); [discriminate|]. exists z. exact Z. }
  destruct (K _ D) as ((d0 & ->) & (dn & ->)). destruct (K _ U) as ((u0 & ->) & (un & ->)). destruct (K _ L) as ((l0 & _) & (ln & ->)).
  cbn [bind]. assert (Z : forall y, Bltb tol64 (fabs64 (fsub nan64 y)) = false) by (intros []; reflexivity). rewrite !Z. eauto.
Qed.

(** ** Scaling *)
Lemma scale64_error : forall k p, numbers p -> is_number k -> every (fun z => Rabs z <= huge) (scale_coords (real k) (meaning p)) ->
  exists q, scale64 k false p = Ok q /\ numbers q /\
  pointwise (fun got exact => Rabs (got - exact) <= eps * Rabs exact + eta) (meaning q) (scale_coords (real k) (meaning p)).
Proof.
  intros k [a b c d] (N1 & N2 & N3 & N4) Fk (B1 & B2 & B3 & B4). eexists. split; [reflexivity|].
  cbn [fst snd fxup fxdown fyup fydown] in *.
  cbn [scale_coords meaning xup xdown yup ydown fst snd fxup fxdown fyup fydown] in B1, B2, B3, B4. unfold vscale in *. rewrite Forall_map in B1, B2, B3, B4.
  assert (T : forall l, Forall is_number l -> Forall (fun x => Rabs (x * real k) <= huge) (map real l) ->
    Forall is_number (map (fun x => fmul x k) l) /\
    Forall2 (fun got exact => Rabs (got - exact) <= eps * Rabs exact + eta) (map real (map (fun x => fmul x k) l)) (map (fun x => x * real k) (map real l))).
  { intros l N B. split.
    - eapply forall_map_number; [|exact N|exact B]. intros x Fn O. apply times_error; auto.
    - eapply forall2_maps; [|exact N|exact B]. intros x Fn O. apply times_error; auto. }
  destruct (T a N1 B1), (T b N2 B2), (T c N3 B3), (T d N4 B4).
  split; repeat split; auto.
Qed.

Lemma scale64_power : forall k j p, numbers p -> is_number k -> real k = bpow radix2 j ->
  every (fun z => z = 0 \/ bpow radix2 (-1022) <= Rabs z <= huge) (scale_coords (real k) (meaning p)) ->
  exists q, scale64 k false p = Ok q /\ numbers q /\ meaning q = scale_coords (real k) (meaning p).
Proof.
  intros k j [a b c d] (N1 & N2 & N3 & N4) Fk Ek (B1 & B2 & B3 & B4). eexists. split; [reflexivity|].
  cbn [fst snd fxup fxdown fyup fydown] in *.
  cbn [scale_coords meaning xup xdown yup ydown fst snd fxup fxdown fyup fydown] in B1, B2, B3, B4. unfold vscale in *. rewrite Forall_map in B1, B2, B3, B4.
  assert (KP : 0 < real k) by (rewrite Ek; apply bpow_gt_0).
  assert (HP : 0 < huge) by apply bpow_gt_0.
  assert (E : forall x, finite x = true -> (val x * real k = 0 \/ bpow radix2 (-1022) <= Rabs (val x * real k) <= huge) ->
    val (fmul x k) = val x * real k /\ finite (fmul x k) = true).
  { intros x Fx [Z|Z].
    - apply Rmult_integral in Z as [Z|Z]; [|lra]. apply (times_power x k j); auto. change (val k) with (real k). rewrite Z, Rmult_0_l, Rabs_R0. lra.
    - apply (times_power x k j); auto; tauto. }
  assert (T : forall l, Forall is_number l -> Forall (fun x => x * real k = 0 \/ bpow radix2 (-1022) <= Rabs (x * real k) <= huge) (map real l) ->
    Forall is_number (map (fun x => fmul x k) l) /\ map real (map (fun x => fmul x k) l) = map (fun x => x * real k) (map real l)).
  { intros l N B. split.
    - eapply forall_map_number; [|exact N|exact B]. intros x Fn O. apply E; auto.
    - apply forall2_eq. eapply forall2_maps; [|exact N|exact B]. intros x Fn O. apply E; auto. }
  destruct (T a N1 B1) as (? & M1), (T b N2 B2) as (? & M2), (T c N3 B3) as (? & M3), (T d N4 B4) as (? & M4).
  split; [repeat split; auto|]. unfold meaning, scale_coords64, scale_coords, vscale. cbn [fxup fxdown fyup fydown xup xdown yup ydown]. rewrite M1, M2, M3, M4. reflexivity.
Qed.

Lemma scale64_about : forall k p r, numbers p -> is_number k -> reference_point64 p = Ok r -> is_number (fst r) -> is_number (snd r) ->
  every (fun z => Rabs z <= huge / 4) (meaning p) -> Rabs (real (fst r)) <= huge / 4 -> Rabs (real (snd r)) <= huge / 4 ->
  (let spread c := fun z => Rabs (real k * (z - c)) <= huge / 4 in
   Forall (spread (real (fst r))) (xup (meaning p)) /\ Forall (spread (real (fst r))) (xdown (meaning p)) /\
   Forall (spread (real (snd r))) (yup (meaning p)) /\ Forall (spread (real (snd r))) (ydown (meaning p))) ->
  exists q, scale64 k true p = Ok q /\ numbers q /\
  let bound c := fun got x : R => Rabs (got - (c + real k * (x - c))) <=
                    eps * Rabs (c + real k * (x - c)) + 3 * eps * Rabs (real k * (x - c)) + 2 * eta in
  Forall2 (bound (real (fst r))) (xup (meaning q)) (xup (meaning p)) /\ Forall2 (bound (real (fst r))) (xdown (meaning q)) (xdown (meaning p)) /\
  Forall2 (bound (real (snd r))) (yup (meaning q)) (yup (meaning p)) /\ Forall2 (bound (real (snd r))) (ydown (meaning q)) (ydown (meaning p)).
Proof.
  intros k p [rx ry] N Fk R Fx Fy B Bx By S. unfold scale64. rewrite R. cbn [bind fst snd] in *. eexists. split; [reflexivity|].
  destruct p as [a b c d]. destruct N as (N1 & N2 & N3 & N4). destruct B as (B1 & B2 & B3 & B4). destruct S as (S1 & S2 & S3 & S4).
  unfold meaning in *. cbn [translate64 scale_coords64 xup xdown yup ydown fst snd fxup fxdown fyup fydown] in *. clear R. rewrite !map_map.
  assert (T : forall w l, is_number w -> Rabs (real w) <= huge / 4 -> Forall is_number l -> Forall (fun z => Rabs z <= huge / 4) (map real l) ->
    Forall (fun z => Rabs (real k * (z - real w)) <= huge / 4) (map real l) ->
    Forall is_number (map (fun x => fadd (fmul (fadd x (fneg w)) k) w) l) /\
    Forall2 (fun got x => Rabs (got - (real w + real k * (x - real w))) <=
      eps * Rabs (real w + real k * (x - real w)) + 3 * eps * Rabs (real k * (x - real w)) + 2 * eta)
      (map (fun x => real (fadd (fmul (fadd x (fneg w)) k) w)) l) (map real l)).
  { intros w l Fw Bw. induction l as [|x l IH]; intros N B S; cbn [map]; [split; constructor|].
    inversion N; inversion B; inversion S; subst. destruct IH as (I1 & I2); auto.
    destruct (about_error x k w) as (A1 & A2); auto. }
  destruct (T rx a Fx Bx N1 B1 S1) as (? & M1), (T rx b Fx Bx N2 B2 S2) as (? & M2), (T ry c Fy By N3 B3 S3) as (? & M3), (T ry d Fy By N4 B4 S4) as (? & M4).
  split.
  - unfold numbers. cbn [translate64 scale_coords64 fst snd fxup fxdown fyup fydown]. rewrite !map_map. auto.
  - cbv zeta. rewrite ?map_map. auto.
Qed.

(** ** Rotation *)
Lemma map2_seq : forall (f : R -> R -> R) (a b : list R) n, List.length a = n -> List.length b = n ->
  map2 f a b = map (fun i => f (nth i a 0) (nth i b 0)) (seq 0 n).
Proof.
  intros f. induction a as [|x a IH]; intros [|y b] [|n] Ha Hb; cbn in *; try lia; auto. rewrite <- seq_shift, map_map. cbn. f_equal. apply IH; lia.
Qed.
Lemma nth_real : forall l i, nth i (map real l) 0 = real (nth i l zero64).
Proof. intros l i. change 0 with (real zero64). apply map_nth. Qed.
Lemma nth_firstn_lt : forall (A : Type) (l : list A) n i d, (i < n)%nat -> nth i (firstn n l) d = nth i l d.
Proof. induction l; intros [|n] [|i] d H; cbn; try lia; auto. apply IHl. lia. Qed.

Lemma dots_error : forall how a b th1 th2 xs ys n M delta, (n <= List.length xs)%nat -> (n <= List.length ys)%nat ->
  Forall is_number xs -> Forall is_number ys -> is_number a -> is_number b -> Rabs (real a) <= 1 -> Rabs (real b) <= 1 ->
  Rabs (real a - th1) <= delta -> Rabs (real b - th2) <= delta ->
  Forall (fun z => Rabs z <= M) (map real xs) -> Forall (fun z => Rabs z <= M) (map real ys) -> M <= huge / 8 ->
  Forall is_number (dots how a b xs ys n) /\
  Forall2 (fun got exact => Rabs (got - exact) <= 2 * M * (delta + 3 * eps) + 3 * eta)
    (map real (dots how a b xs ys n)) (map2 (fun x y => th1 * x + th2 * y) (firstn n (map real xs)) (firstn n (map real ys))).
Proof.
  intros how a b th1 th2 xs ys n M delta Lx Ly Nx Ny Fa Fb Ba Bb Da Db Bx By BM.
  rewrite (map2_seq _ _ _ n) by (rewrite firstn_length, map_length; lia). unfold dots.
  assert (K : forall l i, Forall is_number l -> (i < List.length l)%nat -> is_number (nth i l zero64)).
  { intros l i H Hi. rewrite Forall_forall in H. apply H. apply nth_In; auto. }
  assert (K2 : forall l i, Forall (fun z => Rabs z <= M) (map real l) -> (i < List.length l)%nat -> Rabs (real (nth i l zero64)) <= M).
  { intros l i H Hi. rewrite Forall_forall in H. apply H. apply in_map. apply nth_In; auto. }
  assert (P : forall i, (i < n)%nat -> is_number (dot2 (how i) a b (nth i xs zero64) (nth i ys zero64)) /\
    Rabs (real (dot2 (how i) a b (nth i xs zero64) (nth i ys zero64)) -
      (th1 * nth i (firstn n (map real xs)) 0 + th2 * nth i (firstn n (map real ys)) 0)) <= 2 * M * (delta + 3 * eps) + 3 * eta).
  { intros i Hi. rewrite !nth_firstn_lt, !nth_real by auto. set (x := nth i xs zero64). set (y := nth i ys zero64).
    assert (Fx : is_number x) by (apply K; auto; lia). assert (Fy : is_number y) by (apply K; auto; lia).
    assert (Hx : Rabs (real x) <= M) by (apply K2; auto; lia). assert (Hy : Rabs (real y) <= M) by (apply K2; auto; lia).
    destruct (dot2_error (how i) a b x y M Fa Fb Fx Fy Ba Bb Hx Hy BM) as (F & D). split; auto.
    replace (real (dot2 (how i) a b x y) - (th1 * real x + th2 * real y)) with
      ((real (dot2 (how i) a b x y) - (real a * real x + real b * real y)) + ((real a - th1) * real x + (real b - th2) * real y)) by ring.
    eapply Rle_trans; [apply Rabs_triang|]. eapply Rle_trans; [apply Rplus_le_compat; [exact D|apply Rabs_triang]|]. rewrite !Rabs_mult.
    pose proof (Rabs_pos (real a - th1)). pose proof (Rabs_pos (real b - th2)). pose proof (Rabs_pos (real x)). pose proof (Rabs_pos (real y)).
    assert (Rabs (real a - th1) * Rabs (real x) <= delta * M) by (apply Rmult_le_compat; auto).
    assert (Rabs (real b - th2) * Rabs (real y) <= delta * M) by (apply Rmult_le_compat; auto). lra. }
  clear K K2. split.
  - apply Forall_forall. intros z Hz. apply in_map_iff in Hz as (i & <- & Hi). apply in_seq in Hi. apply P. lia.
  - rewrite map_map. assert (Q : forall l, (forall i, In i l -> (i < n)%nat) -> Forall2 (fun got exact => Rabs (got - exact) <= 2 * M * (delta + 3 * eps) + 3 * eta)
      (map (fun i => real (dot2 (how i) a b (nth i xs zero64) (nth i ys zero64))) l)
      (map (fun i => th1 * nth i (firstn n (map real xs)) 0 + th2 * nth i (firstn n (map real ys)) 0) l)).
    { induction l as [|i l IH]; intros H; cbn [map]; constructor; [apply P; apply H; left; auto|apply IH; intros; apply H; right; auto]. }
    apply Q. intros i Hi. apply in_seq in Hi. lia.
Qed.

Lemma rotate64_error : forall how c s p theta delta M, numbers p -> is_number c -> is_number s -> Rabs (real c) <= 1 -> Rabs (real s) <= 1 ->
  Rabs (real c - cos theta) <= delta -> Rabs (real s - sin theta) <= delta -> every (fun z => Rabs z <= M) (meaning p) -> M <= huge / 8 ->
  match rotate64 how c s p, rotate (Some theta) None (meaning p) with
  | Ok q, Ok exact => numbers q /\ pointwise (fun got z => Rabs (got - z) <= 2 * M * (delta + 3 * eps) + 3 * eta) (meaning q) exact
  | Err e, Err e' => e = e'
  | _, _ => False
  end.
Proof.
  intros how c s [xu xd yu yd] theta delta M (N1 & N2 & N3 & N4) Fc Fs Bc Bs Dc Ds (B1 & B2 & B3 & B4) BM.
  unfold rotate64, rotate, meaning in *. cbn [rotation_angle bind fst snd xup xdown yup ydown fxup fxdown fyup fydown] in *. rewrite !map_length.
  destruct (Nat.eqb_spec (List.length xu) (List.length yu)) as [Lu|]; cbn [negb]; [|reflexivity].
  destruct (Nat.eqb_spec (List.length xd) (List.length yd)) as [Ld|]; cbn [negb]; [|reflexivity].
  destruct (Nat.ltb_spec (List.length xd) (List.length xu)) as [|L]; [reflexivity|].
  assert (Fn : is_number (fneg s)) by (unfold is_number; rewrite fneg_finite; auto).
  assert (Vn : real (fneg s) = - real s) by apply fneg_val.
  assert (Bn : Rabs (real (fneg s)) <= 1) by (rewrite Vn, Rabs_Ropp; auto).
  assert (Dn : Rabs (real (fneg s) - - sin theta) <= delta) by (rewrite Vn; replace (- real s - - sin theta) with (- (real s - sin theta)) by ring; rewrite Rabs_Ropp; auto).
  set (n := List.length xu) in *.
  destruct (dots_error (how true true) c (fneg s) (cos theta) (- sin theta) xu yu n M delta) as (Q1 & E1); auto; try lia.
  destruct (dots_error (how false true) c (fneg s) (cos theta) (- sin theta) xd yd n M delta) as (Q2 & E2); auto; try lia.
  destruct (dots_error (how true false) s c (sin theta) (cos theta) xu yu n M delta) as (Q3 & E3); auto; try lia.
  destruct (dots_error (how false false) s c (sin theta) (cos theta) xd yd n M delta) as (Q4 & E4); auto; try lia.
  assert (FU : forall l, List.length l = n -> firstn n (map real l) = map real l).
  { intros l <-. rewrite <- (map_length real l). apply firstn_all. }
  rewrite (FU xu), (FU yu) in E1, E3 by (auto; lia).
  assert (BP : 0 <= 2 * M * (delta + 3 * eps) + 3 * eta \/ (n < List.length xd -> False)%nat).
  { destruct xd as [|z xd]; [right; cbn; lia|]. left. inversion B2; subst. pose proof (Rabs_pos (real z)). pose proof (Rabs_pos (real c - cos theta)).
    pose proof eps_bounds. pose proof eta_bounds. assert (0 <= M * (delta + 3 * eps)) by (apply Rmult_le_pos; lra). lra. }
  assert (PAD : Forall2 (fun got z => Rabs (got - z) <= 2 * M * (delta + 3 * eps) + 3 * eta) (map real (repeat zero64 (List.length xd - n))) (zeros (List.length xd - n))).
  { unfold zeros. destruct (Nat.eq_dec (List.length xd - n) 0) as [E|E]; [rewrite E; constructor|].
    destruct BP as [BP|BP]; [|exfalso; apply BP; lia].
    generalize (List.length xd - n)%nat. induction n0; cbn; constructor; auto. unfold real. cbn. rewrite Rminus_0_r, Rabs_R0. exact BP. }
  assert (PN : Forall is_number (repeat zero64 (List.length xd - n))).
  { apply Forall_forall. intros z Hz. apply repeat_spec in Hz as ->. reflexivity. }
  split.
  - split; [|split; [|split]]; cbn [fxup fxdown fyup fydown]; auto; apply Forall_app; split; auto.
  - split; [|split; [|split]]; cbn [xup xdown yup ydown fxup fxdown fyup fydown]; auto; rewrite map_app; apply Forall2_app; auto.
Qed.

Lemma tol64_nearest : forall z : b64, is_number z -> Rabs (real tol64 - 1 / 10000) <= Rabs (real z - 1 / 10000).
Proof.
  intros z _. unfold real.
  assert (T : B2R tol64 = 7378697629483821 / 73786976294838206464).
  { unfold B2R, tol64, F2R. cbn [Fnum Fexp cond_Zopp bpow]. cbv [Z.pow_pos Pos.iter Z.mul radix2 radix_val Pos.mul]. lra. }
  assert (M : mag radix2 (B2R tol64) = (-13)%Z :> Z).
  { apply mag_unique_pos. rewrite T. cbn. cbv [Z.pow_pos Pos.iter Z.mul radix2 radix_val Pos.mul]. lra. }
  assert (P : pred radix2 (SpecFloat.fexp 53 1024) (B2R tol64) = B2R tol64 - / 73786976294838206464).
  { rewrite pred_eq_pos by (rewrite T; lra). unfold pred_pos. rewrite M. destruct (Req_bool_spec (B2R tol64) (bpow radix2 (-13 - 1))) as [E|_].
    - exfalso. rewrite T in E. cbn in E. lra.
    - rewrite ulp_neq_0 by (rewrite T; lra). unfold cexp. rewrite M. cbn. reflexivity. }
  pose proof (@generic_format_B2R 53 1024 z) as FZ. pose proof (@generic_format_B2R 53 1024 tol64) as FT.
  destruct (Rle_lt_dec (B2R tol64) (B2R z)) as [L|L].
  - rewrite !Rabs_pos_eq; rewrite ?T in *; lra.
  - assert (B2R z <= B2R tol64 - / 73786976294838206464).
    { rewrite <- P. assert (V : Valid_exp (SpecFloat.fexp 53 1024)) by (apply fexp_correct; reflexivity).
      apply (@pred_ge_gt radix2 (SpecFloat.fexp 53 1024) V); auto. }
    rewrite (Rabs_pos_eq (B2R tol64 - _)) by (rewrite T; lra). rewrite Rabs_left; rewrite T in *; lra.
Qed.
