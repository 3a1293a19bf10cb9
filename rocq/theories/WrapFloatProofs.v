(** Sections wrapped around cylinders in binary64. *)
From Coq Require Import Reals ZArith List Lra Lia Bool.
From Flocq Require Import Core BinarySingleNaN.
From Verif Require Import Base PpgFloatModel PpgFloatProofs FloatModel FloatSpec FloatProofs ShapeFloatModel ShapeFloatSpec ShapeFloatProofs SectionFloatModel SectionFloatProofs NacaFloatProofs7 WrapFloatModel WrapFloatSpec.
Import ListNotations.
Open Scope R_scope.

Lemma nearest54_good : forall g, (forall t, Rabs (g t) <= 1) -> accurate (nearest54 g) g.
Proof.
  intros g G t _. unfold nearest54. set (z := ZnearestE (g (real t) * 2 ^ 54)). pose proof eps_bounds as [E1 E2]. pose proof eta_bounds as [H1 H2]. pose proof huge_big as HB.
  assert (A : Rabs (IZR z * bpow radix2 (-54) - g (real t)) <= eps / 4).
  { pose proof (Znearest_half (fun x => negb (Z.even x)) (g (real t) * 2 ^ 54)) as Q. fold z in Q. change (Znearest (fun x => negb (Z.even x)) (g (real t) * 2 ^ 54)) with z in Q. unfold eps. change (bpow radix2 (-53)) with (/ 9007199254740992). change (bpow radix2 (-54)) with (/ 18014398509481984).
    replace (2 ^ 54) with 18014398509481984 in Q by (cbn; lra). apply Rabs_le_inv in Q. apply Rabs_le. lra. }
  pose proof (G (real t)) as B. apply Rabs_le_inv in B. apply Rabs_le_inv in A.
  pose proof (@binary_normalize_correct 53 1024 prec64 emax64 mode_NE z (-54) false) as H. unfold F2R in H. cbn [Fnum Fexp] in H.
  change (round radix2 (SpecFloat.fexp 53 1024) (round_mode mode_NE) (IZR z * bpow radix2 (-54))) with (rnd (IZR z * bpow radix2 (-54))) in H.
  rewrite Rlt_bool_true in H by (apply rnd_small; apply Rabs_le; lra). destruct H as (V & F & _). split; [exact F|]. unfold real at 1. rewrite V.
  pose proof (rnd_error_any (IZR z * bpow radix2 (-54))) as R. set (w := IZR z * bpow radix2 (-54)) in *. assert (W : Rabs w <= 1 + eps / 4) by (apply Rabs_le; lra). assert (eps * Rabs w <= eps * (1 + eps / 4)) by (apply Rmult_le_compat_l; lra).
  assert (0 <= eps * eps <= / 1024 * eps) by (split; [apply Rmult_le_pos; lra|apply Rmult_le_compat_r; lra]). assert (E3 : eta <= eps * eps) by (unfold eta, eps; rewrite <- bpow_plus; apply bpow_le; lia). apply Rabs_le_inv in R. apply Rabs_le. lra.
Qed.

Lemma product_near : forall (r s : b64) (v : R), moderate_radius r -> is_number s -> Rabs (real s - v) <= 2 * eps -> Rabs v <= 1 -> is_number (fmul r s) /\ Rabs (real (fmul r s) - real r * v) <= 3.01 * (eps * real r).
Proof.
  intros r s v (Fr & Br) Fs Es Bv. unfold is_number, real in *. pose proof eps_bounds as [E1 E2]. pose proof (bpow_gt_0 radix2 (-300)) as P. assert (R0 : 0 < val r) by lra.
  assert (HH : 4 * bpow radix2 300 <= huge). { change 4 with (bpow radix2 2). rewrite <- bpow_plus. unfold huge. apply bpow_le. lia. }
  assert (ET : eta <= eps * (eps * val r)). { apply Rle_trans with (bpow radix2 (-53) * (bpow radix2 (-53) * bpow radix2 (-300))). { rewrite <- !bpow_plus. unfold eta. apply bpow_le. lia. } unfold eps. do 2 (apply Rmult_le_compat_l; [apply bpow_ge_0|]). lra. }
  assert (Bs : Rabs (val s) <= 1 + 2 * eps). { replace (val s) with ((val s - v) + v) by ring. eapply Rle_trans; [apply Rabs_triang|]. lra. }
  assert (Q : Rabs (val r * val s) <= val r + 2 * (eps * val r)). { rewrite Rabs_mult, (Rabs_pos_eq (val r)) by lra. apply Rle_trans with (val r * (1 + 2 * eps)); [apply Rmult_le_compat_l; lra|lra]. }
  assert (ER : 0 <= eps * val r <= / 1024 * val r) by (split; [apply Rmult_le_pos; lra|apply Rmult_le_compat_r; lra]). assert (EER : 0 <= eps * (eps * val r) <= / 1024 * (eps * val r)) by (split; [apply Rmult_le_pos; lra|apply Rmult_le_compat_r; lra]).
  destruct (fmul_fine r s Fr Fs) as (V & F); [lra|]. split; [exact F|]. rewrite V. pose proof (rnd_error_any (val r * val s)) as D. assert (eps * Rabs (val r * val s) <= eps * (val r + 2 * (eps * val r))) by (apply Rmult_le_compat_l; lra).
  assert (S : Rabs (val r * val s - val r * v) <= 2 * (eps * val r)). { replace (val r * val s - val r * v) with (val r * (val s - v)) by ring. rewrite Rabs_mult, (Rabs_pos_eq (val r)) by lra. apply Rle_trans with (val r * (2 * eps)); [apply Rmult_le_compat_l; lra|lra]. }
  apply Rabs_le_inv in D. apply Rabs_le_inv in S. assert (2 * (eps * (eps * val r)) + eta <= 1 / 100 * (eps * val r)). { assert (eps * (eps * val r) <= / 1024 * (eps * val r)) by lra. assert (EE : eps <= / 10000) by (unfold eps; change (bpow radix2 (-53)) with (/ 9007199254740992); lra). assert (eps * (eps * val r) <= / 10000 * (eps * val r)) by (apply Rmult_le_compat_r; lra). lra. }
  apply Rabs_le. lra.
Qed.

Lemma laid : forall sn cs r x y, accurate sn sin -> accurate cs cos -> moderate_radius r -> moderate_ordinate y -> let t := fdiv64 y r in laid_on r x y (x, fmul r (sn t), fmul r (cs t)).
Proof.
  intros sn cs r x y Sn Cs Mr (Fy & By) t. pose proof Mr as (Fr & Br). pose proof eps_bounds as [E1 E2]. pose proof eta_bounds as [H1 H2]. pose proof (bpow_gt_0 radix2 (-300)) as P. assert (R0 : 0 < real r) by lra.
  assert (IR : 0 < / real r) by (apply Rinv_0_lt_compat; lra).
  assert (Q : Rabs (real y / real r) <= huge). { unfold Rdiv. rewrite Rabs_mult, (Rabs_pos_eq (/ real r)) by lra. apply Rmult_le_reg_r with (real r); [lra|]. rewrite Rmult_assoc, Rinv_l, Rmult_1_r by lra. apply Rle_trans with (bpow radix2 600 * bpow radix2 (-300)); [rewrite <- bpow_plus; exact By|].
    apply Rmult_le_compat; [apply bpow_ge_0|apply bpow_ge_0|unfold huge; apply bpow_le; lia|lra]. }
  destruct (fdiv_fine y r Fy) as (V & F); [unfold real in R0; lra|exact Q|]. fold t in V, F. pose proof (rnd_error_any (val y / val r)) as D. rewrite <- V in D. fold (real t) (real y) (real r) in D.
  assert (T : real r * Rabs (real t - real y / real r) <= eps * Rabs (real y) + real r * eta).
  { eapply Rle_trans; [apply Rmult_le_compat_l; [lra|exact D]|]. unfold Rdiv. rewrite Rabs_mult, (Rabs_pos_eq (/ real r)) by lra. right. field. lra. }
  destruct (Sn t F) as (Fs & Es). destruct (Cs t F) as (Fc & Ec). destruct (product_near r (sn t) _ Mr Fs Es) as (FY & EY). { apply Rabs_le. apply SIN_bound. } destruct (product_near r (cs t) _ Mr Fc Ec) as (FZ & EZ). { apply Rabs_le. apply COS_bound. }
  destruct (sin_lip (real t) (real y / real r)) as (LS & LC). apply (Rmult_le_compat_l (real r)) in LS; [|lra]. apply (Rmult_le_compat_l (real r)) in LC; [|lra]. rewrite <- (Rabs_pos_eq (real r)) in LS at 1 by lra. rewrite <- (Rabs_pos_eq (real r)) in LC at 1 by lra. rewrite <- Rabs_mult in LS, LC.
  assert (ER : 0 <= eps * real r) by (apply Rmult_le_pos; lra). assert (ETR : real r * eta <= 99 / 100 * (eps * real r)). { assert (E3 : eta <= eps * eps) by (unfold eta, eps; rewrite <- bpow_plus; apply bpow_le; lia). assert (EE : eps * eps <= / 1024 * eps) by (apply Rmult_le_compat_r; lra). assert (real r * eta <= real r * (/ 1024 * eps)) by (apply Rmult_le_compat_l; lra). lra. }
  unfold laid_on. split; [reflexivity|]. split; [exact FY|]. split; [exact FZ|]. split; [|split].
  - set (u := real (fmul r (sn t)) - real r * sin (real t)) in *. set (v := real (fmul r (cs t)) - real r * cos (real t)) in *. set (rr := real r) in *.
    replace (real (fmul r (sn t))) with (rr * sin (real t) + u) by (unfold u; ring). replace (real (fmul r (cs t))) with (rr * cos (real t) + v) by (unfold v; ring).
    pose proof (sin2_cos2 (real t)) as SC. unfold Rsqr in SC. pose proof (SIN_bound (real t)) as SB. pose proof (COS_bound (real t)) as CB. set (S := sin (real t)) in *. set (C := cos (real t)) in *.
    replace ((rr * S + u) * (rr * S + u) + (rr * C + v) * (rr * C + v) - rr * rr) with (2 * rr * (u * S + v * C) + (u * u + v * v) + rr * rr * (S * S + C * C - 1)) by ring. replace (S * S + C * C - 1) with 0 by lra. rewrite Rmult_0_r, Rplus_0_r.
    set (m := 3.01 * (eps * rr)) in *. assert (m0 : 0 <= m) by (unfold m; lra).
    assert (US : Rabs (u * S + v * C) <= 2 * m). { eapply Rle_trans; [apply Rabs_triang|]. rewrite !Rabs_mult. assert (Rabs S <= 1) by (apply Rabs_le; lra). assert (Rabs C <= 1) by (apply Rabs_le; lra). pose proof (Rabs_pos u). pose proof (Rabs_pos v).
      assert (Rabs u * Rabs S <= m * 1) by (apply Rmult_le_compat; [lra|apply Rabs_pos|exact EY|lra]). assert (Rabs v * Rabs C <= m * 1) by (apply Rmult_le_compat; [lra|apply Rabs_pos|exact EZ|lra]). lra. }
    assert (UU : u * u <= m * m). { rewrite <- (Rabs_pos_eq (u * u)) by (apply Rle_0_sqr). rewrite Rabs_mult. apply Rmult_le_compat; try apply Rabs_pos; exact EY. } assert (VV : v * v <= m * m). { rewrite <- (Rabs_pos_eq (v * v)) by (apply Rle_0_sqr). rewrite Rabs_mult. apply Rmult_le_compat; try apply Rabs_pos; exact EZ. }
    pose proof (Rle_0_sqr u) as U0. pose proof (Rle_0_sqr v) as V0. unfold Rsqr in U0, V0.
    eapply Rle_trans; [apply Rabs_triang|]. rewrite (Rabs_pos_eq (u * u + v * v)) by lra. rewrite Rabs_mult, (Rabs_pos_eq (2 * rr)) by lra. assert (2 * rr * Rabs (u * S + v * C) <= 2 * rr * (2 * m)) by (apply Rmult_le_compat_l; lra).
    assert (RR : 0 <= eps * (rr * rr)) by (apply Rmult_le_pos; [lra|apply Rmult_le_pos; lra]). assert (MM : m * m <= / 100 * (eps * (rr * rr))). { unfold m. replace (3.01 * (eps * rr) * (3.01 * (eps * rr))) with (3.01 * 3.01 * eps * (eps * (rr * rr))) by ring. apply Rmult_le_compat_r; [exact RR|]. unfold eps. change (bpow radix2 (-53)) with (/ 9007199254740992). lra. }
    assert (EQ : 2 * rr * (2 * m) = 12.04 * (eps * (rr * rr))) by (unfold m; lra). lra.
  - replace (real (fmul r (sn t)) - real r * sin (real y / real r)) with ((real (fmul r (sn t)) - real r * sin (real t)) + real r * (sin (real t) - sin (real y / real r))) by ring. eapply Rle_trans; [apply Rabs_triang|]. lra.
  - replace (real (fmul r (cs t)) - real r * cos (real y / real r)) with ((real (fmul r (cs t)) - real r * cos (real t)) + real r * (cos (real t) - cos (real y / real r))) by ring. eapply Rle_trans; [apply Rabs_triang|]. lra.
Qed.

Lemma wrap_points : forall sn cs r xs ys pts, wrap64 sn cs r xs ys = Ok pts -> length xs = length ys /\ length pts = length xs /\
  forall j x y, nth_error xs j = Some x -> nth_error ys j = Some y -> nth_error pts j = Some (x, fmul r (sn (fdiv64 y r)), fmul r (cs (fdiv64 y r))).
Proof.
  intros sn cs r xs ys pts E. unfold wrap64, vzip in E. rewrite !map_length, Nat.eqb_refl in E. cbn [bind] in E.
  assert (Q : map2 pair (map (fun t => fmul r (sn t)) (map (fun y => fdiv64 y r) ys)) (map (fun t => fmul r (cs t)) (map (fun y => fdiv64 y r) ys)) = map (fun y => (fmul r (sn (fdiv64 y r)), fmul r (cs (fdiv64 y r)))) ys).
  { clear. induction ys as [|y ys IH]; [reflexivity|]. cbn [map map2]. f_equal. exact IH. }
  rewrite Q, map_length in E. clear Q. destruct (Nat.eqb_spec (length xs) (length ys)) as [L|L]; [|discriminate]. injection E as <-. split; [exact L|]. revert ys L. induction xs as [|a xs IH]; intros [|b ys] L; try discriminate; cbn [map map2 length]; [split; [reflexivity|intros [|]; discriminate]|].
  injection L as L. destruct (IH ys L) as (L' & P). split; [cbn; f_equal; exact L'|]. intros [|j] x y Hx Hy; cbn [nth_error] in *; [injection Hx as ->; injection Hy as ->; reflexivity|apply P; assumption].
Qed.
Lemma wrap_total : forall sn cs r xs ys, length xs = length ys -> exists pts, wrap64 sn cs r xs ys = Ok pts.
Proof.
  intros sn cs r xs ys L. unfold wrap64, vzip. rewrite !map_length, Nat.eqb_refl. cbn [bind].
  assert (Q : length (map2 pair (map (fun t => fmul r (sn t)) (map (fun y => fdiv64 y r) ys)) (map (fun t => fmul r (cs t)) (map (fun y => fdiv64 y r) ys))) = length ys).
  { clear. induction ys as [|y ys IH]; [reflexivity|]. cbn. f_equal. exact IH. }
  rewrite Q, L, Nat.eqb_refl. eexists. reflexivity.
Qed.
Lemma combine_nth_error : forall A B (a : list A) (b : list B) i x y, nth_error (combine a b) i = Some (x, y) -> nth_error a i = Some x /\ nth_error b i = Some y.
Proof. induction a as [|x a IH]; intros [|y b] [|i] u v H; cbn in *; try discriminate; [injection H as -> ->; auto|apply IH; exact H]. Qed.

Lemma mapM_at : forall A B (f : A -> res B) l l', mapM f l = Ok l' -> length l' = length l /\ forall i b, nth_error l' i = Some b -> exists a, nth_error l i = Some a /\ f a = Ok b.
Proof.
  induction l as [|a l IH]; intros l' E; cbn [mapM] in E. { injection E as <-. split; [reflexivity|]. intros [|]; discriminate. }
  destruct (f a) as [b|] eqn:Ea; [|discriminate]. cbn [bind] in E. destruct (mapM f l) as [bs|]; [|discriminate]. cbn [bind] in E. injection E as <-. destruct (IH bs eq_refl) as (L & P). split; [cbn; congruence|].
  intros [|i] c H; cbn in H; [injection H as <-; exists a; auto|apply P; exact H].
Qed.

Lemma on_cylinders : forall sn cs sections radii up down, accurate sn sin -> accurate cs cos -> cylinder64 sn cs sections radii = Ok (up, down) ->
  length up = Nat.min (length sections) (length radii) /\ length down = length up /\
  forall i, (i < length up)%nat -> exists s r U V, nth_error (rev sections) i = Some s /\ nth_error (rev radii) i = Some r /\ nth_error up i = Some U /\ nth_error down i = Some V /\
  length U = length (fxup s) /\ length V = length (fxdown s) /\
  (moderate_radius r -> (forall j x y, nth_error (fxup s) j = Some x -> nth_error (fyup s) j = Some y -> moderate_ordinate y -> exists q, nth_error U j = Some q /\ laid_on r x y q) /\
    (forall j x y, nth_error (fxdown s) j = Some x -> nth_error (fydown s) j = Some y -> moderate_ordinate y -> exists q, nth_error V j = Some q /\ laid_on r x y q)).
Proof.
  intros sn cs sections radii up down Sn Cs E. unfold cylinder64 in E. destruct (mapM _ _) as [ud|] eqn:M; [|discriminate]. cbn [bind] in E. destruct (stackable64 (map snd ud) && stackable64 (map fst ud))%bool; [|discriminate]. injection E as <- <-.
  apply mapM_at in M as (L & P). rewrite !map_length. rewrite combine_length, !rev_length in L. split; [exact L|]. split; [reflexivity|].
  intros i Hi. destruct (nth_error ud i) as [[U V]|] eqn:Eu; [|apply nth_error_None in Eu; lia]. destruct (P i _ Eu) as ((s & r) & Es & Ew). cbn [fst snd] in Ew. apply combine_nth_error in Es as (Es & Er).
  destruct (wrap64 sn cs r (fxup s) (fyup s)) as [u|] eqn:Wu; [|discriminate]. cbn [bind] in Ew. destruct (wrap64 sn cs r (fxdown s) (fydown s)) as [d|] eqn:Wd; [|discriminate]. cbn [bind] in Ew. injection Ew as -> ->.
  exists s, r, U, V. rewrite !nth_error_map, Eu. destruct (wrap_points _ _ _ _ _ _ Wu) as (_ & Lu & Pu). destruct (wrap_points _ _ _ _ _ _ Wd) as (_ & Ld & Pd).
  split; [exact Es|]. split; [exact Er|]. split; [reflexivity|]. split; [reflexivity|]. split; [exact Lu|]. split; [exact Ld|]. intros Mr. split; intros j x y Hx Hy My; eexists; (split; [|apply (laid sn cs r x y Sn Cs Mr My)]); [apply Pu|apply Pd]; assumption.
Qed.

Lemma stacks : forall n l, l <> [] -> Forall (fun a : list (b64 * b64 * b64) => length a = n) l -> stackable64 l = true.
Proof.
  intros n [|a l] H F; [congruence|]. inversion F; subst. cbn. apply forallb_forall. intros b I. rewrite Forall_forall in H3. apply Nat.eqb_eq. apply H3, I.
Qed.
Lemma cylinders_built : forall sn cs sections radii n m, sections <> [] -> radii <> [] -> Forall (fun s => length (fxup s) = n /\ length (fyup s) = n /\ length (fxdown s) = m /\ length (fydown s) = m) sections ->
  exists up down, cylinder64 sn cs sections radii = Ok (up, down).
Proof.
  intros sn cs sections radii n m NS NR F. unfold cylinder64. set (f := fun sr : fprofile * b64 => _).
  assert (T : forall l, Forall (fun sr : fprofile * b64 => length (fxup (fst sr)) = n /\ length (fyup (fst sr)) = n /\ length (fxdown (fst sr)) = m /\ length (fydown (fst sr)) = m) l ->
    exists ud, mapM f l = Ok ud /\ length ud = length l /\ Forall (fun a => length a = n) (map fst ud) /\ Forall (fun a => length a = m) (map snd ud)).
  { induction l as [|[s r] l IH]; intros G; [exists []; repeat split; constructor|]. inversion G as [|? ? (A & B & C & D) G']; subst. cbn [fst] in *. destruct (IH G') as (ud & E & L & U & V). cbn [mapM].
    destruct (wrap_total sn cs r (fxup s) (fyup s)) as (u & Eu); [congruence|]. destruct (wrap_total sn cs r (fxdown s) (fydown s)) as (d & Ed); [congruence|]. unfold f at 1. cbn [fst snd]. rewrite Eu, Ed. cbn [bind]. rewrite E. cbn [bind].
    exists ((u, d) :: ud). split; [reflexivity|]. split; [cbn; congruence|]. cbn [map fst snd]. destruct (wrap_points _ _ _ _ _ _ Eu) as (_ & Lu & _). destruct (wrap_points _ _ _ _ _ _ Ed) as (_ & Ld & _). split; constructor; auto; congruence. }
  destruct (T (combine (rev sections) (rev radii))) as (ud & E & L & U & V).
  { apply Forall_forall. intros [s r] I. apply in_combine_l in I. apply in_rev in I. rewrite Forall_forall in F. apply F, I. }
  rewrite E. cbn [bind]. assert (ud <> []). { intros ->. rewrite combine_length, !rev_length in L. destruct sections; [congruence|]. destruct radii; [congruence|]. cbn in L. discriminate. }
  rewrite (stacks m (map snd ud)), (stacks n (map fst ud)); auto; try (intros Q; apply map_eq_nil in Q; contradiction). do 2 eexists. reflexivity.
Qed.

Lemma only_value_error : forall sn cs sections radii e, cylinder64 sn cs sections radii = Err e -> e = ValueError.
Proof.
  intros sn cs sections radii e. unfold cylinder64. set (f := fun sr : fprofile * b64 => _).
  assert (W : forall r xs ys e', wrap64 sn cs r xs ys = Err e' -> e' = ValueError).
  { intros r xs ys e'. unfold wrap64, vzip. destruct (Nat.eqb _ _); cbn [bind]; [destruct (Nat.eqb _ _); [discriminate|]|]; congruence. }
  assert (F : forall a e', f a = Err e' -> e' = ValueError).
  { intros [s r] e'. unfold f. cbn [fst snd]. destruct (wrap64 sn cs r (fxup s) (fyup s)) eqn:A; cbn [bind]; [|intros [= <-]; eapply W; exact A]. destruct (wrap64 sn cs r (fxdown s) (fydown s)) eqn:B; cbn [bind]; [discriminate|intros [= <-]; eapply W; exact B]. }
  assert (M : forall l e', mapM f l = Err e' -> e' = ValueError).
  { induction l as [|a l IH]; intros e' H; cbn [mapM] in H; [discriminate|]. destruct (f a) eqn:A; cbn [bind] in H; [|injection H as <-; eapply F; exact A]. destruct (mapM f l) eqn:B; cbn [bind] in H; [discriminate|]. injection H as <-. eapply IH. reflexivity. }
  destruct (mapM f _) eqn:A; cbn [bind]; [destruct (_ && _)%bool; congruence|]. intros [= <-]. eapply M. exact A.
Qed.
Lemma stacked : forall l, stackable64 l = true -> forall i j a b, nth_error l i = Some a -> nth_error l j = Some b -> length a = length b.
Proof.
  intros [|c l] H; [discriminate|]. cbn in H. rewrite forallb_forall in H.
  assert (Q : forall i a, nth_error (c :: l) i = Some a -> length a = length c). { intros i a E. apply nth_error_In in E as [->|I]; [reflexivity|]. apply Nat.eqb_eq, H, I. }
  intros i j a b A B. rewrite (Q i a A), (Q j b B). reflexivity.
Qed.
Lemma uneven : forall sn cs sections radii i j s t, nth_error (rev sections) i = Some s -> nth_error (rev sections) j = Some t -> (i < length radii)%nat -> (j < length radii)%nat ->
  (length (fxup s) <> length (fxup t) \/ length (fxdown s) <> length (fxdown t) \/ length (fxup s) <> length (fyup s) \/ length (fxdown s) <> length (fydown s)) -> cylinder64 sn cs sections radii = Err ValueError.
Proof.
  intros sn cs sections radii i j s t Hi Hj Li Lj D. destruct (cylinder64 sn cs sections radii) as [[up down]|e] eqn:E; [exfalso|f_equal; eapply only_value_error; exact E].
  unfold cylinder64 in E. destruct (mapM _ _) as [ud|] eqn:M; [|discriminate]. cbn [bind] in E. destruct (stackable64 (map snd ud)) eqn:Sd; [|discriminate]. destruct (stackable64 (map fst ud)) eqn:Su; [|discriminate]. clear E.
  apply mapM_at in M as (L & P). rewrite combine_length, !rev_length in L.
  assert (K : forall k v, nth_error (rev sections) k = Some v -> (k < length radii)%nat -> exists U V, nth_error ud k = Some (U, V) /\ length U = length (fxup v) /\ length V = length (fxdown v) /\ length (fxup v) = length (fyup v) /\ length (fxdown v) = length (fydown v)).
  { intros k v Hk Lk. assert (k < length (rev sections))%nat by (apply nth_error_Some; congruence). rewrite rev_length in *. destruct (nth_error ud k) as [[U V]|] eqn:Eu; [|apply nth_error_None in Eu; lia]. destruct (P k _ Eu) as ((v' & r) & Es & Ew). apply combine_nth_error in Es as (Es & _). assert (v' = v) by congruence. subst v'. cbn [fst snd] in Ew.
    destruct (wrap64 sn cs r (fxup v) (fyup v)) as [u|] eqn:Wu; [|discriminate]. cbn [bind] in Ew. destruct (wrap64 sn cs r (fxdown v) (fydown v)) as [d|] eqn:Wd; [|discriminate]. cbn [bind] in Ew. injection Ew as -> ->. apply wrap_points in Wu as (A & B & _). apply wrap_points in Wd as (A' & B' & _). exists U, V. auto. }
  destruct (K i s Hi Li) as (U & V & E1 & A1 & A2 & A3 & A4). destruct (K j t Hj Lj) as (U' & V' & E2 & B1 & B2 & _).
  assert (length U = length U') by (apply (stacked _ Su i j); rewrite nth_error_map, ?E1, ?E2; reflexivity). assert (length V = length V') by (apply (stacked _ Sd i j); rewrite nth_error_map, ?E1, ?E2; reflexivity).
  unfold b64 in *. destruct D as [D|[D|[D|D]]]; apply D; congruence.
Qed.
Lemma nothing_to_wrap : forall sn cs sections radii, sections = [] \/ radii = [] -> cylinder64 sn cs sections radii = Err ValueError.
Proof. intros sn cs sections radii [->| ->]; [reflexivity|]. unfold cylinder64. cbn [rev]. destruct (rev sections); reflexivity. Qed.
Lemma sine_bound : forall t, Rabs (sin t) <= 1.
Proof. intros t. apply Rabs_le. apply SIN_bound. Qed.
Lemma cosine_bound : forall t, Rabs (cos t) <= 1.
Proof. intros t. apply Rabs_le. apply COS_bound. Qed.
