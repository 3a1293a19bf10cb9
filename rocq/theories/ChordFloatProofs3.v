(** The largest camber in binary64. *)
From Coq Require Import Reals ZArith List Lra Lia Bool.
From Flocq Require Import Core BinarySingleNaN.
From Verif Require Import Base PpgFloatModel PpgFloatProofs ProfileModel ProfileSpec FloatModel FloatSpec FloatProofs FloatProofs2 ShapeFloatModel ShapeFloatSpec ShapeFloatProofs ShapeFloatProofs2 ShapeFloatProofs4 ShapeFloatProofs5 ShapeFloatProofs6 SectionFloatModel SectionFloatSpec SectionFloatProofs SectionFloatProofs3 SectionFloatProofs4 SectionFloatProofs5 SectionFloatProofs6 SectionFloatProofs8 ChordFloatModel ChordFloatProofs ChordFloatProofs2.
Import ListNotations.
Open Scope R_scope.

Lemma in_range : forall (P : R -> Prop) l i, Forall P (map real l) -> (i < length l)%nat -> P (real (nth i l zero64)).
Proof. intros P l i F H. rewrite Forall_forall in F. apply F, in_map, nth_In, H. Qed.
Lemma nth_value : forall (l : list b64) i, (i < length l)%nat -> nth_error l i = Some (nth i l zero64).
Proof. intros l i H. apply nth_error_nth'. exact H. Qed.

(** The camber line point by point. *)
Lemma camber_points : forall p B, numbers p -> common_abscissae p -> same_sizes p -> B <= huge / 2 ->
  Forall (fun y => Rabs y <= B) (yup (meaning p)) -> Forall (fun y => Rabs y <= B) (ydown (meaning p)) ->
  Forall is_number (camber_list64 p) /\ forall i, (i < length (fxup p))%nat -> let c := val (nth i (camber_list64 p) zero64) in
  let m := (real (nth i (fyup p) zero64) + real (nth i (fydown p) zero64)) / 2 in Rabs m <= B /\ Rabs c <= B /\ Rabs (c - m) <= 3 * eps * Rabs m + eta.
Proof.
  intros p B N C S BH BU BD. destruct (camber_accuracy p N C S) as (cs & E & L & Fc & K); [eapply Forall_impl; [|exact BU]; intros y Hy; lra|eapply Forall_impl; [|exact BD]; intros y Hy; lra|].
  rewrite camber_list in E by auto. injection E as E. fold (camber_list64 p) in E. rewrite <- E in *. split; [exact Fc|]. intros i Hi. pose proof S as (S1 & S2 & S3).
  destruct (K i _ _ (nth_value (fyup p) i ltac:(unfold b64 in *; lia)) (nth_value (fydown p) i ltac:(unfold b64 in *; lia))) as (c & Ec & Bt & Er). rewrite nth_value in Ec by (unfold b64 in *; lia). injection Ec as Ec. cbv zeta in *. rewrite Ec.
  pose proof (in_range _ _ i BU ltac:(unfold b64 in *; lia)) as Bu. pose proof (in_range _ _ i BD ltac:(unfold b64 in *; lia)) as Bd. cbn beta in Bu, Bd. apply Rabs_le_inv in Bu. apply Rabs_le_inv in Bd.
  set (u := real (nth i (fyup p) zero64)) in *. set (d := real (nth i (fydown p) zero64)) in *. unfold real in Bt, Er. split; [apply Rabs_le; lra|]. split; [|exact Er].
  apply Rabs_le. revert Bt. unfold Rmin, Rmax. destruct (Rle_dec u d); lra.
Qed.

(** From the distance of computed lines to the distance of the exact ones. *)
Lemma measured : forall o p hs B k w (line : R -> R), numbers p -> common_abscissae p -> same_sizes p -> fxup p <> [] -> compute_chord_line64 p = Ok (fxup p, hs) -> length hs = length (fxup p) ->
  0 <= B <= bpow radix2 300 -> 0 <= k <= 14 -> 0 <= w <= bpow radix2 (-600) ->
  Forall (fun y => Rabs y <= B) (yup (meaning p)) -> Forall (fun y => Rabs y <= B) (ydown (meaning p)) -> Forall is_number hs ->
  (forall i, (i < length (fxup p))%nat -> let l := line (real (nth i (fxup p) zero64)) in Rabs l <= B /\ Rabs (val (nth i hs zero64) - l) <= k * eps * B + w) ->
  exists m, max_camber64 o p = Ok m /\ is_number m /\
  let camber i := (real (nth i (fyup p) zero64) + real (nth i (fydown p) zero64)) / 2 - line (real (nth i (fxup p) zero64)) in
  let bound := (k + 6) * eps * B + bpow radix2 (-500) in
  (exists i, (i < length (fxup p))%nat /\ Rabs (real m - camber i) <= bound) /\ (forall j, (j < length (fxup p))%nat -> Rabs (camber j) <= Rabs (real m) + bound).
Proof.
  intros o p hs B k w line N C S NE E L BB KK WW BU BD Fh Ln. pose proof eps_bounds as [E1 E2]. pose proof eta_bounds as [H1 H2].
  assert (B3 : bpow radix2 300 * 8 <= bpow radix2 511). { change 8 with (bpow radix2 3). rewrite <- bpow_plus. apply bpow_le. lia. }
  assert (BH : bpow radix2 511 <= huge / 2). { unfold huge. replace (bpow radix2 1023 / 2) with (bpow radix2 1022) by (change 1023%Z with (1022 + 1)%Z; rewrite bpow_plus; change (bpow radix2 1) with 2; field). apply bpow_le. lia. }
  assert (WS : bpow radix2 (-600) <= / 16 * bpow radix2 (-500)). { change (/ 16) with (bpow radix2 (-4)). rewrite <- bpow_plus. apply bpow_le. lia. }
  assert (TS : bpow radix2 (-511) <= / 16 * bpow radix2 (-500)). { change (/ 16) with (bpow radix2 (-4)). rewrite <- bpow_plus. apply bpow_le. lia. }
  assert (HS : eta <= / 16 * bpow radix2 (-500)). { change (/ 16) with (bpow radix2 (-4)). rewrite <- bpow_plus. apply bpow_le. lia. }
  assert (P5 : 0 < bpow radix2 (-500) <= 1). { split; [apply bpow_gt_0|]. change 1 with (bpow radix2 0). apply bpow_le. lia. }
  assert (P3 : 1 <= bpow radix2 300). { change 1 with (bpow radix2 0). apply bpow_le. lia. }
  destruct (camber_points p B N C S ltac:(lra) BU BD) as (Fc & Kc). set (n := length (fxup p)) in *. cbv zeta in Kc, Ln.
  assert (EB : 0 <= eps * B <= / 1024 * B) by (split; [apply Rmult_le_pos; lra|apply Rmult_le_compat_r; lra]).
  assert (E53 : eps * 1024 <= / 1024). { unfold eps. change 1024 with (bpow radix2 10) at 1. rewrite <- bpow_plus. change (/ 1024) with (bpow radix2 (-10)). apply bpow_le. lia. }
  assert (EB2 : eps * B * 1024 <= / 1024 * B). { replace (eps * B * 1024) with (eps * 1024 * B) by ring. apply Rmult_le_compat_r; lra. }
  assert (KB : 0 <= k * eps * B <= 14 * (eps * B)). { replace (k * eps * B) with (k * (eps * B)) by ring. split; [apply Rmult_le_pos; lra|apply Rmult_le_compat_r; lra]. }
  set (camber := fun i => (real (nth i (fyup p) zero64) + real (nth i (fydown p) zero64)) / 2 - line (real (nth i (fxup p) zero64))).
  assert (G : forall i, (i < n)%nat -> let c := val (nth i (camber_list64 p) zero64) in let h := val (nth i hs zero64) in
    Rabs (c - h) <= 3 * B + 1 /\ Rabs (rnd (c - h) - camber i) <= (k + 6) * eps * B + / 2 * bpow radix2 (-500)).
  { intros i Hi c h. destruct (Kc i Hi) as (Bm & Bc & Ec). destruct (Ln i Hi) as (Bl & El). fold c in Bc, Ec. fold h in El. set (m := (real (nth i (fyup p) zero64) + real (nth i (fydown p) zero64)) / 2) in *. set (l := line (real (nth i (fxup p) zero64))) in *.
    assert (eps * Rabs m <= eps * B) by (apply Rmult_le_compat_l; lra). apply Rabs_le_inv in Bm. apply Rabs_le_inv in Bc. apply Rabs_le_inv in Ec. apply Rabs_le_inv in Bl. apply Rabs_le_inv in El.
    assert (A : Rabs (c - h) <= 2 * B + / 16 * B + / 8 * bpow radix2 (-500)) by (apply Rabs_le; lra). split; [lra|].
    pose proof (diff_error (nth i (camber_list64 p) zero64) (nth i hs zero64)) as D. fold c h in D. assert (eps * Rabs (c - h) <= eps * (2 * B + / 16 * B + / 8 * bpow radix2 (-500))) by (apply Rmult_le_compat_l; lra).
    assert (eps * bpow radix2 (-500) <= / 1024 * bpow radix2 (-500)) by (apply Rmult_le_compat_r; lra).
    change (camber i) with (m - l). apply Rabs_le_inv in D. apply Rabs_le. replace ((k + 6) * eps * B) with (k * eps * B + 6 * (eps * B)) by ring. lra. }
  destruct (found o p hs N C S NE E L Fh Fc) as (m & Em & Fm & i & Hi & Er & Mx & _). { intros i Hi. fold n in Hi. destruct (G i Hi) as (G1 & _). rewrite Rabs_minus_sym. lra. }
  fold n in Hi, Mx. exists m. split; [exact Em|]. split; [exact Fm|]. split.
  - exists i. split; [exact Hi|]. destruct (G i Hi) as (_ & Gi). apply Rabs_le_inv in Gi. apply Rabs_le_inv in Er. unfold real at 1. fold (camber i). apply Rabs_le. lra.
  - intros j Hj. destruct (G j Hj) as (_ & Gj). pose proof (Mx j Hj) as Mj. fold (camber j). unfold real at 1. set (g := rnd (val (nth j (camber_list64 p) zero64) - val (nth j hs zero64))) in *.
    assert (Rabs (camber j) <= Rabs (camber j - g) + Rabs g). { replace (camber j) with ((camber j - g) + g) at 1 by ring. apply Rabs_triang. } rewrite Rabs_minus_sym in Gj. lra.
Qed.

(** ** Level chord *)
Definition level (p : fprofile) : Prop := real (last (fyup p) zero64) + real (last (fydown p) zero64) = 2 * real (hd zero64 (fyup p)).
Lemma hd_in : forall (l : list b64), l <> [] -> In (hd zero64 l) l.
Proof. intros [|x l] H; [congruence|left; reflexivity]. Qed.
Lemma level_measured : forall o p B, numbers p -> common_abscissae p -> same_sizes p -> fxup p <> [] -> level p ->
  real (hd zero64 (fxup p)) <> real (last (fxup p) zero64) -> Forall (fun x => Rabs x <= huge / 2) (xup (meaning p)) -> B <= bpow radix2 300 ->
  Forall (fun y => Rabs y <= B) (yup (meaning p)) -> Forall (fun y => Rabs y <= B) (ydown (meaning p)) ->
  exists m, max_camber64 o p = Ok m /\ is_number m /\
  let camber i := (real (nth i (fyup p) zero64) + real (nth i (fydown p) zero64)) / 2 - real (hd zero64 (fyup p)) in
  let bound := 6 * eps * B + bpow radix2 (-500) in
  (exists i, (i < length (fxup p))%nat /\ Rabs (real m - camber i) <= bound) /\ (forall j, (j < length (fxup p))%nat -> Rabs (camber j) <= Rabs (real m) + bound).
Proof.
  intros o p B N C S NE Lv Df BX BB BU BD. pose proof S as (S1 & S2 & S3). assert (NY : fyup p <> []) by (apply (not_nil _ _ (fxup p)); auto; congruence).
  assert (By : Rabs (real (hd zero64 (fyup p))) <= B). { rewrite Forall_forall in BU. apply BU. unfold meaning. cbn [yup]. apply in_map, hd_in, NY. }
  assert (BH : bpow radix2 300 <= huge / 2). { unfold huge. replace (bpow radix2 1023 / 2) with (bpow radix2 1022) by (change 1023%Z with (1022 + 1)%Z; rewrite bpow_plus; change (bpow radix2 1) with 2; field). apply bpow_le. lia. }
  assert (B0 : 0 <= B) by (pose proof (Rabs_pos (real (hd zero64 (fyup p)))); lra).
  destruct (level_line p N C S NE Lv ltac:(lra) Df BX) as (hs & E & L & Fh). pose proof (bpow_ge_0 radix2 (-600)) as P6.
  destruct (measured o p hs B 0 0 (fun _ => real (hd zero64 (fyup p))) N C S NE E L ltac:(lra) ltac:(lra) ltac:(lra) BU BD) as (m & Em & Fm & K).
  { eapply Forall_impl; [|exact Fh]. intros h H. apply H. }
  { intros i Hi. split; [exact By|]. pose proof (nth_Forall_b _ hs i Fh ltac:(unfold b64 in *; lia)) as (_ & V). unfold real at 1 in V. rewrite V. replace (real (hd zero64 (fyup p)) - real (hd zero64 (fyup p))) with 0 by ring. rewrite Rabs_R0. lra. }
  exists m. split; [exact Em|]. split; [exact Fm|]. cbv zeta in *. rewrite Rplus_0_l in K. exact K.
Qed.

(** On the axis nothing is rounded but the mean ordinates. *)
Lemma on_axis : forall o p cs, numbers p -> common_abscissae p -> same_sizes p -> fxup p <> [] -> real (hd zero64 (fyup p)) = 0 -> real (last (fyup p) zero64) = - real (last (fydown p) zero64) ->
  real (hd zero64 (fxup p)) <> real (last (fxup p) zero64) -> Forall (fun x => Rabs x <= huge / 2) (xup (meaning p)) ->
  Forall (fun y => Rabs y <= bpow radix2 511) (yup (meaning p)) -> Forall (fun y => Rabs y <= bpow radix2 511) (ydown (meaning p)) ->
  compute_camber_line64 p = Ok (fxup p, cs) -> Forall (fun c => real c = 0 \/ bpow radix2 (-511) <= Rabs (real c)) cs ->
  exists m i c, max_camber64 o p = Ok m /\ is_number m /\ nth_error cs i = Some c /\ real m = real c /\
  (forall j c', nth_error cs j = Some c' -> Rabs (real c') <= Rabs (real m)) /\ (forall j c', (j < i)%nat -> nth_error cs j = Some c' -> Rabs (real c') < Rabs (real m)).
Proof.
  intros o p cs N C S NE Y0 Ye Df BX BU BD Ec Un. rewrite camber_list in Ec by auto. injection Ec as Ec. fold (camber_list64 p) in Ec. subst cs.
  assert (BH : bpow radix2 511 <= huge / 2). { unfold huge. replace (bpow radix2 1023 / 2) with (bpow radix2 1022) by (change 1023%Z with (1022 + 1)%Z; rewrite bpow_plus; change (bpow radix2 1) with 2; field). apply bpow_le. lia. }
  assert (Lv : level p) by (unfold level; lra). pose proof huge_big as HB. destruct (level_line p N C S NE Lv) as (hs & E & L & Fh); [rewrite Y0, Rabs_R0; lra|exact Df|exact BX|].
  destruct (camber_points p _ N C S BH BU BD) as (Fc & Kc). set (cs := camber_list64 p) in *. set (n := length (fxup p)) in *.
  assert (Lc : length cs = n). { destruct S as (S1 & S2 & S3). unfold cs, camber_list64, n. rewrite map2_size; congruence. }
  assert (H0 : forall i, (i < n)%nat -> val (nth i hs zero64) = 0). { intros i Hi. pose proof (nth_Forall_b _ hs i Fh ltac:(unfold b64 in *; lia)) as (_ & V). unfold real at 1 in V. lra. }
  assert (G : forall i, (i < n)%nat -> rnd (val (nth i cs zero64) - val (nth i hs zero64)) = val (nth i cs zero64)). { intros i Hi. rewrite H0, Rminus_0_r by auto. apply rnd_exact, format_val. }
  destruct (found o p hs N C S NE E L) as (m & Em & Fm & i & Hi & _ & _ & K).
  { eapply Forall_impl; [|exact Fh]. intros h H. apply H. }
  { exact Fc. }
  { intros i Hi. rewrite H0, Rminus_0_l, Rabs_Ropp by auto. apply Kc, Hi. }
  fold n in Hi, K. fold cs in K. destruct K as (V & Mx & Fi). { intros j Hj. rewrite G by auto. apply (nth_Forall_b _ cs j Un). unfold b64 in *. lia. }
  rewrite G in V by auto. exists m, i, (nth i cs zero64). split; [exact Em|]. split; [exact Fm|]. split; [apply nth_value; unfold b64 in *; lia|]. split; [exact V|]. unfold real. split.
  - intros j c Hj. assert (Lj : (j < n)%nat). { rewrite <- Lc. apply nth_error_Some. unfold b64 in *. congruence. } rewrite nth_value in Hj by (unfold b64 in *; lia). injection Hj as <-. rewrite <- (G j) by auto. apply Mx, Lj.
  - intros j c Hj Hc. assert (Lj : (j < n)%nat) by lia. rewrite nth_value in Hc by (unfold b64 in *; lia). injection Hc as <-. rewrite <- (G j) by auto. apply Fi, Hj.
Qed.

(** ** Any chord *)
Lemma inclined_line : forall p, let a := real (hd zero64 (fxup p)) in let b := real (last (fxup p) zero64) in let ya := real (hd zero64 (fyup p)) in let yb := real (last (fyup p) zero64) in
  let W := Rmax (Rabs ya) (Rabs yb) in
  numbers p -> common_abscissae p -> same_sizes p -> fxup p <> [] -> yb = real (last (fydown p) zero64) -> Forall (fun x => a <= x <= b) (xup (meaning p)) ->
  bpow radix2 (-300) <= b - a <= bpow radix2 300 -> W <= bpow radix2 300 ->
  exists hs, compute_chord_line64 p = Ok (fxup p, hs) /\ length hs = length (fxup p) /\ Forall is_number hs /\
  forall i x, nth_error (fxup p) i = Some x -> exists h, nth_error hs i = Some h /\
    Rabs (real h - (ya + (yb - ya) / (b - a) * (real x - a))) <= 6 * eps * Rabs (yb - ya) + 2 * eps * W + 2 * (1 + (b - a)) * eta /\ (real x = a -> real h = ya).
Proof.
  intros p a b ya yb W N C S NE Cl Mono BD BW. pose proof N as (N1 & N2 & N3 & N4). unfold compute_chord_line64. rewrite closed_edges by auto. cbn [bind fst snd]. rewrite same_ok by auto. cbn [bind].
  eexists. split; [reflexivity|]. split; [apply map_length|]. unfold meaning in Mono. cbn [xup] in Mono. rewrite Forall_forall in Mono.
  assert (Fa : is_number (hd zero64 (fxup p))) by (apply hd_number; auto). assert (Fb : is_number (last (fxup p) zero64)) by (apply last_number; auto).
  assert (Fya : is_number (hd zero64 (fyup p))) by (apply hd_number; auto). assert (Fyb : is_number (last (fyup p) zero64)) by (apply last_number; auto).
  assert (K : forall x, In x (fxup p) -> let h := fadd (fmul (fdiv64 (fsub (last (fyup p) zero64) (hd zero64 (fyup p))) (fsub (last (fxup p) zero64) (hd zero64 (fxup p)))) (fsub x (hd zero64 (fxup p)))) (hd zero64 (fyup p)) in
    finite h = true /\ Rabs (val h - (ya + (yb - ya) / (b - a) * (real x - a))) <= 6 * eps * Rabs (yb - ya) + 2 * eps * W + 2 * (1 + (b - a)) * eta /\ (real x = a -> real h = ya)).
  { intros x I. rewrite Forall_forall in N1. apply (chord_point _ _ _ _ x Fa Fb Fya Fyb (N1 _ I)); auto. apply (Mono (real x) (in_map real _ _ I)). }
  split.
  - apply Forall_forall. intros h I. apply in_map_iff in I as (x & <- & I). apply (K x I).
  - intros i x Hx. rewrite nth_error_map, Hx. eexists. split; [reflexivity|]. apply (K x (nth_error_In _ _ Hx)).
Qed.
Lemma inclined_measured : forall o p B, let a := real (hd zero64 (fxup p)) in let b := real (last (fxup p) zero64) in let ya := real (hd zero64 (fyup p)) in let yb := real (last (fyup p) zero64) in
  numbers p -> common_abscissae p -> same_sizes p -> fxup p <> [] -> yb = real (last (fydown p) zero64) -> Forall (fun x => a <= x <= b) (xup (meaning p)) ->
  bpow radix2 (-300) <= b - a <= bpow radix2 300 -> B <= bpow radix2 300 ->
  Forall (fun y => Rabs y <= B) (yup (meaning p)) -> Forall (fun y => Rabs y <= B) (ydown (meaning p)) ->
  exists m, max_camber64 o p = Ok m /\ is_number m /\
  let camber i := (real (nth i (fyup p) zero64) + real (nth i (fydown p) zero64)) / 2 - (ya + (yb - ya) / (b - a) * (real (nth i (fxup p) zero64) - a)) in
  let bound := 20 * eps * B + bpow radix2 (-500) in
  (exists i, (i < length (fxup p))%nat /\ Rabs (real m - camber i) <= bound) /\ (forall j, (j < length (fxup p))%nat -> Rabs (camber j) <= Rabs (real m) + bound).
Proof.
  intros o p B a b ya yb N C S NE Cl Mono BD BB BU BDn. pose proof S as (S1 & S2 & S3). assert (NY : fyup p <> []) by (apply (not_nil _ _ (fxup p)); auto; congruence).
  assert (Ba : Rabs ya <= B). { rewrite Forall_forall in BU. apply BU. unfold meaning. cbn [yup]. apply in_map, hd_in, NY. }
  assert (Bb : Rabs yb <= B). { rewrite Forall_forall in BU. apply BU. unfold meaning. cbn [yup]. apply in_map, last_in, NY. }
  assert (B0 : 0 <= B) by (pose proof (Rabs_pos ya); lra). assert (WB : Rmax (Rabs ya) (Rabs yb) <= B) by (apply Rmax_lub; auto).
  destruct (inclined_line p N C S NE Cl Mono BD ltac:(fold ya yb; lra)) as (hs & E & L & Fh & K). fold a b ya yb in K.
  pose proof eps_bounds as [E1 E2]. pose proof eta_bounds as [H1 _].
  assert (PA : 1 <= bpow radix2 300) by (change 1 with (bpow radix2 0); apply bpow_le; lia).
  destruct (measured o p hs B 14 (bpow radix2 (-600)) (fun x => ya + (yb - ya) / (b - a) * (x - a)) N C S NE E L ltac:(lra) ltac:(lra) ltac:(pose proof (bpow_ge_0 radix2 (-600)); lra) BU BDn Fh) as (m & Em & Fm & G).
  { intros i Hi. set (x := real (nth i (fxup p) zero64)) in *.
    assert (X : a <= x <= b). { unfold meaning in Mono. cbn [xup] in Mono. apply (in_range _ (fxup p) i Mono Hi). }
    pose proof (bpow_gt_0 radix2 (-300)) as P0. set (D := b - a) in *. set (t := x - a). assert (T : 0 <= t <= D) by (unfold t, D; lra). split.
    - assert (Cv : ya + (yb - ya) / D * t = (1 - t / D) * ya + t / D * yb) by (field; lra). rewrite Cv.
      assert (S0 : 0 <= t / D <= 1). { split; [apply Rmult_le_pos; [lra|apply Rlt_le, Rinv_0_lt_compat; lra]|]. apply Rmult_le_reg_r with D; [lra|]. unfold Rdiv. rewrite Rmult_assoc, Rinv_l; lra. }
      eapply Rle_trans; [apply Rabs_triang|]. rewrite !Rabs_mult, (Rabs_pos_eq (1 - t / D)), (Rabs_pos_eq (t / D)) by lra.
      assert ((1 - t / D) * Rabs ya <= (1 - t / D) * B) by (apply Rmult_le_compat_l; lra). assert (t / D * Rabs yb <= t / D * B) by (apply Rmult_le_compat_l; lra). lra.
    - destruct (K i _ (nth_value _ i Hi)) as (h & Eh & Er & _). rewrite nth_value in Eh by (unfold b64 in *; lia). injection Eh as Eh. unfold real in Er at 1. rewrite Eh. fold x t in Er.
      assert (YB : Rabs (yb - ya) <= 2 * B). { pose proof (Rabs_triang yb (- ya)) as Tr. rewrite Rabs_Ropp in Tr. unfold Rminus. lra. }
      assert (eps * Rabs (yb - ya) <= eps * (2 * B)) by (apply Rmult_le_compat_l; lra). assert (eps * Rmax (Rabs ya) (Rabs yb) <= eps * B) by (apply Rmult_le_compat_l; lra).
      assert (WT : 2 * (1 + D) * eta <= bpow radix2 (-600)). { apply Rle_trans with (bpow radix2 2 * bpow radix2 300 * bpow radix2 (-1075)); [apply Rmult_le_compat_r; [unfold eta in *; lra|]; change (bpow radix2 2) with 4; lra|]. rewrite <- !bpow_plus. apply bpow_le. lia. }
      eapply Rle_trans; [exact Er|]. lra. }
  exists m. split; [exact Em|]. split; [exact Fm|]. replace (14 + 6) with 20 in G by lra. exact G.
Qed.

(** ** What is not a number *)
Lemma edges_exist : forall p, common_abscissae p -> same_sizes p -> fxup p <> [] -> exists yt, update_edges64 p = Ok ((hd zero64 (fxup p), hd zero64 (fyup p)), (last (fxup p) zero64, yt)).
Proof.
  intros p (N1 & N2 & C) (S1 & S2 & S3) NE.
  assert (X : fxdown p <> []) by (apply (not_nil _ _ (fxup p)); auto; congruence). assert (Y : fyup p <> []) by (apply (not_nil _ _ (fxup p)); auto; congruence). assert (Z : fydown p <> []) by (apply (not_nil _ _ (fxup p)); auto; congruence).
  assert (Tol : forall a b, finite a = true -> finite b = true -> val a = val b -> Bltb tol64 (fabs64 (fsub a b)) = false).
  { intros a b Fa Fb E. pose proof huge_big. apply close_enough; auto; replace (val a - val b) with 0 by lra; rewrite Rabs_R0; lra. }
  unfold update_edges64. rewrite !first_hd, !final_last by auto. cbn [bind].
  rewrite (Tol (hd zero64 (fxup p)) (hd zero64 (fxdown p))); [|apply hd_number; auto|apply hd_number; auto|rewrite <- (hd_real (fxup p)) at 1; rewrite C; apply hd_real].
  cbn [bind]. rewrite (Tol (last (fxup p) zero64) (last (fxdown p) zero64)); [|apply last_number; auto|apply last_number; auto|rewrite <- (last_real (fxup p)) at 1; rewrite C; apply last_real].
  cbn [bind]. eexists. reflexivity.
Qed.
Lemma nan_norm : forall o x y, is_nan64 y -> is_nan64 (norm2_64 o x y).
Proof. intros o x y H. unfold norm2_64. destruct y; try discriminate H. assert (D : is_nan64 (dot2 o x B754_nan x B754_nan)) by (destruct o; cbn [dot2]; [apply nan_add; right; reflexivity|destruct x; reflexivity|reflexivity]). destruct (dot2 o x B754_nan x B754_nan); try discriminate D. reflexivity. Qed.
Lemma nan_spread : forall o p hs i, common_abscissae p -> same_sizes p -> compute_chord_line64 p = Ok (fxup p, hs) -> length hs = length (fxup p) -> (i < length (fxup p))%nat ->
  is_nan64 (nth i hs zero64) \/ is_nan64 (nth i (camber_list64 p) zero64) -> exists m, max_camber64 o p = Ok m /\ is_nan64 m.
Proof.
  intros o p hs i C S E L Hi H. destruct (max_camber_list o p hs C S E L) as (Lc & Ld & ->). set (d := map2 (norm2_64 o) (map2 fsub (fxup p) (fxup p)) (map2 fsub hs (camber_list64 p))) in *.
  assert (I : is_nan64 (nth i d zero64)). { unfold d. assert (Lx : length (map2 fsub (fxup p) (fxup p)) = length (fxup p)) by (rewrite map2_size; reflexivity).
    assert (Ly : length (map2 fsub hs (camber_list64 p)) = length (fxup p)) by (rewrite map2_size; unfold b64 in *; congruence). rewrite nth_map2 by (unfold b64 in *; lia). apply nan_norm. rewrite nth_map2 by (unfold b64 in *; lia). apply nan_minus. exact H. }
  destruct (vmax64_nan d (nth i d zero64) ltac:(apply nth_In; unfold b64 in *; lia) I) as (m & -> & Nm). cbn [bind]. destruct (Bltb _ _); eexists; (split; [reflexivity|]); [apply nan_mul_l, Nm|exact Nm].
Qed.
Lemma no_width : forall o p, common_abscissae p -> same_sizes p -> fxup p <> [] -> real (hd zero64 (fxup p)) = real (last (fxup p) zero64) -> exists m, max_camber64 o p = Ok m /\ is_nan64 m.
Proof.
  intros o p C S NE Z. destruct (edges_exist p C S NE) as (yt & E). pose proof C as (N1 & _). pose proof huge_big as HB. assert (EC : exists hs, compute_chord_line64 p = Ok (fxup p, hs) /\ length hs = length (fxup p) /\ is_nan64 (nth 0 hs zero64)).
  { unfold compute_chord_line64. rewrite E, same_ok by auto. cbn [bind fst snd]. eexists. split; [reflexivity|]. split; [apply map_length|].
    assert (Fb : is_number (last (fxup p) zero64)) by (apply last_number; auto). assert (Fa : is_number (hd zero64 (fxup p))) by (apply hd_number; auto).
    destruct (fsub_ok _ _ Fb Fa) as (V & F). { unfold real in Z. rewrite Z. replace (val (last (fxup p) zero64) - val (last (fxup p) zero64)) with 0 by ring. rewrite Rabs_R0. lra. }
    unfold real in Z. rewrite Z in V. replace (val (last (fxup p) zero64) - val (last (fxup p) zero64)) with 0 in V by ring. rewrite rnd_0 in V.
    pose proof (fdiv_zero (fsub yt (hd zero64 (fyup p))) _ F V) as Nf. set (r := fdiv64 _ _) in *.
    destruct (fxup p) as [|x xs]; [congruence|]. cbn [map nth hd]. apply nan_add. left.
    destruct (fsub_ok x x Fa Fa) as (V0 & F0). { replace (val x - val x) with 0 by ring. rewrite Rabs_R0. lra. } replace (val x - val x) with 0 in V0 by ring. rewrite rnd_0 in V0.
    assert (Sz : exists s, fsub x x = B754_zero s). { destruct (fsub x x) as [s|s| |s m e B]; try discriminate F0; [eauto|]. exfalso. cbn [B2R] in V0. apply (F2R_neq_0 radix2 (Float radix2 (SpecFloat.cond_Zopp s (Zpos m)) e)); [destruct s; discriminate|exact V0]. }
    destruct Sz as (s & ->). destruct r as [|s'| |]; try (exfalso; apply Nf; reflexivity); reflexivity. }
  destruct EC as (hs & EC & L & Nh). apply (nan_spread o p hs 0 C S EC L); auto. destruct (fxup p); [congruence|cbn; lia].
Qed.
Lemma nan_ordinate : forall o p, common_abscissae p -> same_sizes p -> Exists is_nan64 (fyup p) \/ Exists is_nan64 (fydown p) -> exists m, max_camber64 o p = Ok m /\ is_nan64 m.
Proof.
  intros o p C S X. pose proof S as (S1 & S2 & S3). assert (L : length (fyup p) = length (fydown p)) by congruence.
  destruct (nan_list mean64) with (2 := L) (3 := X) as (c & Ic & Nc). { intros u d K. apply nan_mul, nan_add. tauto. }
  fold (camber_list64 p) in Ic. destruct (In_nth _ c zero64 Ic) as (i & Hi & Ei). assert (Lc : length (camber_list64 p) = length (fxup p)) by (unfold camber_list64; rewrite map2_size; congruence).
  assert (NE : fxup p <> []). { intros Q. unfold b64 in *. rewrite Q in Lc. cbn in Lc. lia. }
  destruct (edges_exist p C S NE) as (yt & E). assert (EC : exists hs, compute_chord_line64 p = Ok (fxup p, hs) /\ length hs = length (fxup p)).
  { unfold compute_chord_line64. rewrite E, same_ok by auto. cbn [bind fst snd]. eexists. split; [reflexivity|apply map_length]. }
  destruct EC as (hs & EC & Lh). apply (nan_spread o p hs i C S EC Lh); [unfold b64 in *; lia|]. right. rewrite Ei. exact Nc.
Qed.
