(** Section parameters computed in binary64 and turned back into coordinates. *)
From Coq Require Import Reals ZArith List Lra Lia Bool.
From Flocq Require Import Core BinarySingleNaN.
From Verif Require Import Base PpgFloatModel PpgFloatProofs ProfileModel ProfileSpec ProfileProofs2 FloatModel FloatSpec FloatProofs FloatProofs2 ShapeFloatModel ShapeFloatSpec ShapeFloatProofs ShapeFloatProofs2 ShapeFloatProofs6 SectionFloatModel SectionFloatSpec SectionFloatProofs SectionFloatProofs2 SectionFloatProofs3 SectionFloatProofs4 SectionFloatProofs5 SectionFloatProofs6.
Import ListNotations.
Open Scope R_scope.

Lemma div_back : forall x m, finite x = true -> val m <> 0 -> Rabs (val x / val m) <= huge ->
  finite (fdiv64 x m) = true /\ Rabs (val (fdiv64 x m) * val m - val x) <= eps * Rabs (val x) + eta * Rabs (val m).
Proof.
  intros x m F Z B. destruct (fdiv_fine x m F Z B) as (V & G). split; auto. pose proof (rnd_error_any (val x / val m)) as R. rewrite <- V in R.
  replace (val (fdiv64 x m) * val m - val x) with ((val (fdiv64 x m) - val x / val m) * val m) by (field; exact Z). rewrite Rabs_mult.
  replace (eps * Rabs (val x) + eta * Rabs (val m)) with ((eps * Rabs (val x / val m) + eta) * Rabs (val m)).
  { apply Rmult_le_compat_r; [apply Rabs_pos|exact R]. }
  unfold Rdiv. rewrite Rabs_mult, Rabs_inv. field. apply Rabs_no_R0, Z.
Qed.

Lemma ratio_bound : forall g M, 0 < M -> Rabs g <= huge * M -> Rabs (g / M) <= huge.
Proof.
  intros g M P B. unfold Rdiv. rewrite Rabs_mult, (Rabs_pos_eq (/ M)) by (apply Rlt_le, Rinv_0_lt_compat; lra). apply Rmult_le_reg_r with M; auto. rewrite Rmult_assoc, Rinv_l; lra.
Qed.

Lemma eta_huge : eta * (4 * huge) <= 1.
Proof. unfold eta, huge. replace 4 with (bpow radix2 2) by reflexivity. rewrite <- !bpow_plus. change 1 with (bpow radix2 0). apply bpow_le. lia. Qed.

Lemma there_and_back : forall o p s B, numbers p -> same_sizes p -> B <= huge / 16 ->
  Forall (fun y => Rabs y <= B) (yup (meaning p)) -> Forall (fun y => Rabs y <= B) (ydown (meaning p)) ->
  (forall i u d, nth_error (yup (meaning p)) i = Some u -> nth_error (ydown (meaning p)) i = Some d -> d <= u) ->
  parameters_british64 o p = Ok s -> is_number (plen s) -> 0 < real (plen s) ->
  (forall x y, In x (xup (meaning p)) -> In y (xup (meaning p)) -> Rabs (x - y) <= huge / 8 /\ Rabs (x - y) <= huge / 8 * real (plen s)) ->
  (real (pcmax s) = 0 /\ Forall (fun m => m = 0) (mean (yup (meaning p)) (ydown (meaning p))) \/
   real (pcmax s) <> 0 /\ Forall (fun m => Rabs m <= huge / 8 * real (pcmax s)) (mean (yup (meaning p)) (ydown (meaning p)))) ->
  exists q, from_parameters64 s = Ok q /\ numbers q /\ same_sizes q /\ length (fxup q) = length (fxup p) /\
  exists x0, In x0 (xup (meaning p)) /\ (forall x, In x (xup (meaning p)) -> x0 <= x) /\
  (forall i x u d, nth_error (xup (meaning p)) i = Some x -> nth_error (yup (meaning p)) i = Some u -> nth_error (ydown (meaning p)) i = Some d ->
    exists x' u' d', nth_error (xup (meaning q)) i = Some x' /\ nth_error (yup (meaning q)) i = Some u' /\ nth_error (ydown (meaning q)) i = Some d' /\
    Rabs (x' - (x - x0)) <= 4 * eps * (x - x0) + (1 + 2 * real (plen s)) * eta /\
    Rabs (u' - u) <= 20 * eps * B + 12 * eta /\ Rabs (d' - d) <= 20 * eps * B + 12 * eta).
Proof.
  intros o p s B N S BH BU BD AB H FL PL XB CB. pose proof huge_big as HB. pose proof eps_bounds as [E1 E2]. pose proof eta_tiny as ET. pose proof eta_bounds as [H1 _].
  pose proof eta_huge as EH.
  assert (BU4 : Forall (fun y => Rabs y <= huge / 4) (yup (meaning p))) by (eapply Forall_impl; [|exact BU]; cbv beta; intros; lra).
  assert (BD4 : Forall (fun y => Rabs y <= huge / 4) (ydown (meaning p))) by (eapply Forall_impl; [|exact BD]; cbv beta; intros; lra).
  destruct (thickness_parameters o p s N S BU4 BD4 H) as (FT & LT & TF & TZ & TZ' & _).
  destruct (camber_parameters o p s N S BU4 BD4 H) as (FC & PC & LC & CF & CZ & _). { destruct CB as [(Z & _)|(_ & Z)]; [left|right]; exact Z. }
  pose proof N as (N1 & N2 & N3 & N4). pose proof S as (S1 & S2 & S3).
  destruct (parameters_inv o p s S H) as (e & x0 & c & t & _ & X0 & C & T & Es).
  set (l := map2 avg64 (fyup p) (fydown p)) in *. set (g := map2 gap64 (fyup p) (fydown p)) in *.
  assert (NE : fxup p <> []) by (intros Z; rewrite Z in X0; discriminate X0).
  destruct (vmin64_finite _ NE N1) as (x0' & X0' & F0 & I0 & M0). assert (x0' = x0) by congruence. subst x0'.
  assert (Chord : forall x, In x (fxup p) -> finite (fdiv64 (fsub x x0) (plen s)) = true /\
     Rabs (val (fdiv64 (fsub x x0) (plen s)) * real (plen s) - (real x - real x0)) <= 21 / 10 * eps * (real x - real x0) + real (plen s) * eta /\ 0 <= real x - real x0 <= huge / 8).
  { intros x I. unfold meaning in XB. cbn [xup] in XB. destruct (XB (real x) (real x0) (in_map real _ _ I) (in_map real _ _ I0)) as (B1 & B2). pose proof (M0 x I) as Le. rewrite Rabs_pos_eq in B1, B2 by lra.
    rewrite Forall_forall in N1. destruct (fsub_ok x x0 (N1 x I) F0) as (V & F); [fold (real x) (real x0); rewrite Rabs_pos_eq; lra|].
    pose proof (diff_error x x0) as R. rewrite <- V in R. fold (real x) (real x0) in R. rewrite (Rabs_pos_eq (real x - real x0)) in R by lra.
    assert (Pw : 0 <= real x - real x0) by lra. set (w := real x - real x0) in *.
    assert (EW : 0 <= eps * w <= / 1024 * w) by (split; [apply Rmult_le_pos; lra|apply Rmult_le_compat_r; lra]).
    assert (Vb : Rabs (val (fsub x x0)) <= (1 + eps) * w). { replace (val (fsub x x0)) with ((val (fsub x x0) - w) + w) by ring. eapply Rle_trans; [apply Rabs_triang|]. rewrite (Rabs_pos_eq w); lra. }
    destruct (div_back (fsub x x0) (plen s) F) as (G & Q); [unfold real in PL; lra|apply ratio_bound; [exact PL|]; fold (real (plen s)); assert (0 <= huge * real (plen s)) by (apply Rmult_le_pos; lra); lra|].
    split; [exact G|]. split; [|lra]. fold (real (plen s)) in Q. rewrite (Rabs_pos_eq (real (plen s))) in Q by lra.
    assert (eps * Rabs (val (fsub x x0)) <= eps * ((1 + eps) * w)) by (apply Rmult_le_compat_l; lra). assert (eps * (eps * w) <= / 1024 * (eps * w)) by (apply Rmult_le_compat_r; lra).
    apply Rabs_le_inv in Q. apply Rabs_le_inv in R. apply Rabs_le. lra. }
  assert (B0 : 0 <= B). { unfold meaning in BU. cbn [yup] in BU. destruct (fyup p) as [|y l0] eqn:Ey; [destruct (fxup p); [congruence|cbn in S2; discriminate S2]|]. cbn in BU. inversion BU as [|? ? K ?]; subst. pose proof (Rabs_pos (real y)). lra. }
  assert (EB : 0 <= eps * B <= / 1024 * B) by (split; [apply Rmult_le_pos; lra|apply Rmult_le_compat_r; lra]).
  assert (HBB : 0 <= eta * B <= / 10 ^ 9 * (eps * B)). { split; [apply Rmult_le_pos; lra|]. replace (/ 10 ^ 9 * (eps * B)) with (eps * / 10 ^ 9 * B) by ring. apply Rmult_le_compat_r; lra. }
  (* what one station needs: its mean, its gap *)
  assert (Pair : forall i u d, nth_error (fyup p) i = Some u -> nth_error (fydown p) i = Some d ->
     finite u = true /\ finite d = true /\ Rabs (val u) <= B /\ Rabs (val d) <= B /\ val d <= val u).
  { intros i u d U D. split; [exact (nth_of _ _ _ _ N3 U)|]. split; [exact (nth_of _ _ _ _ N4 D)|]. unfold meaning in *. cbn [yup ydown] in *. split; [exact (nth_real _ _ _ _ BU U)|]. split; [exact (nth_real _ _ _ _ BD D)|].
    apply (AB i); apply map_nth_error; auto. }
  assert (CM : real (pcmax s) <= 101 / 100 * B + eta).
  { rewrite Es. cbn [pcmax]. assert (VA : real (fabs64 c) = Rabs (real c)) by apply fabs_val. rewrite VA.
    assert (Fl : Forall is_number l). { apply each_of; auto. intros u d Fu Fd Bu Bd. apply (avg_ok u d Fu Fd Bu Bd). }
    destruct (vmax64_finite l (vmax64_nonempty _ _ C) Fl) as (c' & C' & _ & Ic & _). assert (c' = c) by congruence. subst c'. apply in_map2 in Ic as (i & u & d & U & D & ->).
    destruct (Pair i u d U D) as (Fu & Fd & Bu & Bd & _). destruct (avg_ok u d Fu Fd) as (_ & A & _); [lra|lra|]. cbv zeta in A.
    assert (Rabs ((val u + val d) / 2) <= B). { apply Rabs_le_inv in Bu. apply Rabs_le_inv in Bd. apply Rabs_le. lra. }
    set (m := (val u + val d) / 2) in *. assert (eps * Rabs m <= eps * B) by (apply Rmult_le_compat_l; lra). unfold real. replace (val (avg64 u d)) with ((val (avg64 u d) - m) + m) by ring. eapply Rle_trans; [apply Rabs_triang|]. lra. }
  assert (TM : 0 <= real (ptmax s) <= 202 / 100 * B).
  { rewrite Es. cbn [ptmax]. assert (Fl : Forall is_number g). { apply each_of; auto. intros u d Fu Fd Bu Bd. apply (gap_ok u d Fu Fd Bu Bd). }
    destruct (vmax64_finite g (vmax64_nonempty _ _ T) Fl) as (t' & T' & _ & It & _). assert (t' = t) by congruence. subst t'. apply in_map2 in It as (i & u & d & U & D & ->).
    destruct (Pair i u d U D) as (Fu & Fd & Bu & Bd & Le). destruct (gap_ok u d Fu Fd) as (_ & P & A & _); [lra|lra|]. apply Rabs_le_inv in Bu, Bd. rewrite (Rabs_pos_eq (val u - val d)) in A by lra.
    assert (eps * (val u - val d) <= eps * (2 * B)) by (apply Rmult_le_compat_l; lra). apply Rabs_le_inv in A. unfold real. lra. }
  assert (Camber : forall i u d k, nth_error (fyup p) i = Some u -> nth_error (fydown p) i = Some d -> nth_error (pcamber s) i = Some k ->
     Rabs (real k * real (pcmax s) - (val u + val d) / 2) <= 42 / 10 * eps * B + 11 / 10 * eta).
  { intros i u d k U D K. destruct (Pair i u d U D) as (Fu & Fd & Bu & Bd & _). destruct (avg_ok u d Fu Fd) as (Fa & A & _); [lra|lra|]. cbv zeta in A.
    assert (Bm : Rabs ((val u + val d) / 2) <= B). { apply Rabs_le_inv in Bu. apply Rabs_le_inv in Bd. apply Rabs_le. lra. }
    assert (Im : In ((val u + val d) / 2) (mean (yup (meaning p)) (ydown (meaning p)))).
    { unfold mean, meaning. cbn [yup ydown]. apply (map2_in _ _ _ (fun x y => (x + y) / 2) _ _ i (real u) (real d)); apply map_nth_error; auto. }
    set (m := (val u + val d) / 2) in *. pose proof (Rabs_pos m) as Pm. assert (Em : eps * Rabs m <= eps * B) by (apply Rmult_le_compat_l; lra).
    destruct CB as [(Z & MZ)|(NZ & MB)].
    - rewrite Forall_forall in MZ. rewrite (MZ m Im), Z. replace (real k * 0 - 0) with 0 by ring. rewrite Rabs_R0. lra.
    - rewrite Es in K, NZ, MB, PC, CM |- *. cbn [pcamber pcmax] in K, NZ, MB, PC, CM |- *. unfold fractions64 in K.
      destruct (Beqb (fabs64 c) zero64) eqn:Eb. { exfalso. apply NZ, beq_zero; auto. rewrite Es in FC. exact FC. }
      pose proof (map2_nth _ _ _ avg64 (fyup p) (fydown p) i u d U D) as L. fold l in L. rewrite nth_error_map, L in K. injection K as <-.
      rewrite Forall_forall in MB. pose proof (MB m Im) as Bq. set (M := fabs64 c) in *. assert (PM : 0 < real M) by lra.
      assert (EM : eta <= real M). { apply Rle_trans with (bpow radix2 (-1074)); [unfold eta; apply bpow_le; lia|]. rewrite <- (Rabs_pos_eq (real M)) by lra. apply least_positive, NZ. }
      assert (Va : Rabs (val (avg64 u d)) <= Rabs m + (3 * eps * Rabs m + eta)). { replace (val (avg64 u d)) with ((val (avg64 u d) - m) + m) by ring. eapply Rle_trans; [apply Rabs_triang|]. lra. }
      assert (E3 : eps * Rabs m <= / 1024 * Rabs m) by (apply Rmult_le_compat_r; lra). assert (HM : 10 ^ 9 * real M <= huge * real M) by (apply Rmult_le_compat_r; lra).
      destruct (div_back (avg64 u d) M Fa NZ) as (_ & Q). { apply ratio_bound; [exact PM|]. fold (real M). lra. }
      fold (real M) (real (fdiv64 (avg64 u d) M)) in Q. rewrite (Rabs_pos_eq (real M)) in Q by lra.
      assert (eps * Rabs (val (avg64 u d)) <= eps * (Rabs m + (3 * eps * Rabs m + eta))) by (apply Rmult_le_compat_l; lra).
      assert (eps * (eps * Rabs m) <= / 1024 * (eps * Rabs m)) by (apply Rmult_le_compat_r; [apply Rmult_le_pos|]; lra). assert (eps * eta <= / 1024 * eta) by (apply Rmult_le_compat_r; lra).
      assert (eta * real M <= eta * (101 / 100 * B + eta)) by (apply Rmult_le_compat_l; lra). assert (eta * eta <= / 1024 * eta) by (apply Rmult_le_compat_r; lra).
      apply Rabs_le_inv in Q. apply Rabs_le_inv in A. apply Rabs_le. lra. }
  assert (Thick : forall i u d k, nth_error (fyup p) i = Some u -> nth_error (fydown p) i = Some d -> nth_error (pthick s) i = Some k ->
     Rabs (real k * (real (ptmax s) / 2) - (val u - val d) / 2) <= 22 / 10 * eps * B).
  { intros i u d k U D K. destruct (Pair i u d U D) as (Fu & Fd & Bu & Bd & Le). destruct (gap_ok u d Fu Fd) as (Fg & Pg & A & _); [lra|lra|]. rewrite (Rabs_pos_eq (val u - val d)) in A by lra.
    apply Rabs_le_inv in Bu, Bd. destruct (Req_dec (real (ptmax s)) 0) as [Z|NZ].
    - assert (Eq : val u = val d). { apply TZ in Z. unfold meaning in Z. cbn [yup ydown] in Z. apply (map_nth_error real) in U. apply (map_nth_error real) in D. rewrite Z in U. unfold real in *. congruence. }
      rewrite Z, Eq. replace (real k * (0 / 2) - (val d - val d) / 2) with 0 by field. rewrite Rabs_R0. lra.
    - rewrite Es in K, NZ, TM |- *. cbn [pthick ptmax] in K, NZ, TM |- *. unfold fractions64 in K. destruct (Beqb t zero64) eqn:Eb. { exfalso. apply NZ, beq_zero; auto. rewrite Es in FT. exact FT. }
      pose proof (map2_nth _ _ _ gap64 (fyup p) (fydown p) i u d U D) as L. fold g in L. rewrite nth_error_map, L in K. injection K as <-.
      assert (Gt : val (gap64 u d) <= real t).
      { assert (Fl : Forall is_number g). { apply each_of; auto. intros u0 d0 Fu0 Fd0 Bu0 Bd0. apply (gap_ok u0 d0 Fu0 Fd0 Bu0 Bd0). }
        destruct (vmax64_finite g (vmax64_nonempty _ _ T) Fl) as (t' & T' & _ & _ & Mt). assert (t' = t) by congruence. subst t'. apply vmax_spec in Mt as (_ & Mt). apply Mt. apply (in_map real). exact (nth_error_In _ _ L). }
      destruct (div_back (gap64 u d) t Fg NZ) as (_ & Q). { apply ratio_bound; [unfold real in *; lra|]. rewrite Rabs_pos_eq by lra. fold (real t). assert (1 * real t <= huge * real t) by (apply Rmult_le_compat_r; lra). lra. }
      fold (real t) (real (fdiv64 (gap64 u d) t)) in Q. rewrite (Rabs_pos_eq (real t)) in Q by lra. rewrite (Rabs_pos_eq (val (gap64 u d))) in Q by lra.
      assert (eps * (val u - val d) <= eps * (2 * B)) by (apply Rmult_le_compat_l; lra).
      assert (eps * val (gap64 u d) <= eps * (202 / 100 * B)) by (apply Rmult_le_compat_l; lra). assert (eta * real t <= eta * (202 / 100 * B)) by (apply Rmult_le_compat_l; lra).
      apply Rabs_le_inv in Q. apply Rabs_le_inv in A. apply Rabs_le. lra. }
  assert (Lch : length (pchord s) = length (fxup p)) by (rewrite Es; apply map_length).
  assert (Both : forall i, (i < length (fxup p))%nat -> exists u d, nth_error (fyup p) i = Some u /\ nth_error (fydown p) i = Some d).
  { intros i Hi. destruct (nth_exists _ (fyup p) i) as (u & U); [unfold b64 in *; lia|]. destruct (nth_exists _ (fydown p) i) as (d & D); [unfold b64 in *; lia|]. eauto. }
  assert (Small : forall i u d k, nth_error (fyup p) i = Some u -> nth_error (fydown p) i = Some d -> nth_error (pcamber s) i = Some k -> Rabs (real k * real (pcmax s)) <= 101 / 100 * B + 11 / 10 * eta).
  { intros i u d k U D K. pose proof (Camber i u d k U D K) as A. destruct (Pair i u d U D) as (_ & _ & Bu & Bd & _). apply Rabs_le_inv in A, Bu, Bd. apply Rabs_le. lra. }
  assert (SmallT : forall i u d k, nth_error (fyup p) i = Some u -> nth_error (fydown p) i = Some d -> nth_error (pthick s) i = Some k -> Rabs (real k * (real (ptmax s) / 2)) <= 101 / 100 * B).
  { intros i u d k U D K. pose proof (Thick i u d k U D K) as A. destruct (Pair i u d U D) as (_ & _ & Bu & Bd & _). apply Rabs_le_inv in A, Bu, Bd. apply Rabs_le. lra. }
  assert (NP : number_parameters s).
  { split; [|split; [exact CF|split; [|auto]]].
    - apply Forall_forall. intros f I. rewrite Es in I. cbn [pchord] in I. apply in_map_iff in I as (x & <- & I). pose proof (Chord x I) as K. rewrite Es in K. apply K.
    - eapply Forall_impl; [|exact TF]. intros a (K & _). exact K. }
  assert (SL : same_lengths s) by (split; congruence).
  assert (PlH : real (plen s) * eta <= 1). { pose proof (val_bound (plen s)) as VB. fold (real (plen s)) in VB. rewrite Rabs_pos_eq in VB by lra. apply Rle_trans with (eta * (4 * huge)); [|exact EH]. rewrite (Rmult_comm (real (plen s))). apply Rmult_le_compat_l; lra. }
  assert (MO : moderate s).
  { split; [|split].
    - apply Forall_forall. intros f I. rewrite Es in I. cbn [pchord] in I. apply in_map_iff in I as (x & <- & I). pose proof (Chord x I) as K. rewrite Es in K, PlH |- *. cbn [plen] in K, PlH |- *. destruct K as (_ & K & P1 & P2).
      fold (real (fdiv64 (fsub x x0) (norm2_64 o (fsub (fst (fst e)) (fst (snd e))) (fsub (snd (fst e)) (snd (snd e)))))) in K. 
      assert (eps * (real x - real x0) <= / 1024 * (real x - real x0)) by (apply Rmult_le_compat_r; lra). apply Rabs_le_inv in K. apply Rabs_le. lra.
    - apply Forall_forall. intros k I. apply In_nth_error in I as (i & K). destruct (Both i) as (u & d & U & D). { rewrite <- LC. apply nth_error_Some. rewrite K. discriminate. } pose proof (Small i u d k U D K). lra.
    - apply Forall_forall. intros k I. apply In_nth_error in I as (i & K). destruct (Both i) as (u & d & U & D). { rewrite <- LT. apply nth_error_Some. rewrite K. discriminate. } pose proof (SmallT i u d k U D K). lra. }
  destruct (constructed s NP SL MO PC (proj1 TM)) as (q & Q & Nq & _ & Sq & Lq & G). exists q. split; [exact Q|]. split; [exact Nq|]. split; [exact Sq|]. split; [congruence|].
  exists (real x0). unfold meaning. cbn [xup yup ydown]. split; [apply in_map, I0|]. split. { intros x I. apply in_map_iff in I as (z & <- & I). apply M0, I. }
  intros i xr ur dr X U D. rewrite nth_error_map in X, U, D. destruct (nth_error (fxup p) i) as [x|] eqn:Xi; [|discriminate]. destruct (nth_error (fyup p) i) as [u|] eqn:Ui; [|discriminate]. destruct (nth_error (fydown p) i) as [d|] eqn:Di; [|discriminate].
  injection X as <-. injection U as <-. injection D as <-.
  assert (Hi : (i < length (fxup p))%nat) by (apply nth_error_Some; rewrite Xi; discriminate).
  destruct (nth_exists _ (pcamber s) i) as (k & Kc); [unfold b64 in *; lia|]. destruct (nth_exists _ (pthick s) i) as (th & Kt); [unfold b64 in *; lia|]. destruct (nth_exists _ (pchord s) i) as (f & Kf); [unfold b64 in *; lia|].
  destruct (G i f k th Kf Kc Kt) as (x' & u' & d' & X' & U' & D' & GX & GY & _). cbv zeta in GX, GY. destruct GY as (GU & GD).
  exists (real x'), (real u'), (real d'). split; [apply map_nth_error, X'|]. split; [apply map_nth_error, U'|]. split; [apply map_nth_error, D'|].
  assert (Tb : 0 <= real th <= 1). { apply nth_error_In in Kt. rewrite Forall_forall in TF. apply (TF th Kt). } rewrite (Rabs_pos_eq (real th)) in GU, GD by lra.
  pose proof (Camber i u d k Ui Di Kc) as Ca. pose proof (Thick i u d th Ui Di Kt) as Ta. pose proof (Small i u d k Ui Di Kc) as Sa. pose proof (SmallT i u d th Ui Di Kt) as Sb.
  set (m' := real k * real (pcmax s)) in *. set (h' := real th * (real (ptmax s) / 2)) in *.
  assert (HT : real th * eta <= 1 * eta) by (apply Rmult_le_compat_r; lra).
  assert (eps * Rabs m' <= eps * (101 / 100 * B + 11 / 10 * eta)) by (apply Rmult_le_compat_l; lra). assert (eps * Rabs h' <= eps * (101 / 100 * B)) by (apply Rmult_le_compat_l; lra).
  assert (eps * eta <= / 1024 * eta) by (apply Rmult_le_compat_r; lra).
  split.
  { pose proof (Chord x (nth_error_In _ _ Xi)) as (_ & K & P1 & P2). assert (Ef : f = fdiv64 (fsub x x0) (plen s)). { rewrite Es in Kf |- *. cbn [pchord plen] in *. rewrite nth_error_map, Xi in Kf. injection Kf as <-. reflexivity. }
    rewrite <- Ef in K. fold (real f) in K. set (z := real f * real (plen s)) in *. set (w := real x - real x0) in *.
    assert (EW : 0 <= eps * w <= / 1024 * w) by (split; [apply Rmult_le_pos; lra|apply Rmult_le_compat_r; lra]).
    assert (PE : 0 <= real (plen s) * eta) by (apply Rmult_le_pos; lra).
    assert (Bz : Rabs z <= 101 / 100 * w + real (plen s) * eta). { apply Rabs_le_inv in K. apply Rabs_le. lra. }
    assert (eps * Rabs z <= eps * (101 / 100 * w + real (plen s) * eta)) by (apply Rmult_le_compat_l; lra).
    assert (eps * (real (plen s) * eta) <= / 1024 * (real (plen s) * eta)) by (apply Rmult_le_compat_r; lra).
    apply Rabs_le_inv in K. apply Rabs_le_inv in GX. apply Rabs_le. lra. }
  unfold real in *. apply Rabs_le_inv in GU, GD, Ca, Ta. split; apply Rabs_le; lra.
Qed.
