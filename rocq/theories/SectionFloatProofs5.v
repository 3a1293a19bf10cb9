(** Section parameters computed in binary64: camber and thickness. *)
From Coq Require Import Reals ZArith List Lra Lia Bool.
From Flocq Require Import Core BinarySingleNaN.
From Verif Require Import Base PpgFloatModel PpgFloatProofs ProfileModel ProfileSpec ProfileProofs2 FloatModel FloatSpec FloatProofs FloatProofs2 ShapeFloatModel ShapeFloatSpec ShapeFloatProofs ShapeFloatProofs2 ShapeFloatProofs6 SectionFloatModel SectionFloatSpec SectionFloatProofs SectionFloatProofs2 SectionFloatProofs3.
Import ListNotations.
Open Scope R_scope.

Definition gap64 (u d : b64) : b64 := fabs64 (fsub u d).
Definition avg64 (u d : b64) : b64 := fdiv64 (fadd u d) two64.

Lemma parameters_inv : forall o p s, same_sizes p -> parameters_british64 o p = Ok s ->
  exists e x0 c t, update_edges64 p = Ok e /\ vmin64 (fxup p) = Ok x0 /\ vmax64 (map2 avg64 (fyup p) (fydown p)) = Ok c /\ vmax64 (map2 gap64 (fyup p) (fydown p)) = Ok t /\
  let L := norm2_64 o (fsub (fst (fst e)) (fst (snd e))) (fsub (snd (fst e)) (snd (snd e))) in
  s = mkFP (map (fun x => fdiv64 (fsub x x0) L) (fxup p)) (fractions64 (length (fxup p)) (map2 avg64 (fyup p) (fydown p)) (fabs64 c))
        (fractions64 (length (fxup p)) (map2 gap64 (fyup p) (fydown p)) t) (fabs64 c) t L.
Proof.
  intros o p s (S1 & S2 & S3) H. unfold parameters_british64 in H. destruct (update_edges64 p) as [e|]; [|discriminate]. cbn [bind] in H.
  destruct (vmin64 (fxup p)) as [x0|]; [|discriminate]. cbn [bind] in H. unfold vzip in H. rewrite (proj2 (Nat.eqb_eq _ _) (eq_trans S2 (eq_sym S3))) in H. cbn [bind] in H.
  change (map2 (fun u d => fdiv64 (fadd u d) two64) (fyup p) (fydown p)) with (map2 avg64 (fyup p) (fydown p)) in H. change (map2 (fun u d => fabs64 (fsub u d)) (fyup p) (fydown p)) with (map2 gap64 (fyup p) (fydown p)) in H.
  destruct (vmax64 (map2 avg64 (fyup p) (fydown p))) as [c|]; [|discriminate]. cbn [bind] in H. destruct (vmax64 (map2 gap64 (fyup p) (fydown p))) as [t|]; [|discriminate]. cbn [bind] in H.
  exists e, x0, c, t. repeat (split; [reflexivity|]). cbv zeta. congruence.
Qed.

Lemma quarter : forall u d, finite u = true -> finite d = true -> Rabs (val u) <= huge / 4 -> Rabs (val d) <= huge / 4 ->
  Rabs (val u + val d) <= huge / 2 /\ Rabs (val u - val d) <= huge / 2.
Proof.
  intros u d _ _ Hu Hd. split; [eapply Rle_trans; [apply Rabs_triang|]; lra|]. unfold Rminus. eapply Rle_trans; [apply Rabs_triang|]. rewrite Rabs_Ropp. lra.
Qed.

Lemma gap_ok : forall u d, finite u = true -> finite d = true -> Rabs (val u) <= huge / 4 -> Rabs (val d) <= huge / 4 ->
  finite (gap64 u d) = true /\ 0 <= val (gap64 u d) <= huge /\ Rabs (val (gap64 u d) - Rabs (val u - val d)) <= eps * Rabs (val u - val d) /\
  (val (gap64 u d) = 0 <-> val u = val d).
Proof.
  intros u d Fu Fd Bu Bd. destruct (quarter u d Fu Fd Bu Bd) as (_ & B). pose proof huge_big as HB. destruct (gap_number u d Fu Fd) as (F & E); [lra|]. fold (gap64 u d) in F, E.
  pose proof eps_bounds as [E1 E2]. pose proof (Rabs_pos (val u - val d)) as P.
  assert (eps * Rabs (val u - val d) <= / 1024 * Rabs (val u - val d)) by (apply Rmult_le_compat_r; lra).
  split; auto. apply Rabs_le_inv in E as E'. split; [split; [unfold gap64; rewrite fabs_val; apply Rabs_pos|lra]|]. split; [exact E|]. split.
  - intros Z. rewrite Z in E'. assert (Rabs (val u - val d) = 0) by lra. destruct (Req_dec (val u - val d) 0) as [Q|Q]; [lra|]. apply Rabs_no_R0 in Q. lra.
  - intros Q. rewrite Q in *. replace (val d - val d) with 0 in * by ring. rewrite Rabs_R0 in *. lra.
Qed.
Lemma avg_ok : forall u d, finite u = true -> finite d = true -> Rabs (val u) <= huge / 4 -> Rabs (val d) <= huge / 4 ->
  finite (avg64 u d) = true /\ (let m := (val u + val d) / 2 in Rabs (val (avg64 u d) - m) <= 3 * eps * Rabs m + eta) /\
  (0 <= val u + val d -> 0 <= val (avg64 u d)) /\ (val u + val d <= 0 -> val (avg64 u d) <= 0).
Proof.
  intros u d Fu Fd Bu Bd. destruct (quarter u d Fu Fd Bu Bd) as (B & _). pose proof huge_big as HB. destruct (fadd_ok u d Fu Fd) as (V & F); [lra|].
  destruct (halved (fadd u d) F) as (Fh & Vh & Eh & Ph & _). fold (avg64 u d) in Fh, Vh, Eh, Ph. pose proof (rnd_add_error u d) as Er. rewrite <- V in Er.
  split; auto. split; [|split].
  - cbv zeta. unfold Rdiv in *. rewrite (Rabs_mult (val u + val d)), (Rabs_pos_eq (/ 2)) by lra. rewrite (Rabs_mult (val (fadd u d))), (Rabs_pos_eq (/ 2)) in Eh by lra.
    set (s := val u + val d) in *. set (a := val (fadd u d)) in *. pose proof eps_bounds as [E1 E2]. pose proof (Rabs_pos s) as P.
    assert (A : Rabs a <= Rabs s + eps * Rabs s). { replace a with ((a - s) + s) by ring. eapply Rle_trans; [apply Rabs_triang|]. lra. }
    assert (Q0 : 0 <= eps * Rabs s) by nra. assert (eps * Rabs s <= / 1024 * Rabs s) by (apply Rmult_le_compat_r; lra).
    assert (eps * (Rabs a * / 2) <= eps * ((Rabs s + eps * Rabs s) * / 2)) by (apply Rmult_le_compat_l; lra).
    assert (eps * (eps * Rabs s) <= / 1024 * (eps * Rabs s)) by (apply Rmult_le_compat_r; lra).
    apply Rabs_le_inv in Er. apply Rabs_le_inv in Eh. apply Rabs_le. lra.
  - intros P. apply Ph. rewrite V. apply rnd_nonneg, P.
  - intros P. rewrite Vh. apply rnd_nonpos. rewrite V. pose proof (rnd_nonpos _ P). lra.
Qed.

Lemma least_positive : forall x : b64, val x <> 0 -> bpow radix2 (-1074) <= Rabs (val x).
Proof. intros [b|b| |b m e H] NZ; try (cbn in NZ; lra). exact (abs_B2R_ge_emin 53 1024 (B754_finite b m e H) eq_refl). Qed.

(** Fractions of a maximum. *)
Lemma Rdiv_diag : forall r, r <> 0 -> r / r = 1.
Proof. intros r H. field. exact H. Qed.
Lemma fraction_one : forall x m, finite x = true -> val m <> 0 -> val x = val m -> val (fdiv64 x m) = 1 /\ finite (fdiv64 x m) = true.
Proof.
  intros x m F Z E. pose proof huge_big as HB. destruct (fdiv_fine x m F Z) as (V & G); [rewrite E, Rdiv_diag by auto; rewrite Rabs_R1; lra|]. split; auto. rewrite V, E, Rdiv_diag by auto.
  apply rnd_exact. change 1 with (bpow radix2 0). apply generic_format_bpow. unfold FLT_exp. lia.
Qed.
Lemma rnd_1 : rnd 1 = 1.
Proof. apply rnd_exact. change 1 with (bpow radix2 0). apply generic_format_bpow. unfold FLT_exp. lia. Qed.
Lemma rnd_m1 : rnd (-1) = -1.
Proof. replace (-1) with (- (1)) by lra. rewrite rnd_opp, rnd_1. reflexivity. Qed.
Lemma beq_zero : forall m, finite m = true -> Beqb m zero64 = true <-> val m = 0.
Proof. intros m F. rewrite Beqb_correct by auto. cbn [B2R zero64]. split; [intros H; destruct (Req_bool_spec (val m) 0); [auto|discriminate]|intros ->; apply Req_bool_true; reflexivity]. Qed.

Lemma each_of : forall (P : b64 -> Prop) (f : b64 -> b64 -> b64) a b, (forall u d, finite u = true -> finite d = true -> Rabs (val u) <= huge / 4 -> Rabs (val d) <= huge / 4 -> P (f u d)) ->
  Forall is_number a -> Forall is_number b -> Forall (fun y => Rabs y <= huge / 4) (map real a) -> Forall (fun y => Rabs y <= huge / 4) (map real b) -> Forall P (map2 f a b).
Proof.
  intros P f a b H Fa Fb Ba Bb. apply nth_both. intros i u d U D. apply H.
  - apply (nth_of _ _ _ _ Fa U).
  - apply (nth_of _ _ _ _ Fb D).
  - apply (nth_real _ _ _ _ Ba U).
  - apply (nth_real _ _ _ _ Bb D).
Qed.

Lemma in_map2 : forall A B C (f : A -> B -> C) a b z, In z (map2 f a b) -> exists i x y, nth_error a i = Some x /\ nth_error b i = Some y /\ z = f x y.
Proof.
  intros A B C f. induction a as [|x a IH]; intros [|y b] z I; cbn in I; try contradiction. destruct I as [<-|I].
  - exists 0%nat, x, y. auto.
  - destruct (IH b z I) as (i & x' & y' & H). exists (S i), x', y'. exact H.
Qed.
Lemma map2_in : forall A B C (f : A -> B -> C) a b i x y, nth_error a i = Some x -> nth_error b i = Some y -> In (f x y) (map2 f a b).
Proof. intros A B C f a b i x y X Y. apply nth_error_In with i. apply map2_nth; auto. Qed.

Lemma vmax64_nonempty : forall l t, vmax64 l = Ok t -> l <> [].
Proof. intros [|x l] t H; [discriminate|congruence]. Qed.

Lemma thickness_parameters : forall o p s, numbers p -> same_sizes p ->
  Forall (fun y => Rabs y <= huge / 4) (yup (meaning p)) -> Forall (fun y => Rabs y <= huge / 4) (ydown (meaning p)) -> parameters_british64 o p = Ok s ->
  is_number (ptmax s) /\ length (pthick s) = length (fxup p) /\ Forall (fun t => is_number t /\ 0 <= real t <= 1) (pthick s) /\
  (real (ptmax s) = 0 <-> yup (meaning p) = ydown (meaning p)) /\
  (real (ptmax s) = 0 -> Forall (fun t => real t = 0) (pthick s)) /\ (real (ptmax s) <> 0 -> Exists (fun t => real t = 1) (pthick s)) /\
  (common_abscissae p -> max_thickness64 p = Ok (ptmax s)).
Proof.
  intros o p s (N1 & N2 & N3 & N4) S BU BD H. destruct (parameters_inv o p s S H) as (e & x0 & c & t & _ & _ & _ & T & ->). cbn [pchord pcamber pthick pcmax ptmax plen].
  unfold meaning in *. cbn [yup ydown] in *. set (l := map2 gap64 (fyup p) (fydown p)) in *. pose proof S as (S1 & S2 & S3).
  assert (G : Forall (fun g => finite g = true /\ 0 <= val g <= huge) l). { apply each_of; auto. intros u d Fu Fd Bu Bd. destruct (gap_ok u d Fu Fd Bu Bd) as (A & B & _). auto. }
  assert (Fl : Forall is_number l) by (eapply Forall_impl; [|exact G]; intros g (A & _); exact A).
  destruct (vmax64_finite l (vmax64_nonempty _ _ T) Fl) as (t' & T' & Ft & It & Mt). assert (t' = t) by congruence. subst t'. apply vmax_spec in Mt as (_ & Mt).
  assert (Pt : 0 <= val t <= huge). { rewrite Forall_forall in G. apply (G t It). }
  assert (Zero : real t = 0 <-> map real (fyup p) = map real (fydown p)).
  { split.
    - intros Z. apply nth_error_same. intros i. rewrite !nth_error_map. destruct (nth_error (fyup p) i) as [u|] eqn:U.
      + destruct (nth_error (fydown p) i) as [d|] eqn:D.
        * cbn. f_equal. destruct (gap_ok u d (nth_of _ _ _ _ N3 U) (nth_of _ _ _ _ N4 D) (nth_real _ _ _ _ BU U) (nth_real _ _ _ _ BD D)) as (_ & (P & _) & _ & Q). apply Q.
          apply Rle_antisym; auto. assert (B : real (gap64 u d) <= real t) by (apply Mt, in_map; eapply map2_in; eauto). unfold real in *. lra.
        * exfalso. apply nth_error_None in D. assert (i < length (fyup p))%nat by (apply nth_error_Some; congruence). unfold b64 in *. lia.
      + destruct (nth_error (fydown p) i) as [d|] eqn:D; auto. exfalso. apply nth_error_None in U. assert (i < length (fydown p))%nat by (apply nth_error_Some; congruence). unfold b64 in *. lia.
    - intros Q. apply in_map2 in It as (i & u & d & U & D & ->).
      destruct (gap_ok u d (nth_of _ _ _ _ N3 U) (nth_of _ _ _ _ N4 D) (nth_real _ _ _ _ BU U) (nth_real _ _ _ _ BD D)) as (_ & _ & _ & K). apply K.
      assert (E : nth_error (map real (fyup p)) i = nth_error (map real (fydown p)) i) by congruence. rewrite !nth_error_map, U, D in E. cbn in E. unfold real in E. congruence. }
  split; [exact Ft|]. split.
  { unfold fractions64. destruct (Beqb t zero64); [apply repeat_length|]. rewrite map_length. unfold l. rewrite map2_size; unfold b64 in *; congruence. }
  assert (Q : forall g, In g l -> real t <> 0 -> finite (fdiv64 g t) = true /\ 0 <= val (fdiv64 g t) <= 1).
  { intros g I NZ. pose proof huge_big as HB. rewrite Forall_forall in G. destruct (G g I) as (Fg & Pg & _). pose proof (Mt (real g) (in_map real l g I)) as B. unfold real in *.
    assert (R : 0 <= val g / val t <= 1). { split; [apply Rmult_le_pos; [lra|]; apply Rlt_le, Rinv_0_lt_compat; lra|]. apply Rmult_le_reg_r with (val t); [lra|]. unfold Rdiv. rewrite Rmult_assoc, Rinv_l; lra. }
    destruct (fdiv_fine g t Fg NZ) as (V & F); [rewrite Rabs_pos_eq; lra|]. split; auto. rewrite V. split; [apply rnd_nonneg; lra|]. rewrite <- rnd_1. apply rnd_le. lra. }
  unfold fractions64. pose proof (beq_zero t Ft) as BZ. destruct (Beqb t zero64) eqn:E.
  - assert (Z : real t = 0) by (apply BZ; reflexivity). split; [|split; [exact Zero|split; [|split]]].
    + apply Forall_forall. intros x I. apply repeat_spec in I as ->. split; [reflexivity|]. cbn. lra.
    + intros _. apply Forall_forall. intros x I. apply repeat_spec in I as ->. reflexivity.
    + contradiction.
    + intros C. rewrite thickness_computed by auto. exact T.
  - assert (NZ : real t <> 0) by (intros Z; apply BZ in Z; congruence). split; [|split; [exact Zero|split; [|split]]].
    + apply Forall_forall. intros x I. apply in_map_iff in I as (g & <- & I). apply Q; auto.
    + contradiction.
    + intros _. apply Exists_exists. exists (fdiv64 t t). split; [apply (in_map (fun x => fdiv64 x t)); exact It|]. apply fraction_one; auto.
    + intros C. rewrite thickness_computed by auto. exact T.
Qed.

Lemma camber_parameters : forall o p s, numbers p -> same_sizes p ->
  Forall (fun y => Rabs y <= huge / 4) (yup (meaning p)) -> Forall (fun y => Rabs y <= huge / 4) (ydown (meaning p)) -> parameters_british64 o p = Ok s ->
  real (pcmax s) = 0 \/ Forall (fun m => Rabs m <= huge / 8 * real (pcmax s)) (mean (yup (meaning p)) (ydown (meaning p))) ->
  is_number (pcmax s) /\ 0 <= real (pcmax s) /\ length (pcamber s) = length (fxup p) /\ Forall is_number (pcamber s) /\
  (real (pcmax s) = 0 -> Forall (fun c => real c = 0) (pcamber s)) /\
  (real (pcmax s) <> 0 -> Exists (fun m => 0 < m) (mean (yup (meaning p)) (ydown (meaning p))) -> Forall (fun c => real c <= 1) (pcamber s) /\ Exists (fun c => real c = 1) (pcamber s)) /\
  (real (pcmax s) <> 0 -> Forall (fun m => m <= 0) (mean (yup (meaning p)) (ydown (meaning p))) -> Forall (fun c => real c <= -1) (pcamber s) /\ Exists (fun c => real c = -1) (pcamber s)).
Proof.
  intros o p s (N1 & N2 & N3 & N4) S BU BD H Hm. destruct (parameters_inv o p s S H) as (e & x0 & c & t & _ & _ & C & _ & ->). cbn [pchord pcamber pthick pcmax ptmax plen] in *.
  unfold meaning in *. cbn [yup ydown] in *. set (l := map2 avg64 (fyup p) (fydown p)) in *. pose proof S as (S1 & S2 & S3). pose proof huge_big as HB.
  assert (Fl : Forall is_number l). { apply each_of; auto. intros u d Fu Fd Bu Bd. apply (avg_ok u d Fu Fd Bu Bd). }
  destruct (vmax64_finite l (vmax64_nonempty _ _ C) Fl) as (c' & C' & Fc & Ic & Mc). assert (c' = c) by congruence. subst c'. apply vmax_spec in Mc as (_ & Mc).
  assert (FA : finite (fabs64 c) = true) by (rewrite fabs_finite; exact Fc). assert (VA : real (fabs64 c) = Rabs (real c)) by apply fabs_val.
  split; [exact FA|]. split; [rewrite VA; apply Rabs_pos|]. split.
  { unfold fractions64. destruct (Beqb (fabs64 c) zero64); [apply repeat_length|]. rewrite map_length. unfold l. rewrite map2_size; unfold b64 in *; congruence. }
  unfold fractions64. pose proof (beq_zero (fabs64 c) FA) as BZ. destruct (Beqb (fabs64 c) zero64) eqn:E.
  - assert (Z : real (fabs64 c) = 0) by (apply BZ; reflexivity). split; [|split; [|split]].
    + apply Forall_forall. intros x I. apply repeat_spec in I as ->. reflexivity.
    + intros _. apply Forall_forall. intros x I. apply repeat_spec in I as ->. reflexivity.
    + contradiction.
    + contradiction.
  - assert (NZ : real (fabs64 c) <> 0) by (intros Z; apply BZ in Z; congruence). destruct Hm as [Hm|Hm]; [contradiction|].
    set (M := real (fabs64 c)) in *. assert (PM : 0 < M) by (pose proof (Rabs_pos (real c)); lra).
    assert (Each : forall x, In x l -> finite x = true /\ Rabs (val x / M) <= huge).
    { intros x I. apply in_map2 in I as (i & u & d & U & D & ->).
      destruct (avg_ok u d (nth_of _ _ _ _ N3 U) (nth_of _ _ _ _ N4 D) (nth_real _ _ _ _ BU U) (nth_real _ _ _ _ BD D)) as (F & A & _). split; auto.
      assert (B : Rabs ((val u + val d) / 2) <= huge / 8 * M). { rewrite Forall_forall in Hm. apply Hm. unfold mean. apply (map2_in _ _ _ (fun x y => (x + y) / 2) _ _ i (real u) (real d)); apply map_nth_error; auto. }
      cbv zeta in A. set (m := (val u + val d) / 2) in *. pose proof eps_bounds as [E1 E2]. pose proof eta_bounds as [H1 _]. pose proof (Rabs_pos m) as Pm.
      (* the smallest positive number is 2 eta, so eta is below the maximum *)
      assert (EM : eta <= M).
      { assert (K : bpow radix2 (-1074) <= M).
        { rewrite <- (Rabs_pos_eq M) by lra. apply least_positive, NZ. }
        apply Rle_trans with (2 := K). unfold eta. apply bpow_le. lia. }
      unfold Rdiv. rewrite Rabs_mult, (Rabs_pos_eq (/ M)) by (apply Rlt_le, Rinv_0_lt_compat; lra). apply Rmult_le_reg_r with M; auto. rewrite Rmult_assoc, Rinv_l, Rmult_1_r by lra.
      assert (Rabs (val (avg64 u d)) <= Rabs m + (3 * eps * Rabs m + eta)). { replace (val (avg64 u d)) with ((val (avg64 u d) - m) + m) by ring. eapply Rle_trans; [apply Rabs_triang|]. lra. }
      assert (eps * Rabs m <= / 1024 * Rabs m) by (apply Rmult_le_compat_r; lra). assert (HM : 10 ^ 9 * M <= huge * M) by (apply Rmult_le_compat_r; lra). lra. }
    assert (Div : forall x, In x l -> finite (fdiv64 x (fabs64 c)) = true /\ val (fdiv64 x (fabs64 c)) = rnd (val x / M)).
    { intros x I. destruct (Each x I) as (F & B). destruct (fdiv_fine x (fabs64 c) F NZ B) as (V & G). split; auto. }
    split; [|split; [|split]].
    + apply Forall_forall. intros x I. apply in_map_iff in I as (g & <- & I). apply (Div g I).
    + contradiction.
    + intros _ Pos.
      assert (Pc : real c = M).
      { apply Exists_exists in Pos as (m & I & Pm). unfold mean in I. apply in_map2 in I as (i & u' & d' & U' & D' & ->). rewrite nth_error_map in U', D'.
        destruct (nth_error (fyup p) i) as [u|] eqn:U; [|discriminate]. destruct (nth_error (fydown p) i) as [d|] eqn:D; [|discriminate]. cbn in U', D'. injection U' as <-. injection D' as <-.
        destruct (avg_ok u d (nth_of _ _ _ _ N3 U) (nth_of _ _ _ _ N4 D) (nth_real _ _ _ _ BU U) (nth_real _ _ _ _ BD D)) as (_ & _ & P & _).
        assert (B : real (avg64 u d) <= real c) by (apply Mc, in_map; eapply map2_in; eauto). rewrite VA, Rabs_pos_eq; auto. unfold real in *. assert (0 <= val (avg64 u d)) by (apply P; lra). lra. }
      split.
      * apply Forall_forall. intros x I. apply in_map_iff in I as (g & <- & I). destruct (Div g I) as (_ & V). unfold real. rewrite V, <- rnd_1. apply rnd_le.
        pose proof (Mc (real g) (in_map real l g I)) as B. apply Rmult_le_reg_r with M; auto. unfold Rdiv. rewrite Rmult_assoc, Rinv_l by lra. unfold real in *. lra.
      * apply Exists_exists. exists (fdiv64 c (fabs64 c)). split; [apply (in_map (fun x => fdiv64 x (fabs64 c))); exact Ic|]. apply fraction_one; auto.
    + intros _ Neg.
      assert (Pc : real c = - M).
      { pose proof Ic as I. apply in_map2 in I as (i & u & d & U & D & Ec).
        destruct (avg_ok u d (nth_of _ _ _ _ N3 U) (nth_of _ _ _ _ N4 D) (nth_real _ _ _ _ BU U) (nth_real _ _ _ _ BD D)) as (_ & _ & _ & P).
        assert (B : (real u + real d) / 2 <= 0). { rewrite Forall_forall in Neg. apply Neg. unfold mean. apply (map2_in _ _ _ (fun x y => (x + y) / 2) _ _ i (real u) (real d)); apply map_nth_error; auto. }
        rewrite VA, Rabs_left1; [lra|]. rewrite Ec. apply P. unfold real in B. lra. }
      split.
      * apply Forall_forall. intros x I. apply in_map_iff in I as (g & <- & I). destruct (Div g I) as (_ & V). unfold real. rewrite V, <- rnd_m1. apply rnd_le.
        pose proof (Mc (real g) (in_map real l g I)) as B. apply Rmult_le_reg_r with M; auto. unfold Rdiv. rewrite Rmult_assoc, Rinv_l by lra. unfold real in *. lra.
      * apply Exists_exists. exists (fdiv64 c (fabs64 c)). split; [apply (in_map (fun x => fdiv64 x (fabs64 c))); exact Ic|].
        destruct (Div c Ic) as (_ & V). unfold real in *. rewrite V, Pc. replace (- M / M) with (-1) by (field; lra). apply rnd_m1.
Qed.
