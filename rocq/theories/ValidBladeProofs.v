(** The recorded blades: enclosures of the points computed by the model. *)
From Coq Require Import Reals String List ZArith Lra Lia.
From Verif Require Import Base ProfileModel ProfileSpec CustomSpec NacaModel NacaSpec NacaProofs NacaProofs2 BladeModel BladeSpec BladeProofs BladeProofs2 BladeProofs4 BladeProofs5 BladeProofs6 Enclose ValidNacaProofs.
Import ListNotations.
Open Scope R_scope.

(** The listed points of an array [section][point] agree with the recorded ones. *)
Definition agrees (g : list (list pt3)) (rows : list (nat * nat * Z * Z * Z)) : Prop :=
  Forall (fun e => let '(j, k, a, b, c) := e in exists l q, nth_error g j = Some l /\ nth_error l k = Some q /\
    near (fst (fst q)) a /\ near (snd (fst q)) b /\ near (snd q) c) rows.

Definition th (z : Z) : R := IZR z / 1000.
Definition ith (z : Z) : iv := frac z 1000.
Lemma ith_ok : forall z, inside (ith z) (th z).
Proof. intros. apply frac_ok. Qed.
Lemma one_ok : forall z, inside (frac z 1) (IZR z).
Proof. intros. replace (IZR z) with (IZR z / 1) by field. apply frac_ok. Qed.

(** ** One point *)
Definition iwrap (r : iv) (a : iv * iv) : iv * iv * iv :=
  let t := idiv (snd a) r in (fst a, imul r (isin t), imul r (icos t)).
Lemma iwrap_ok : forall ir r ix iy a, inside ir r -> inside ix (fst a) -> inside iy (snd a) ->
  let '(i, j, l) := iwrap ir (ix, iy) in let q := wrap r a in
  inside i (fst (fst q)) /\ inside j (snd (fst q)) /\ inside l (snd q).
Proof.
  intros ir r ix iy a R X Y. unfold iwrap, wrap. cbn [fst snd]. pose proof (idiv_ok _ _ _ _ Y R) as T.
  split; [exact X|]. split; apply imul_ok; auto. apply isin_ok; auto. apply icos_ok; auto.
Qed.
Definition iseat (r c P k sk : Z) (refl : bool) (x y : iv) : iv * iv :=
  let X0 := imul (ith c) (isub x (frac 1 2)) in let Y0 := imul (ith c) y in
  let X := if refl then ineg X0 else X0 in let Y := if refl then ineg Y0 else Y0 in
  let t := idiv (ith P) (imul (imul (frac 2 1) ipi) (ith r)) in let q := icosat t in let s := imul t q in
  (iadd (ineg (iadd (ith k) (imul (ith sk) (frac P 360000)))) (isub (imul s X) (imul q Y)),
   iadd (ineg (imul (ith r) (imul (ith sk) (idiv ipi (frac 180 1))))) (iadd (imul q X) (imul s Y))).
Lemma iseat_ok : forall r c P k sk refl ix iy x y, inside ix x -> inside iy y ->
  let '(i, j) := iseat r c P k sk refl ix iy in
  let q := seat (th r) (th P) (th k) (th sk) refl (BladeSpec.sized (th c) (1 / 2, 0) (x, y)) in
  inside i (fst q) /\ inside j (snd q).
Proof.
  intros r c P k sk refl ix iy x y X Y. unfold iseat. cbv zeta.
  assert (A : inside (imul (ith c) (isub ix (frac 1 2))) (th c * (x - 1 / 2))) by (repeat first [apply imul_ok|apply isub_ok|apply ith_ok|apply frac_ok|assumption]).
  assert (B : inside (imul (ith c) iy) (th c * y)) by (repeat first [apply imul_ok|apply ith_ok|assumption]).
  set (iX := if refl then ineg (imul (ith c) (isub ix (frac 1 2))) else imul (ith c) (isub ix (frac 1 2))).
  set (iY := if refl then ineg (imul (ith c) iy) else imul (ith c) iy).
  set (a := if refl then pneg (BladeSpec.sized (th c) (1 / 2, 0) (x, y)) else BladeSpec.sized (th c) (1 / 2, 0) (x, y)).
  assert (AX : inside iX (fst a)).
  { unfold iX, a. destruct refl; cbn [pneg BladeSpec.sized pscale psub fst snd]; [apply ineg_ok; exact A|exact A]. }
  assert (AY : inside iY (snd a)).
  { unfold iY, a. destruct refl; cbn [pneg BladeSpec.sized pscale psub fst snd]; rewrite Rminus_0_r; [apply ineg_ok; exact B|exact B]. }
  clearbody iX iY. unfold seat. fold a. clearbody a.
  set (t := th P / (2 * PI * th r)). set (it := idiv (ith P) (imul (imul (frac 2 1) ipi) (ith r))).
  assert (T : inside it t) by (unfold it, t; repeat first [apply idiv_ok|apply imul_ok|apply ith_ok|apply ipi_ok|apply one_ok]).
  clearbody it. pose proof (icosat_ok _ _ T) as Q.
  assert (S : inside (imul it (icosat it)) (sin (atan t))) by (rewrite sin_atan; apply imul_ok; assumption).
  unfold prot. cbn [padd fst snd]. rewrite cos_minus, sin_minus, cos_PI2, sin_PI2, !Rmult_0_l, !Rmult_1_l, Rminus_0_r, Rplus_0_l.
  split.
  - apply iadd_ok.
    + apply ineg_ok, iadd_ok; [apply ith_ok|]. replace (th sk * (PI / 180) * th P / (2 * PI)) with (th sk * (IZR P / IZR 360000)).
      * apply imul_ok; [apply ith_ok|apply frac_ok].
      * unfold th. field. pose proof PI_RGT_0. lra.
    + apply isub_ok; apply imul_ok; assumption.
  - apply iadd_ok; [|apply iadd_ok; apply imul_ok; assumption].
    apply ineg_ok. apply imul_ok; [apply ith_ok|]. apply imul_ok; [apply ith_ok|]. apply idiv_ok; [apply ipi_ok|apply one_ok].
Qed.

(** ** The 0012 foil *)
Definition istn (n k : nat) : iv := frac (Z.of_nat k) (Z.of_nat (n - 1)).
Lemma istn_ok : forall n k, inside (istn n k) (NacaSpec.station n k).
Proof. intros. unfold NacaSpec.station, istn. rewrite !INR_IZR_INZ. apply frac_ok. Qed.
Definition foil (n : nat) (p : profile) : Prop :=
  traced n (fun x => x) (half_thickness (12 / 100)) (fun x => x) (fun x => - half_thickness (12 / 100) x) p.
Lemma half_1 : half_thickness (12 / 100) 1 = 0.
Proof. unfold half_thickness. rewrite sqrt_1. lra. Qed.
Lemma half_0 : half_thickness (12 / 100) 0 = 0.
Proof. unfold half_thickness. rewrite sqrt_0. lra. Qed.
Lemma foil_ref : forall n p, foil n p -> (2 <= n)%nat -> uniform p /\ List.length (xup p) = n /\ reference_point p = Ok (1 / 2, 0).
Proof.
  intros n p F N. destruct (traced_sized _ _ _ _ _ _ F) as (A & B & C & D). split; [unfold uniform; lia|]. split; [exact A|].
  unfold reference_point. rewrite (traced_edges _ _ _ _ _ _ F N) by reflexivity. cbn [bind fst snd]. rewrite half_0, half_1. do 2 f_equal; lra.
Qed.
Lemma foil_upper : forall n p k, foil n p -> (2 <= n)%nat -> (k < n)%nat ->
  nth_error (upper p) k = Some (NacaSpec.station n k, half_thickness (12 / 100) (NacaSpec.station n k)) /\
  nth_error (lower p) k = Some (NacaSpec.station n k, - half_thickness (12 / 100) (NacaSpec.station n k)).
Proof.
  intros n p k F N K. destruct (traced_nth _ _ _ _ _ _ k F N K) as (A & B). destruct (traced_sized _ _ _ _ _ _ F) as (L1 & L2 & L3 & L4).
  assert (G : forall (a b : list R), List.length a = n -> List.length b = n -> nth_error (combine a b) k = Some (nth k a 0, nth k b 0)).
  { intros a b LA LB. rewrite (nth_error_nth' _ (0, 0)) by (rewrite combine_length; lia). rewrite combine_nth by lia. reflexivity. }
  unfold upper, lower. rewrite !G by assumption. split; f_equal; assumption.
Qed.

(** ** Blades with the same foil everywhere; radius, chord, pitch, rake and skew in thousandths *)
Notation row := (Z * Z * Z * Z * Z)%type (only parsing).
Definition e_r (e : row) : R := let '(r, _, _, _, _) := e in th r.
Definition e_c (e : row) : R := let '(_, c, _, _, _) := e in th c.
Definition e_P (e : row) : R := let '(_, _, P, _, _) := e in th P.
Definition e_k (e : row) : R := let '(_, _, _, k, _) := e in th k.
Definition e_s (e : row) : R := let '(_, _, _, _, s) := e in th s.
Definition blade_of (l : list row) : blade :=
  mkBlade (seq 0 (List.length l)) (map e_r l) (map e_c l) (map e_P l) (map e_k l) (map e_s l) None None NoCoords None None None None.
Lemma blade_of_new : forall l, new_blade (seq 0 (List.length l)) (map e_r l) (map e_c l) (map e_P l) (map e_k l) (map e_s l) None None = Ok (blade_of l).
Proof.
  intros l. unfold new_blade, check_params. cbn [sections radii chords pitch rake skew]. rewrite !map_length, !seq_length, Nat.eqb_refl. reflexivity.
Qed.
Lemma blade_of_consistent : forall l, consistent (blade_of l).
Proof. intros l. unfold consistent, blade_of. cbn. rewrite !map_length, !seq_length. auto. Qed.
Lemma blade_of_station : forall l i r c P k s, nth_error l i = Some (r, c, P, k, s) ->
  BladeSpec.station (blade_of l) i i (th r) (th c) (th P) (th k) (th s).
Proof.
  intros l i r c P k s E. assert (I : (i < List.length l)%nat) by (apply nth_error_Some; rewrite E; discriminate).
  constructor; cbn [blade_of sections radii chords pitch rake skew].
  1:{ rewrite (nth_error_nth' _ 0%nat) by (rewrite seq_length; exact I). rewrite seq_nth by exact I. reflexivity. }
  all: erewrite map_nth_error by exact E; reflexivity.
Qed.
Definition ev (l : list row) (n : nat) (refl up : bool) (j k : nat) : iv * iv * iv :=
  match nth_error l (List.length l - 1 - j) with
  | Some (r, c, P, kk, s) => let x := istn n k in let h := ihalf x in iwrap (ith r) (iseat r c P kk s refl x (if up then h else ineg h))
  | None => (None, None, None)
  end.
Definition checked (m n : nat) (f : nat -> nat -> iv * iv * iv) (rows : list (nat * nat * Z * Z * Z)) : bool :=
  forallb (fun e => let '(j, k, a, b, c) := e in let '(x, y, z) := f j k in
    (Nat.ltb j m && Nat.ltb k n && nearby x a && nearby y b && nearby z c)%bool) rows.
Lemma checked_ok : forall m n f rows g, checked m n f rows = true ->
  (forall j k, (j < m)%nat -> (k < n)%nat -> exists l q, nth_error g j = Some l /\ nth_error l k = Some q /\
     let '(x, y, z) := f j k in inside x (fst (fst q)) /\ inside y (snd (fst q)) /\ inside z (snd q)) -> agrees g rows.
Proof.
  intros m n f rows g C H. unfold agrees. apply Forall_forall. intros [[[[j k] a] b] c] I. unfold checked in C. rewrite forallb_forall in C. specialize (C _ I).
  cbv beta iota in C. specialize (H j k). destruct (f j k) as [[x y] z].
  apply Bool.andb_true_iff in C. destruct C as (C & C5). apply Bool.andb_true_iff in C. destruct C as (C & C4). apply Bool.andb_true_iff in C. destruct C as (C & C3).
  apply Bool.andb_true_iff in C. destruct C as (C1 & C2). apply Nat.ltb_lt in C1. apply Nat.ltb_lt in C2. destruct (H C1 C2) as (l & q & E1 & E2 & X & Y & Z).
  exists l, q. split; [exact E1|]. split; [exact E2|]. split; [|split]; eapply nearby_ok; eauto.
Qed.
Lemma ev_ok : forall l n (refl up : bool) k r c P kk s j, nth_error l (List.length l - 1 - j) = Some (r, c, P, kk, s) ->
  let x := NacaSpec.station n k in let h := half_thickness (12 / 100) x in
  let q := wrap (th r) (seat (th r) (th P) (th kk) (th s) refl (BladeSpec.sized (th c) (1 / 2, 0) (x, if up then h else - h))) in
  let '(i, j', z) := ev l n refl up j k in inside i (fst (fst q)) /\ inside j' (snd (fst q)) /\ inside z (snd q).
Proof.
  intros l n refl up k r c P kk s j E x h q. unfold ev. rewrite E. cbv zeta. pose proof (istn_ok n k) as X. fold x in X.
  pose proof (ihalf_ok _ _ (12 / 100) eq_refl X) as H. fold h in H.
  assert (Y : inside (if up then ihalf (istn n k) else ineg (ihalf (istn n k))) (if up then h else - h)) by (destruct up; [exact H|apply ineg_ok; exact H]).
  pose proof (iseat_ok r c P kk s refl _ _ _ _ X Y) as S. unfold q.
  destruct (iseat r c P kk s refl (istn n k) (if up then ihalf (istn n k) else ineg (ihalf (istn n k)))) as [i j']. destruct S as (S1 & S2).
  apply iwrap_ok; [apply ith_ok|exact S1|exact S2].
Qed.
Definition positive (l : list row) : bool := forallb (fun e => let '(r, _, _, _, _) := e in (0 <? r)%Z) l.
Lemma positive_ok : forall l, positive l = true -> Forall (fun r => r <> 0) (radii (blade_of l)).
Proof.
  intros l H. cbn [blade_of radii]. rewrite Forall_map. apply Forall_forall. intros e I. unfold positive in H. rewrite forallb_forall in H. specialize (H _ I).
  destruct e as [[[[r c] P] k] s]. apply Z.ltb_lt, IZR_lt in H. unfold e_r, th. lra.
Qed.
Section Applied.
Variables (l : list row) (n : nat) (p : profile) (refl : bool).
Hypotheses (L : l <> []) (POS : positive l = true) (F : foil n p) (N : (2 <= n)%nat).
Let ready : forall s, In s (sections (blade_of l)) -> uniform p /\ List.length (xup p) = n /\ exists ref, reference_point p = Ok ref.
Proof. intros s _. destruct (foil_ref n p F N) as (U & E & R). split; [exact U|]. split; [exact E|]. eexists. exact R. Qed.
Let nonempty : sections (blade_of l) <> [].
Proof. cbn [blade_of sections]. destruct l; [congruence|discriminate]. Qed.
Let distinct : NoDup (sections (blade_of l)).
Proof. apply seq_NoDup. Qed.
Lemma applied_points : forall st' b', apply_transformations refl (fun _ => p) (blade_of l) = (st', b', Ok tt) ->
  exists up down, coordinates b' = Built up down /\
    (forall rows, checked (List.length l) n (ev l n refl true) rows = true -> agrees up rows) /\
    (forall rows, checked (List.length l) n (ev l n refl false) rows = true -> agrees down rows) /\
    (forall j k, (j < List.length l)%nat -> (k < n)%nat -> exists u q, nth_error up j = Some u /\ nth_error u k = Some q /\
       let '(x, y, z) := ev l n refl true j k in inside x (fst (fst q)) /\ inside y (snd (fst q)) /\ inside z (snd q)) /\
    (forall j k, (j < List.length l)%nat -> (k < n)%nat -> exists u q, nth_error down j = Some u /\ nth_error u k = Some q /\
       let '(x, y, z) := ev l n refl false j k in inside x (fst (fst q)) /\ inside y (snd (fst q)) /\ inside z (snd q)).
Proof.
  intros st' b' H. pose proof (blade_of_consistent l) as C.
  destruct (apply_sections _ _ _ _ _ C H) as (_ & _ & up & down & E & _ & _ & W).
  destruct (apply_places _ _ _ _ _ C distinct (positive_ok l POS) eq_refl eq_refl (fun s I => proj1 (ready s I)) H) as (Pl & _).
  exists up, down. split; [exact E|].
  assert (K : forall (b : bool) j k, (j < List.length l)%nat -> (k < n)%nat -> exists u q, nth_error (if b then up else down) j = Some u /\ nth_error u k = Some q /\
       let '(x, y, z) := ev l n refl b j k in inside x (fst (fst q)) /\ inside y (snd (fst q)) /\ inside z (snd q)).
  { intros b j k J K. destruct (nth_error l (List.length l - 1 - j)) as [[[[[r c] P] kk] s]|] eqn:EN; [|apply nth_error_None in EN; lia].
    pose proof (blade_of_station _ _ _ _ _ _ _ EN) as S. destruct (W _ _ _ _ _ _ _ S) as (W1 & W2). destruct (Pl _ _ _ _ _ _ _ S) as (ref & R & _ & M1 & M2).
    destruct (foil_ref n p F N) as (_ & _ & R'). rewrite R' in R. injection R as <-.
    assert (X : (List.length (sections (blade_of l)) - 1 - (List.length l - 1 - j))%nat = j) by (cbn [blade_of sections]; rewrite seq_length; lia). rewrite X in W1, W2.
    destruct (foil_upper n p k F N K) as (U1 & U2). pose proof (ev_ok l n refl b k r c P kk s j EN) as V.
    destruct b; eexists; eexists; (split; [eassumption|]); (split; [rewrite nth_error_map; first [rewrite M1|rewrite M2]; rewrite nth_error_map; first [rewrite U1|rewrite U2]; reflexivity|exact V]). }
  split; [intros rows Ck; apply (checked_ok _ _ _ _ _ Ck (K true))|]. split; [intros rows Ck; apply (checked_ok _ _ _ _ _ Ck (K false))|].
  split; [exact (K true)|exact (K false)].
Qed.
Lemma applied : exists st' b', apply_transformations refl (fun _ => p) (blade_of l) = (st', b', Ok tt).
Proof. exact (apply_succeeds refl (fun _ => p) (blade_of l) n (blade_of_consistent l) nonempty distinct (positive_ok l POS) eq_refl eq_refl ready). Qed.
End Applied.

(** ** Without the transformations *)
Definition evp (l : list row) (n : nat) (up : bool) (j k : nat) : iv * iv * iv :=
  match nth_error l (List.length l - 1 - j) with
  | Some (r, _, _, _, _) => let x := istn n k in let h := ihalf x in iwrap (ith r) (x, if up then h else ineg h)
  | None => (None, None, None)
  end.
Lemma planar_points : forall l n p, l <> [] -> positive l = true -> foil n p -> (2 <= n)%nat ->
  exists b' up down, planar_to_cylindrical (fun _ => p) (blade_of l) = (b', Ok tt) /\ coordinates b' = Built up down /\
    (forall rows, checked (List.length l) n (evp l n true) rows = true -> agrees up rows) /\
    (forall rows, checked (List.length l) n (evp l n false) rows = true -> agrees down rows).
Proof.
  intros l n p L POS F N. pose proof (blade_of_consistent l) as C. destruct (foil_ref n p F N) as (U & LX & _).
  destruct (cylinder_coords_total (fun _ => p) (blade_of l) n C) as (up & down & E).
  { cbn [blade_of sections]. destruct l; [congruence|discriminate]. }
  { intros i s r c P k sk S. split; [|split; assumption]. pose proof (positive_ok l POS) as Q. rewrite Forall_forall in Q. apply Q. eapply nth_error_In. exact (st_radius _ _ _ _ _ _ _ _ S). }
  destruct (cylinder_coords_inv _ _ _ _ C E) as (_ & _ & _ & W).
  exists (set_coords (Built up down) (blade_of l)), up, down. unfold planar_to_cylindrical. rewrite E. split; [reflexivity|]. split; [reflexivity|].
  assert (K : forall (b : bool) j k, (j < List.length l)%nat -> (k < n)%nat -> exists u q, nth_error (if b then up else down) j = Some u /\ nth_error u k = Some q /\
       let '(x, y, z) := evp l n b j k in inside x (fst (fst q)) /\ inside y (snd (fst q)) /\ inside z (snd q)).
  { intros b j k J K. destruct (nth_error l (List.length l - 1 - j)) as [[[[[r c] P] kk] s]|] eqn:EN; [|apply nth_error_None in EN; lia].
    pose proof (blade_of_station _ _ _ _ _ _ _ EN) as S. destruct (W _ _ _ _ _ _ _ S) as (_ & _ & _ & W1 & W2).
    assert (X : (List.length (sections (blade_of l)) - 1 - (List.length l - 1 - j))%nat = j) by (cbn [blade_of sections]; rewrite seq_length; lia). rewrite X in W1, W2.
    destruct (foil_upper n p k F N K) as (U1 & U2). pose proof (istn_ok n k) as XS. pose proof (ihalf_ok _ _ (12 / 100) eq_refl XS) as XH.
    unfold evp. rewrite EN. cbv zeta.
    destruct b; eexists; eexists; (split; [eassumption|]); (split; [rewrite nth_error_map; first [rewrite U1|rewrite U2]; reflexivity|]);
      apply iwrap_ok; cbn [fst snd]; first [apply ith_ok|exact XS|exact XH|apply ineg_ok; exact XH]. }
  split; [intros rows Ck; apply (checked_ok _ _ _ _ _ Ck (K true))|intros rows Ck; apply (checked_ok _ _ _ _ _ Ck (K false))].
Qed.

(** ** Built and turned by a right angle about the x axis *)
Definition quarter (q : iv * iv * iv) : iv * iv * iv := let '(x, y, z) := q in (x, ineg z, y).
Lemma turned_points : forall surface l n p, (forall g, exists f, surface g = Ok f) -> l <> [] -> positive l = true -> foil n p -> (2 <= n)%nat ->
  exists st' b' b2 up down, build surface true (fun _ => p) (blade_of l) = (st', b', Ok tt) /\
    blade_rotate None (Some (PI / 2)) "x" b' = (b2, Ok tt) /\ blade_rotate (Some 90) None "x" b' = (b2, Ok tt) /\ coordinates b2 = Built up down /\
    (forall rows, checked (List.length l) n (fun j k => quarter (ev l n true true j k)) rows = true -> agrees up rows) /\
    (forall rows, checked (List.length l) n (fun j k => quarter (ev l n true false j k)) rows = true -> agrees down rows).
Proof.
  intros surface l n p TS L POS F N. pose proof (blade_of_consistent l) as C.
  destruct (build_succeeds surface true (fun _ => p) (blade_of l) n TS C) as (st' & b' & B).
  { cbn [blade_of sections]. destruct l; [congruence|discriminate]. }
  { apply seq_NoDup. }
  { apply positive_ok; exact POS. }
  { reflexivity. } { reflexivity. }
  { intros s _. destruct (foil_ref n p F N) as (U & E & R). split; [exact U|]. split; [exact E|]. eexists. exact R. }
  destruct (build_agrees _ _ _ _ _ _ B) as (_ & G & _). destruct (build_inv _ _ _ _ _ _ B) as (b1 & up & down & HA & HC & HM).
  destruct (applied_points l n p true POS F N _ _ HA) as (up' & down' & HC' & _ & _ & K1 & K2). rewrite HC in HC'. injection HC' as <- <-.
  assert (HB : coordinates b' = Built up down).
  { apply make_faces_inv in HM as (fu & fl & ft & fr & lu & ld & su & sd & -> & _). exact HC. }
  destruct (blade_rotate_ok (PI / 2) "x" b' G (or_introl eq_refl)) as (b2 & E & M & _). destruct M as (u & d & M1 & M2). rewrite HB in M1. injection M1 as <- <-.
  exists st', b', b2. eexists. eexists. split; [exact B|]. split; [exact E|].
  split. { rewrite blade_rotate_deg. replace (90 * (PI / 180)) with (PI / 2) by field. exact E. }
  split; [exact M2|].
  assert (T : forall q x y z, inside x (fst (fst q)) /\ inside y (snd (fst q)) /\ inside z (snd q) ->
    let q' := turn "x" (PI / 2) q in inside x (fst (fst q')) /\ inside (ineg z) (snd (fst q')) /\ inside y (snd q')).
  { intros [[a b] c] x y z (X & Y & Z). unfold turn. cbn [String.eqb fst snd Ascii.eqb Bool.eqb] in *. rewrite cos_PI2, sin_PI2.
    split; [exact X|]. split; [replace (0 * b - 1 * c) with (- c) by ring; apply ineg_ok; exact Z|replace (1 * b + 0 * c) with b by ring; exact Y]. }
  split; intros rows Ck; apply (checked_ok _ _ _ _ _ Ck); intros j k J K.
  - destruct (K1 j k J K) as (l1 & q & N1 & N2 & I). exists (map (turn "x" (PI / 2)) l1), (turn "x" (PI / 2) q).
    split; [erewrite map_nth_error by exact N1; reflexivity|]. split; [erewrite map_nth_error by exact N2; reflexivity|].
    destruct (ev l n true true j k) as [[x y] z]. cbn [quarter]. apply T. exact I.
  - destruct (K2 j k J K) as (l1 & q & N1 & N2 & I). exists (map (turn "x" (PI / 2)) l1), (turn "x" (PI / 2) q).
    split; [erewrite map_nth_error by exact N1; reflexivity|]. split; [erewrite map_nth_error by exact N2; reflexivity|].
    destruct (ev l n true false j k) as [[x y] z]. cbn [quarter]. apply T. exact I.
Qed.
