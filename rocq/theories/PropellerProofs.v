From Coq Require Import String Reals List ZArith Lia Lra.
From Verif Require Import Base RbfModel ProfileModel ProfileSpec ProfileProofs BladeModel BladeSpec BladeProofs BladeProofs2 BladeProofs3 BladeProofs4 BladeProofs5 BladeProofs6
  ObjModel ObjSpec ObjProofs PropellerModel PropellerSpec.
Import ListNotations.
Open Scope R_scope.

Lemma rotate_all_ok : forall n st b l i, generated b -> (forall o, In o l -> o = (st, b)) ->
  exists r, rotate_all n i l = Ok r /\ List.length r = List.length l /\
    forall j o, nth_error r j = Some o -> fst o = st /\ same_parameters b (snd o) /\ generated (snd o) /\
      coords_moved (turn "x" (INR (i + j) * 2 * PI / n)) b (snd o) /\ faces_moved (turn "x" (INR (i + j) * 2 * PI / n)) b (snd o).
Proof.
  intros n st b l. induction l as [|o l IH]; intros i G A.
  - exists []. split; [reflexivity|]. split; [reflexivity|]. intros [|j] o; discriminate.
  - rewrite (A o (or_introl eq_refl)). cbn [rotate_all]. unfold rotate_own.
    destruct (blade_rotate_ok (INR i * 2 * PI / n) "x" b G) as (b' & -> & C & F & SP & G'); [left; reflexivity|].
    cbn [bind]. destruct (IH (S i) G) as (r & -> & L & K). { intros o' I. apply A. right. exact I. }
    cbn [bind]. eexists. split; [reflexivity|]. split; [cbn; lia|].
    intros [|j] o' E; cbn in E.
    + injection E as <-. rewrite Nat.add_0_r. cbn [fst snd]. auto.
    + replace (i + S j)%nat with (S i + j)%nat by lia. exact (K j o' E).
Qed.
Lemma repeat_in : forall (o : own_blade) n x, In x (repeat o n) -> x = o.
Proof. intros o n x. apply repeat_spec. Qed.

Section Solids.
Variables S T : Type.
Implicit Types (p : propeller S T) (k : cad S T).

(** ** Construction *)
Lemma new_propeller_ok : forall surface (sh : T) st b n refl st' b',
  build surface refl st b = (st', b', Ok tt) ->
  exists p : propeller S T, new_propeller surface sh st b (PyInt (Z.of_nat n)) refl = (st', b', Ok p) /\
    shaft p = sh /\ List.length (blades p) = n /\ cached_solid p = None /\ cached_shape p = None /\
    shaft_solid p = None /\ blades_solid p = None /\
    forall i o, nth_error (blades p) i = Some o -> fst o = st' /\ same_parameters b' (snd o) /\ generated (snd o) /\
      coords_moved (turn "x" (INR i * (2 * PI / INR n))) b' (snd o) /\
      faces_moved (turn "x" (INR i * (2 * PI / INR n))) b' (snd o).
Proof.
  intros surface sh st b n refl st' b' H. unfold new_propeller. rewrite H.
  destruct (build_agrees _ _ _ _ _ _ H) as (_ & G & _).
  rewrite Nat2Z.id, <- INR_IZR_INZ.
  destruct (rotate_all_ok (INR n) st' b' (repeat (deepcopy st' b') n) 0 G (fun o => repeat_in _ _ _)) as (r & -> & L & K).
  cbn [bind]. eexists. split; [reflexivity|]. cbn [shaft blades cached_solid cached_shape shaft_solid blades_solid].
  rewrite repeat_length in L. repeat (split; [first [reflexivity|assumption]|]).
  intros i o E. specialize (K i o E). cbn [Nat.add] in K.
  replace (INR i * (2 * PI / INR n)) with (INR i * 2 * PI / INR n) by (unfold Rdiv; ring). exact K.
Qed.

Lemma new_propeller_int : forall surface (sh : T) st b z refl st' b',
  build surface refl st b = (st', b', Ok tt) -> (z <= 0)%Z ->
  new_propeller (solid := S) surface sh st b (PyInt z) refl = (st', b', Ok (mkProp sh [] None None None None)).
Proof.
  intros surface sh st b z refl st' b' H Z. unfold new_propeller. rewrite H.
  replace (Z.to_nat z) with 0%nat by lia. reflexivity.
Qed.
Lemma new_propeller_float : forall surface (sh : T) st b x refl st' b',
  build surface refl st b = (st', b', Ok tt) ->
  new_propeller (solid := S) surface sh st b (PyFloat x) refl = (st', b', Err TypeError).
Proof. intros surface sh st b x refl st' b' H. unfold new_propeller. rewrite H. reflexivity. Qed.
Lemma new_propeller_failure : forall surface (sh : T) st b n refl st' b' e,
  build surface refl st b = (st', b', Err e) ->
  new_propeller (solid := S) surface sh st b n refl = (st', b', Err e).
Proof. intros surface sh st b n refl st' b' e H. unfold new_propeller. rewrite H. reflexivity. Qed.
Lemma new_propeller_inv : forall surface (sh : T) st b n refl st' b' p,
  new_propeller surface sh st b n refl = (st', b', Ok p) ->
  exists z, n = PyInt z /\ build surface refl st b = (st', b', Ok tt).
Proof.
  intros surface sh st b n refl st' b' p H. unfold new_propeller in H.
  destruct (build surface refl st b) as [[s1 b1] [[]|e]]; [|discriminate]. destruct n as [z|x]; [|discriminate].
  injection H as <- <- _. eauto.
Qed.

(** ** Spacing *)
Lemma coords_moved_comp : forall A B b c d, coords_moved A b c -> coords_moved B c d -> coords_moved (fun x => B (A x)) b d.
Proof.
  intros A B b c d (u & w & E1 & E2) (u' & w' & E3 & E4). exists u, w. split; auto. rewrite E2 in E3. injection E3 as <- <-.
  rewrite E4, !map_map. f_equal; apply map_ext; intros; apply map_map.
Qed.
Lemma coords_moved_ext2 : forall A B b c, (forall x, A x = B x) -> coords_moved A b c -> coords_moved B b c.
Proof.
  intros A B b c H (u & w & E1 & E2). exists u, w. split; auto. rewrite E2. f_equal; apply map_ext; intros; apply map_ext; auto.
Qed.
(** From the images of one blade under two motions to one another. *)
Lemma coords_moved_between : forall A B C b c d, (forall x, C (A x) = B x) -> coords_moved A b c -> coords_moved B b d -> coords_moved C c d.
Proof.
  intros A B C b c d H (u & w & E1 & E2) (u' & w' & E3 & E4). rewrite E1 in E3. injection E3 as <- <-.
  eexists _, _. split; [exact E2|]. rewrite E4, !map_map. f_equal; apply map_ext; intros; rewrite map_map; apply map_ext; intros; auto.
Qed.
Lemma oface_between : forall A B C f g h, (forall x, C (A x) = B x) ->
  oface_eq (option_map (image A) f) g -> oface_eq (option_map (image B) f) h -> oface_eq (option_map (image C) g) h.
Proof.
  intros A B C [f|] [g|] [h|] H E1 E2; cbn in *; try tauto. intros q. rewrite <- (E2 q). split.
  - intros (x & G & ->). apply E1 in G. destruct G as (y & F & ->). exists y. auto.
  - intros (y & F & ->). exists (A y). split; [apply E1; exists y; auto|auto].
Qed.
Lemma faces_moved_between : forall A B C b c d, (forall x, C (A x) = B x) -> faces_moved A b c -> faces_moved B b d -> faces_moved C c d.
Proof.
  intros A B C b c d H (A1 & A2 & A3 & A4) (B1 & B2 & B3 & B4).
  split; [|split; [|split]]; eapply oface_between; eauto.
Qed.
Lemma turn_periods : forall ax n a x, turn ax (a + INR n * (2 * PI)) x = turn ax a x.
Proof.
  intros ax n a x. induction n as [|n IH].
  - cbn [INR]. f_equal. ring.
  - rewrite S_INR. replace (a + (INR n + 1) * (2 * PI)) with ((a + INR n * (2 * PI)) + 2 * PI) by ring.
    rewrite <- turn_turn, turn_full. exact IH.
Qed.
(** Blade [j] is blade [i] rotated by the angle between them. *)
Lemma between_blades : forall surface (sh : T) st b n refl st' b' p i j oi oj,
  new_propeller surface sh st b (PyInt (Z.of_nat n)) refl = (st', b', Ok p) ->
  nth_error (blades p) i = Some oi -> nth_error (blades p) j = Some oj ->
  coords_moved (turn "x" ((INR j - INR i) * (2 * PI / INR n))) (snd oi) (snd oj) /\
  faces_moved (turn "x" ((INR j - INR i) * (2 * PI / INR n))) (snd oi) (snd oj).
Proof.
  intros surface sh st b n refl st' b' p i j oi oj H Hi Hj. pose proof (new_propeller_inv _ _ _ _ _ _ _ _ _ H) as (z & _ & HB).
  destruct (new_propeller_ok surface sh st b n refl st' b' HB) as (p' & E & _ & _ & _ & _ & _ & _ & K).
  rewrite H in E. injection E as <-. destruct (K i oi Hi) as (_ & _ & _ & Ci & Fi). destruct (K j oj Hj) as (_ & _ & _ & Cj & Fj).
  assert (Q : forall x, turn "x" ((INR j - INR i) * (2 * PI / INR n)) (turn "x" (INR i * (2 * PI / INR n)) x) = turn "x" (INR j * (2 * PI / INR n)) x).
  { intros x. rewrite turn_turn. f_equal. ring. }
  split; [exact (coords_moved_between _ _ _ _ _ _ Q Ci Cj)|exact (faces_moved_between _ _ _ _ _ _ Q Fi Fj)].
Qed.
(** One step further, the last blade being followed by the first. *)
Lemma next_blade : forall surface (sh : T) st b n refl st' b' p i oi oj,
  new_propeller surface sh st b (PyInt (Z.of_nat n)) refl = (st', b', Ok p) ->
  nth_error (blades p) i = Some oi -> nth_error (blades p) (Nat.modulo (i + 1) n) = Some oj ->
  coords_moved (turn "x" (2 * PI / INR n)) (snd oi) (snd oj) /\ faces_moved (turn "x" (2 * PI / INR n)) (snd oi) (snd oj).
Proof.
  intros surface sh st b n refl st' b' p i oi oj H Hi Hj. pose proof (new_propeller_inv _ _ _ _ _ _ _ _ _ H) as (z & _ & HB).
  destruct (new_propeller_ok surface sh st b n refl st' b' HB) as (p' & E & _ & L & _ & _ & _ & _ & K).
  rewrite H in E. injection E as <-. destruct (K i oi Hi) as (_ & _ & _ & Ci & Fi). destruct (K _ oj Hj) as (_ & _ & _ & Cj & Fj).
  assert (LI : (i < n)%nat) by (rewrite <- L; apply nth_error_Some; congruence).
  assert (N : INR n <> 0) by (apply not_0_INR; lia).
  assert (Q : forall x, turn "x" (2 * PI / INR n) (turn "x" (INR i * (2 * PI / INR n)) x) = turn "x" (INR (Nat.modulo (i + 1) n) * (2 * PI / INR n)) x).
  { intros x. rewrite turn_turn. replace (INR i * (2 * PI / INR n) + 2 * PI / INR n) with (INR (i + 1) * (2 * PI / INR n)) by (rewrite plus_INR; cbn [INR]; ring).
    rewrite (Nat.div_mod (i + 1) n) at 1 by lia. rewrite plus_INR, mult_INR.
    replace ((INR n * INR ((i + 1) / n) + INR ((i + 1) mod n)) * (2 * PI / INR n)) with (INR ((i + 1) mod n) * (2 * PI / INR n) + INR ((i + 1) / n) * (2 * PI)) by (field; auto).
    apply turn_periods. }
  split; [exact (coords_moved_between _ _ _ _ _ _ Q Ci Cj)|exact (faces_moved_between _ _ _ _ _ _ Q Fi Fj)].
Qed.
Lemma nth_map_map : forall (A : pt3 -> pt3) g s l m q, nth_error g s = Some l -> nth_error l m = Some q ->
  nth_error (map (map A) g) s = Some (map A l) /\ nth_error (map A l) m = Some (A q).
Proof. intros. split; [erewrite map_nth_error; eauto|erewrite map_nth_error; eauto]. Qed.
Lemma moved_point : forall A b c top s m q, coords_moved A b c -> blade_point b top s m q -> blade_point c top s m (A q).
Proof.
  intros A b c top s m q (u & w & E1 & E2) (u' & w' & l & E3 & G & M). rewrite E1 in E3. injection E3 as <- <-.
  destruct top; eexists _, _, (map A l); (split; [exact E2|]); eapply nth_map_map; eauto.
Qed.
Lemma point_unique : forall b top s m q q', blade_point b top s m q -> blade_point b top s m q' -> q = q'.
Proof.
  intros b top s m q q' (u & w & l & E1 & G & M) (u' & w' & l' & E1' & G' & M'). rewrite E1 in E1'. injection E1' as <- <-.
  rewrite G in G'. injection G' as <-. congruence.
Qed.
(** All blades have the same internal distances, between any two points of any two surfaces. *)
Lemma congruent_blades : forall surface (sh : T) st b n refl st' b' p i j oi oj,
  new_propeller surface sh st b (PyInt (Z.of_nat n)) refl = (st', b', Ok p) ->
  nth_error (blades p) i = Some oi -> nth_error (blades p) j = Some oj ->
  forall t1 s1 m1 t2 s2 m2 a1 a2, blade_point (snd oi) t1 s1 m1 a1 -> blade_point (snd oi) t2 s2 m2 a2 ->
    exists c1 c2, blade_point (snd oj) t1 s1 m1 c1 /\ blade_point (snd oj) t2 s2 m2 c2 /\ dist3 c1 c2 = dist3 a1 a2.
Proof.
  intros surface sh st b n refl st' b' p i j oi oj H Hi Hj t1 s1 m1 t2 s2 m2 a1 a2 P1 P2.
  destruct (between_blades _ _ _ _ _ _ _ _ _ _ _ _ _ H Hi Hj) as (C & _).
  eexists _, _. split; [eapply moved_point; eauto|]. split; [eapply moved_point; eauto|]. apply turn_dist.
Qed.

(** ** Balance *)
Lemma sum_telescope : forall (f g : nat -> R) c n, (forall i, c * f i = g (Datatypes.S i) - g i) ->
  c * fold_right Rplus 0 (map f (seq 0 n)) = g n - g 0%nat.
Proof.
  intros f g c n H. assert (K : forall n a, c * fold_right Rplus 0 (map f (seq a n)) = g (a + n)%nat - g a).
  { clear n. induction n as [|n IH]; intros a; cbn [seq map fold_right]; [rewrite Nat.add_0_r; ring|].
    rewrite Rmult_plus_distr_l, H, IH. replace (Datatypes.S a + n)%nat with (a + Datatypes.S n)%nat by lia. ring. }
  rewrite K. reflexivity.
Qed.
Lemma half_step_positive : forall n, (2 <= n)%nat -> 0 < sin (PI / INR n).
Proof.
  intros n H. assert (2 <= INR n). { replace 2 with (INR 2) by (cbn [INR]; lra). apply le_INR. lia. }
  pose proof PI_RGT_0. apply sin_gt_0.
  - apply Rdiv_lt_0_compat; lra.
  - apply (Rmult_lt_reg_r (INR n)); [lra|]. unfold Rdiv. rewrite Rmult_assoc, Rinv_l by lra. nra.
Qed.
Lemma roots_cos : forall n, (2 <= n)%nat -> fold_right Rplus 0 (map (fun i => cos (INR i * (2 * PI / INR n))) (seq 0 n)) = 0.
Proof.
  intros n H. pose proof (half_step_positive n H) as P. set (h := 2 * PI / INR n).
  assert (N : INR n <> 0) by (apply not_0_INR; lia).
  assert (E : 2 * sin (PI / INR n) * fold_right Rplus 0 (map (fun i => cos (INR i * h)) (seq 0 n)) = 0).
  { rewrite (sum_telescope _ (fun i => sin (INR i * h - PI / INR n))).
    - cbn [INR]. replace (INR n * h - PI / INR n) with (- (PI / INR n) + 2 * INR 1 * PI) by (unfold h; cbn [INR]; field; auto).
      rewrite sin_period. replace (0 * h - PI / INR n) with (- (PI / INR n)) by ring. ring.
    - intros i. rewrite S_INR. replace ((INR i + 1) * h - PI / INR n) with (INR i * h + PI / INR n) by (unfold h; field; auto).
      rewrite sin_plus, sin_minus. ring. }
  apply Rmult_integral in E. destruct E; [lra|auto].
Qed.
Lemma roots_sin : forall n, (2 <= n)%nat -> fold_right Rplus 0 (map (fun i => sin (INR i * (2 * PI / INR n))) (seq 0 n)) = 0.
Proof.
  intros n H. pose proof (half_step_positive n H) as P. set (h := 2 * PI / INR n).
  assert (N : INR n <> 0) by (apply not_0_INR; lia).
  assert (E : 2 * sin (PI / INR n) * fold_right Rplus 0 (map (fun i => sin (INR i * h)) (seq 0 n)) = 0).
  { rewrite (sum_telescope _ (fun i => - cos (INR i * h - PI / INR n))).
    - cbn [INR]. replace (INR n * h - PI / INR n) with (- (PI / INR n) + 2 * INR 1 * PI) by (unfold h; cbn [INR]; field; auto).
      rewrite cos_period. replace (0 * h - PI / INR n) with (- (PI / INR n)) by ring. ring.
    - intros i. rewrite S_INR. replace ((INR i + 1) * h - PI / INR n) with (INR i * h + PI / INR n) by (unfold h; field; auto).
      rewrite cos_plus, cos_minus. ring. }
  apply Rmult_integral in E. destruct E; [lra|auto].
Qed.
Lemma sum_turns : forall x y z (t : nat -> R) l,
  sum3 (map (fun i => turn "x" (t i) (x, y, z)) l) =
  (INR (List.length l) * x, fold_right Rplus 0 (map (fun i => cos (t i)) l) * y - fold_right Rplus 0 (map (fun i => sin (t i)) l) * z,
   fold_right Rplus 0 (map (fun i => sin (t i)) l) * y + fold_right Rplus 0 (map (fun i => cos (t i)) l) * z).
Proof.
  intros x y z t l. induction l as [|i l IH].
  - cbn. apply pt3_eq; ring.
  - cbn [map sum3 fold_right List.length]. change (fold_right add3 (0, 0, 0) (map (fun i0 => turn "x" (t i0) (x, y, z)) l)) with (sum3 (map (fun i0 => turn "x" (t i0) (x, y, z)) l)).
    rewrite IH. unfold turn, add3. rewrite S_INR. cbn [String.eqb Ascii.eqb Bool.eqb]. apply pt3_eq; ring.
Qed.
Lemma balanced : forall surface (sh : T) st b n refl st' b' p top s m x y z, (2 <= n)%nat ->
  new_propeller surface sh st b (PyInt (Z.of_nat n)) refl = (st', b', Ok p) -> blade_point b' top s m (x, y, z) ->
  exists qs, Forall2 (fun o q => blade_point (snd o) top s m q) (blades p) qs /\ sum3 qs = (INR n * x, 0, 0).
Proof.
  intros surface sh st b n refl st' b' p top s m x y z N H P. pose proof (new_propeller_inv _ _ _ _ _ _ _ _ _ H) as (w & _ & HB).
  destruct (new_propeller_ok surface sh st b n refl st' b' HB) as (p' & E & _ & L & _ & _ & _ & _ & K).
  rewrite H in E. injection E as <-.
  exists (map (fun i => turn "x" (INR i * (2 * PI / INR n)) (x, y, z)) (seq 0 n)). split.
  - assert (Q : forall a l, (forall i o, nth_error l i = Some o -> nth_error (blades p) (a + i) = Some o) ->
       Forall2 (fun o q => blade_point (snd o) top s m q) l (map (fun i => turn "x" (INR i * (2 * PI / INR n)) (x, y, z)) (seq a (List.length l)))).
    { intros a l. revert a. induction l as [|o l IH]; intros a W; cbn [map seq List.length]; constructor.
      - apply (moved_point (turn "x" (INR a * (2 * PI / INR n))) b'); [|exact P]. apply (K a o). specialize (W 0%nat o eq_refl). rewrite Nat.add_0_r in W. exact W.
      - apply IH. intros i o' E'. specialize (W (Datatypes.S i) o' E'). replace (Datatypes.S a + i)%nat with (a + Datatypes.S i)%nat by lia. exact W. }
    replace (seq 0 n) with (seq 0 (List.length (blades p))) by (rewrite L; reflexivity). apply Q. auto.
  - rewrite sum_turns, roots_cos, roots_sin by exact N. rewrite seq_length. apply pt3_eq; ring.
Qed.

(** ** A second propeller from the same blade *)
Definition redress (c : coords) (u l t r : option face) (b : blade) : blade := set_coords c (set_faces u l t r b).
Lemma sections_redress : forall c u l t r b refl is st, transform_sections (redress c u l t r b) refl is st = transform_sections b refl is st.
Proof.
  intros c u l t r b refl is. induction is as [|i is IH]; intros st; [reflexivity|]. cbn [transform_sections].
  change (sections (redress c u l t r b)) with (sections b). change (section_steps (redress c u l t r b) refl i) with (section_steps b refl i).
  destruct (nth_error (sections b) i); [|reflexivity]. destruct (run_steps _ _) as [p [x|e]]; [apply IH|reflexivity].
Qed.
Lemma redressed : forall b c, same_parameters b c -> c = redress (coordinates c) (upper_face c) (lower_face c) (tip_face c) (root_face c) b.
Proof.
  intros b c (e1 & e2 & e3 & e4 & e5 & e6 & e7 & e8). destruct b as [a1 a2 a3 a4 a5 a6 a7 a8 a9 a10 a11 a12 a13], c as [c1 c2 c3 c4 c5 c6 c7 c8 c9 c10 c11 c12 c13].
  cbn [sections radii chords pitch rake skew thickness camber] in *. subst. reflexivity.
Qed.
Lemma apply_same : forall b c refl st st' c', same_parameters b c -> apply_transformations refl st c = (st', c', Ok tt) ->
  exists b', apply_transformations refl st b = (st', b', Ok tt).
Proof.
  intros b c refl st st' c' SP H. rewrite (redressed b c SP) in H. unfold apply_transformations in *. rewrite sections_redress in H.
  change (sections (redress _ _ _ _ _ b)) with (sections b) in H. destruct (transform_sections b refl _ st) as [s [x|e]]; [|discriminate].
  unfold planar_to_cylindrical in *. change (cylinder_coords s (redress _ _ _ _ _ b)) with (cylinder_coords s b) in H.
  destruct (cylinder_coords s b) as [[up down]|e]; [|discriminate]. injection H as <- _. eauto.
Qed.
Lemma second_propeller : forall surface (sh sh' : T) st b n n' refl refl' st1 b1 p1 st2 b2 p2, consistent b -> NoDup (sections b) ->
  Forall (fun r => r <> 0) (radii b) -> thickness b = None -> camber b = None ->
  (forall s, In s (sections b) -> uniform (st s)) ->
  new_propeller surface sh st b n refl = (st1, b1, Ok p1) ->
  new_propeller surface sh' st1 b1 n' refl' = (st2, b2, Ok p2) ->
  forall i s r c P rk sk a d, station b i s r c P rk sk -> c <> 0 ->
    In a (ProfileSpec.points (st s)) -> In d (ProfileSpec.points (st s)) -> a <> d ->
    forall o1 o2, In o1 (blades p1) -> In o2 (blades p2) -> fst o2 s <> fst o1 s.
Proof.
  intros surface sh sh' st b n n' refl refl' st1 b1 p1 st2 b2 p2 C ND F TH K U H1 H2 i s r c P rk sk a d ST Hc Ha Hd Had o1 o2 I1 I2.
  assert (Q : forall sh n refl st b st' b' p o, new_propeller surface sh st b n refl = (st', b', Ok p) -> In o (blades p) -> fst o = st').
  { clear. intros sh n refl st b st' b' p o H I. pose proof (new_propeller_inv _ _ _ _ _ _ _ _ _ H) as (z & -> & HB).
    destruct (Z_le_gt_dec z 0) as [Z|Z].
    - rewrite (new_propeller_int surface sh st b z refl st' b' HB Z) in H. injection H as <-. destruct I.
    - rewrite <- (Z2Nat.id z) in H by lia. destruct (new_propeller_ok surface sh st b (Z.to_nat z) refl st' b' HB) as (p' & E & _ & _ & _ & _ & _ & _ & K).
      rewrite H in E. injection E as <-. apply In_nth_error in I. destruct I as (i & I). apply (K i o I). }
  rewrite (Q _ _ _ _ _ _ _ _ _ H1 I1), (Q _ _ _ _ _ _ _ _ _ H2 I2).
  pose proof (new_propeller_inv _ _ _ _ _ _ _ _ _ H1) as (z1 & _ & B1). pose proof (new_propeller_inv _ _ _ _ _ _ _ _ _ H2) as (z2 & _ & B2).
  apply build_inv in B1. destruct B1 as (c1 & up1 & down1 & A1 & E1 & M1).
  apply build_inv in B2. destruct B2 as (c2 & up2 & down2 & A2 & E2 & M2).
  assert (SP : same_parameters c1 b1).
  { apply make_faces_inv in M1 as (fu & fl & ft & fr & lu & ld & su & sd & -> & _). repeat split. }
  destruct (apply_same c1 b1 refl' st1 st2 c2 SP A2) as (d2 & A2').
  exact (apply_twice_differs refl refl' st b st1 c1 st2 d2 C ND F TH K U A1 A2' i s r c P rk sk a d ST Hc Ha Hd Had).
Qed.

(** ** Caching *)
Lemma step_keeps_solid : forall k a p s, cached_solid p = Some s -> cached_solid (fst (fst (perform k a p))) = Some s.
Proof.
  intros k a p s H.
  assert (GS : get_solid k p = (p, Ok s)) by (unfold get_solid; rewrite H; reflexivity).
  assert (GH : cached_solid (fst (get_shape k p)) = Some s).
  { unfold get_shape. destruct (cached_shape p); [exact H|]. rewrite GS. exact H. }
  destruct a; cbn [perform fst cached_solid]; auto.
  - rewrite GS. exact H.
  - destruct (get_shape k p) as [q [x|e]]; exact GH.
  - unfold export_iges. destruct (get_shape k p) as [q [x|e]]; exact GH.
  - unfold export_stl. destruct (get_shape k p) as [q [x|e]]; [|exact GH]. destruct (save _ _ _ _ _); exact GH.
  - unfold tmp_stl. destruct (mapM _ _); exact H.
  - unfold generate_obj. destruct (through_stl _ _ _ _ _) as [f1 [m1|e]]; [|exact H]. destruct (through_stl _ _ _ _ _) as [f2 [m2|e]]; [|exact H].
    destruct (merge_meshes _ _ _ _); [|exact H]. destruct (save _ _ _ _ _); exact H.
  - unfold generate_obj_blades. destruct (through_stl _ _ _ _ _) as [f1 [m1|e]]; [|exact H]. destruct (blades_object _); [|exact H]. destruct (save _ _ _ _ _); exact H.
  - unfold display. destruct (window k); [|exact H]. destruct (get_shape k p) as [q [x|e]]; exact GH.
Qed.
Lemma step_keeps_shape : forall k a p s, cached_shape p = Some s -> cached_shape (fst (fst (perform k a p))) = Some s.
Proof.
  intros k a p s H.
  assert (GH : get_shape k p = (p, Ok s)) by (unfold get_shape; rewrite H; reflexivity).
  destruct a; cbn [perform fst cached_shape]; auto.
  - unfold get_solid. destruct (cached_solid p); [exact H|]. destruct (bind _ _); exact H.
  - rewrite GH. exact H.
  - unfold export_iges. rewrite GH. exact H.
  - unfold export_stl. rewrite GH. destruct (save _ _ _ _ _); exact H.
  - unfold tmp_stl. destruct (mapM _ _); exact H.
  - unfold generate_obj. destruct (through_stl _ _ _ _ _) as [f1 [m1|e]]; [|exact H]. destruct (through_stl _ _ _ _ _) as [f2 [m2|e]]; [|exact H].
    destruct (merge_meshes _ _ _ _); [|exact H]. destruct (save _ _ _ _ _); exact H.
  - unfold generate_obj_blades. destruct (through_stl _ _ _ _ _) as [f1 [m1|e]]; [|exact H]. destruct (blades_object _); [|exact H]. destruct (save _ _ _ _ _); exact H.
  - unfold display. destruct (window k); [|exact H]. rewrite GH. exact H.
Qed.
Lemma history_keeps : forall h p, (forall s, cached_solid p = Some s -> cached_solid (after h p) = Some s) /\
  (forall s, cached_shape p = Some s -> cached_shape (after h p) = Some s).
Proof.
  induction h as [|[k a] h IH]; intros p; [auto|]. cbn [after]. split; intros s H.
  - apply IH. apply step_keeps_solid. exact H.
  - apply IH. apply step_keeps_shape. exact H.
Qed.
Lemma get_solid_caches : forall k p p' s, get_solid k p = (p', Ok s) -> cached_solid p' = Some s /\ cached_shape p' = cached_shape p /\ blades p' = blades p /\ shaft p' = shaft p.
Proof.
  intros k p p' s H. unfold get_solid in H. destruct (cached_solid p) eqn:E; [injection H as <- <-; auto|].
  destruct (bind _ _); [|discriminate]. injection H as <- <-. auto.
Qed.
Lemma get_shape_caches : forall k p p' s, get_shape k p = (p', Ok s) -> cached_shape p' = Some s.
Proof.
  intros k p p' s H. unfold get_shape in H. destruct (cached_shape p) eqn:E; [injection H as <- <-; auto|].
  destruct (get_solid k p) as [q [x|e]]; [|discriminate]. injection H as <- <-. reflexivity.
Qed.
Lemma solid_once : forall k p p' s h k', get_solid k p = (p', Ok s) -> perform k' Solid_ (after h p') = (after h p', [], Ok (Solid s)).
Proof.
  intros k p p' s h k' H. apply get_solid_caches in H. destruct H as (H & _). apply (proj1 (history_keeps h p')) in H.
  cbn [perform]. unfold get_solid. rewrite H. reflexivity.
Qed.
Lemma shape_once : forall k p p' s h k' name, get_shape k p = (p', Ok s) ->
  perform k' Shape_ (after h p') = (after h p', [], Ok (Solid s)) /\
  perform k' (ExportIges name) (after h p') = (after h p', if writable k' name then [(name, Iges s)] else [], Ok Nothing) /\
  perform k' (ExportStl name) (after h p') = (after h p', if writable k' name then [(name, Stl s)] else [], if writable k' name then Ok Nothing else Err IOError).
Proof.
  intros k p p' s h k' name H. apply get_shape_caches in H. apply (proj2 (history_keeps h p')) in H.
  cbn [perform]. unfold export_iges, export_stl, save_quietly, save, get_shape. rewrite H. destruct (writable k' name); auto.
Qed.
Lemma failed_keeps : forall k p p' e, get_solid k p = (p', Err e) \/ get_shape k p = (p', Err e) -> p' = p.
Proof.
  intros k p p' e. assert (K : forall p', get_solid k p = (p', Err e) -> p' = p).
  { intros q H. unfold get_solid in H. destruct (cached_solid p); [discriminate|]. destruct (bind _ _); [discriminate|]. congruence. }
  intros [H|H]; [auto|]. unfold get_shape in H. destruct (cached_shape p); [discriminate|]. destruct (get_solid k p) as [q [x|e']] eqn:E; [discriminate|].
  injection H as <- <-. apply K. reflexivity.
Qed.
Lemma present_four : forall a b c d l, present [a; b; c; d] = Ok l <->
  exists a' b' c' d', a = Some a' /\ b = Some b' /\ c = Some c' /\ d = Some d' /\ l = [a'; b'; c'; d'].
Proof.
  intros [a|] [b|] [c|] [d|] l; cbn; split; try discriminate; try (intros (a' & b' & c' & d' & H); intuition discriminate).
  - intros H. injection H as <-. repeat eexists.
  - intros (a' & b' & c' & d' & H1 & H2 & H3 & H4 & ->). congruence.
Qed.
Lemma compound_somes : forall (A : Type) (l : list A), make_compound A (map Some l) = Ok l.
Proof. intros A l. induction l as [|a l IH]; [reflexivity|]. cbn. rewrite IH. reflexivity. Qed.
Lemma solid_first : forall k p p' s, cached_solid p = None -> get_solid k p = (p', Ok s) ->
  exists s0 bs, make_shaft k (shaft p) = Ok s0 /\ fuse k s0 bs = Some s /\
    Forall2 (fun o x => exists u l t r, four_faces (snd o) u l t r /\ make_solid k [u; l; t; r] = Ok x) (blades p) bs.
Proof.
  intros k p p' s N H. unfold get_solid in H. rewrite N in H.
  destruct (make_shaft k (shaft p)) as [s0|e]; [|discriminate]. cbn [bind] in H.
  destruct (mapM (blade_solid S T k) (blades p)) as [bs|e] eqn:M; [|discriminate]. cbn [bind] in H. rewrite compound_somes in H. cbn [bind] in H.
  destruct (fuse k s0 bs) as [f|] eqn:FU; [|discriminate]. injection H as <- <-. exists s0, bs. split; auto. split; auto. clear - M. revert bs M.
  induction (blades p) as [|o l IH]; intros bs M; cbn in M; [injection M as <-; constructor|].
  destruct (blade_solid S T k o) as [x|] eqn:E; [|discriminate]. cbn in M. destruct (mapM _ l) eqn:M'; [|discriminate]. injection M as <-.
  constructor; auto. unfold blade_solid in E. destruct (present _) as [fs|] eqn:P; [|discriminate]. cbn [bind] in E. apply present_four in P.
  destruct P as (f1 & f2 & f3 & f4 & H1 & H2 & H3 & H4 & ->). exists f1, f2, f3, f4. repeat split; auto.
Qed.
(** Shape and solid in any history. *)
Lemma shape_is_sewn : forall h p, (forall t, cached_shape p = Some t -> exists k s, cached_solid p = Some s /\ t = sew k s) ->
  forall t, cached_shape (after h p) = Some t -> exists k s, cached_solid (after h p) = Some s /\ t = sew k s.
Proof.
  induction h as [|[k a] h IH]; intros p I; [exact I|]. cbn [after]. apply IH. clear IH.
  assert (GS : forall q r, get_solid k p = (q, r) -> forall t, cached_shape q = Some t -> exists k s, cached_solid q = Some s /\ t = sew k s).
  { intros q r H t C. unfold get_solid in H. destruct (cached_solid p) eqn:E; [injection H as <- <-; rewrite E; apply (I t C)|].
    destruct (bind _ _) as [f|e]; injection H as <- <-; [|rewrite E; apply (I t C)].
    destruct (I t C) as (k0 & s0 & X & _). discriminate. }
  assert (GH : forall q r, get_shape k p = (q, r) -> forall t, cached_shape q = Some t -> exists k s, cached_solid q = Some s /\ t = sew k s).
  { intros q r H t C. unfold get_shape in H. destruct (cached_shape p) eqn:E; [injection H as <- <-; apply I; congruence|].
    destruct (get_solid k p) as [p' [s|e]] eqn:E'; injection H as <- <-; [|eapply GS; eauto].
    apply get_solid_caches in E'. destruct E' as (E' & _). cbn in *. injection C as <-. eauto. }
  intros t. destruct a; cbn [perform fst]; auto.
  - destruct (get_solid k p) as [q [x|e]]; cbn; eauto.
  - destruct (get_shape k p) as [q [x|e]]; cbn; eauto.
  - unfold export_iges. destruct (get_shape k p) as [q [x|e]]; cbn; eauto.
  - unfold export_stl. destruct (get_shape k p) as [q [x|e]]; [destruct (save _ _ _ _ _)|]; cbn; eauto.
  - unfold tmp_stl. destruct (mapM _ _); cbn; eauto.
  - unfold generate_obj. destruct (through_stl _ _ _ _ _) as [f1 [m1|e]]; [|cbn; auto]. destruct (through_stl _ _ _ _ _) as [f2 [m2|e]]; [|cbn; auto].
    destruct (merge_meshes _ _ _ _); [|cbn; auto]. destruct (save _ _ _ _ _); cbn; auto.
  - unfold generate_obj_blades. destruct (through_stl _ _ _ _ _) as [f1 [m1|e]]; [|cbn; auto]. destruct (blades_object _); [|cbn; auto]. destruct (save _ _ _ _ _); cbn; auto.
  - unfold display. destruct (window k); [|cbn; auto]. destruct (get_shape k p) as [q [x|e]]; cbn; eauto.
Qed.
(** tmp_stl writes the present blades. *)
Lemma tmp_current : forall k name p, writable k name = true -> (forall o, In o (blades p) -> has_faces (snd o)) ->
  exists l, perform k (TmpStl name) p = (p, [(name, StlCompound l)], Ok Nothing) /\
    Forall2 (fun o x => exists u l t r, four_faces (snd o) u l t r /\ x = sew_faces k [u; l; r; t]) (blades p) l.
Proof.
  intros k name p W H. cbn [perform]. unfold tmp_stl, save_quietly. rewrite W.
  assert (K : forall bs, (forall o, In o bs -> has_faces (snd o)) -> exists l,
    mapM (fun o : own_blade => let b := snd o in let* fs := present [upper_face b; lower_face b; root_face b; tip_face b] in Ok (sew_faces k fs)) bs = Ok l /\
    Forall2 (fun o x => exists u l t r, four_faces (snd o) u l t r /\ x = sew_faces k [u; l; r; t]) bs l).
  { clear. induction bs as [|o bs IH]; intros H; [exists []; split; [reflexivity|constructor]|].
    destruct (IH (fun o' I => H o' (or_intror I))) as (l & E & F). destruct (H o (or_introl eq_refl)) as (H1 & H2 & H3 & H4).
    destruct (upper_face (snd o)) as [u|] eqn:E1; [|congruence]. destruct (lower_face (snd o)) as [w|] eqn:E2; [|congruence].
    destruct (tip_face (snd o)) as [t|] eqn:E3; [|congruence]. destruct (root_face (snd o)) as [r|] eqn:E4; [|congruence].
    exists (sew_faces k [u; w; r; t] :: l). split.
    - match type of E with mapM ?f _ = _ => assert (Q : f o = Ok (sew_faces k [u; w; r; t])) by (cbv zeta; rewrite E1, E2, E3, E4; reflexivity) end.
      cbn [mapM]. cbv zeta in E, Q |- *. rewrite Q. cbn [bind]. rewrite E. reflexivity.
    - constructor; auto. exists u, w, t, r. repeat split; auto. }
  destruct (K (blades p) H) as (l & E & F). exists l. cbv zeta in E |- *. rewrite E. auto.
Qed.

(** ** The OBJ exports *)
Lemma no_obj_attributes : forall h p, only_methods h -> shaft_solid (after h p) = shaft_solid p /\ blades_solid (after h p) = blades_solid p.
Proof.
  induction h as [|[k a] h IH]; intros p O; [auto|]. apply Forall_inv in O as A. apply Forall_inv_tail in O. cbn [after].
  destruct (IH (fst (fst (perform k a p))) O) as (-> & ->). clear IH O. cbn [snd] in A.
  assert (GS : shaft_solid (fst (get_solid k p)) = shaft_solid p /\ blades_solid (fst (get_solid k p)) = blades_solid p).
  { unfold get_solid. destruct (cached_solid p); [auto|]. destruct (bind _ _); auto. }
  assert (GH : shaft_solid (fst (get_shape k p)) = shaft_solid p /\ blades_solid (fst (get_shape k p)) = blades_solid p).
  { unfold get_shape. destruct (cached_shape p); [auto|]. destruct (get_solid k p) as [q [x|e]]; exact GS. }
  destruct a; cbn [perform fst]; auto; try contradiction.
  - destruct (get_solid k p) as [q [x|e]]; exact GS.
  - destruct (get_shape k p) as [q [x|e]]; exact GH.
  - unfold export_iges. destruct (get_shape k p) as [q [x|e]]; exact GH.
  - unfold export_stl. destruct (get_shape k p) as [q [x|e]]; [destruct (save _ _ _ _ _)|]; exact GH.
  - unfold tmp_stl. destruct (mapM _ _); cbn; auto.
  - unfold generate_obj. destruct (through_stl _ _ _ _ _) as [f1 [m1|e]]; [|cbn; auto]. destruct (through_stl _ _ _ _ _) as [f2 [m2|e]]; [|cbn; auto].
    destruct (merge_meshes _ _ _ _); [|cbn; auto]. destruct (save _ _ _ _ _); cbn; auto.
  - unfold generate_obj_blades. destruct (through_stl _ _ _ _ _) as [f1 [m1|e]]; [|cbn; auto]. destruct (blades_object _); [|cbn; auto]. destruct (save _ _ _ _ _); cbn; auto.
  - unfold display. destruct (window k); [|cbn; auto]. destruct (get_shape k p) as [q [x|e]]; exact GH.
Qed.
Lemma new_attributes : forall surface (sh : T) st b n refl st' b' p, new_propeller surface sh st b n refl = (st', b', Ok p) ->
  shaft_solid p = None /\ blades_solid p = None /\ cached_solid p = None /\ cached_shape p = None.
Proof.
  intros surface sh st b n refl st' b' p H. unfold new_propeller in H. destruct (build _ _ _ _) as [[s1 b1] [x|e]]; [|discriminate].
  destruct n as [z|x']; [|discriminate]. injection H as <- <- H. destruct (rotate_all _ _ _); [|discriminate]. injection H as <-. auto.
Qed.
Lemma obj_unusable : forall surface (sh : T) st b n refl st' b' p h k name sel kw,
  new_propeller surface sh st b n refl = (st', b', Ok p) -> only_methods h ->
  perform k (GenerateObj name sel kw) (after h p) = (after h p, [], Err AttributeError) /\
  perform k (GenerateObjBlades name) (after h p) = (after h p, [], Err AttributeError).
Proof.
  intros surface sh st b n refl st' b' p h k name sel kw H O. apply new_attributes in H. destruct H as (H1 & H2 & _).
  destruct (no_obj_attributes h p O) as (E1 & E2). rewrite H1 in E1. rewrite H2 in E2.
  cbn [perform]. unfold generate_obj, generate_obj_blades, through_stl. rewrite E1, E2. auto.
Qed.
Lemma obj_assigned : forall k p name sel kw ss bs ms mb o, shaft_solid p = Some ss -> blades_solid p = Some bs ->
  (forall f, writable k f = true) -> mesh_of k ss = Ok ms -> mesh_of k bs = Ok mb -> merge_meshes ms mb sel kw = Ok o ->
  perform k (GenerateObj name sel kw) p =
    (p, [("/tmp/temp_shaft.stl"%string, Stl ss); ("/tmp/temp_blades.stl"%string, Stl bs); (name, Obj o)], Ok Nothing).
Proof.
  intros k p name sel kw ss bs ms mb o E1 E2 W M1 M2 MM. cbn [perform]. unfold generate_obj, through_stl, save, attribute.
  rewrite E1, E2, !W, M1, M2, MM. reflexivity.
Qed.
Lemma obj_failed : forall k p name sel kw ss bs ms mb e, shaft_solid p = Some ss -> blades_solid p = Some bs ->
  (forall f, writable k f = true) -> mesh_of k ss = Ok ms -> mesh_of k bs = Ok mb -> merge_meshes ms mb sel kw = Err e ->
  perform k (GenerateObj name sel kw) p =
    (p, [("/tmp/temp_shaft.stl"%string, Stl ss); ("/tmp/temp_blades.stl"%string, Stl bs)], Err e).
Proof.
  intros k p name sel kw ss bs ms mb e E1 E2 W M1 M2 MM. cbn [perform]. unfold generate_obj, through_stl, save, attribute.
  rewrite E1, E2, !W, M1, M2, MM. reflexivity.
Qed.
Lemma obj_half_assigned : forall k p name sel kw ss ms, shaft_solid p = Some ss -> blades_solid p = None ->
  (forall f, writable k f = true) -> mesh_of k ss = Ok ms ->
  perform k (GenerateObj name sel kw) p = (p, [("/tmp/temp_shaft.stl"%string, Stl ss)], Err AttributeError).
Proof.
  intros k p name sel kw ss ms E1 E2 W M1. cbn [perform]. unfold generate_obj, through_stl, save, attribute. rewrite E1, E2, !W, M1. reflexivity.
Qed.
Lemma obj_blades_assigned : forall k p name bs mb o, blades_solid p = Some bs ->
  (forall f, writable k f = true) -> mesh_of k bs = Ok mb -> blades_object mb = Ok o ->
  perform k (GenerateObjBlades name) p = (p, [("/tmp/temp_blades.stl"%string, Stl bs); (name, Obj o)], Ok Nothing).
Proof.
  intros k p name bs mb o E2 W M2 MM. cbn [perform]. unfold generate_obj_blades, through_stl, save, attribute.
  rewrite E2, !W, M2, MM. reflexivity.
Qed.
End Solids.

Lemma display_outcome : forall S T (k : cad S T) p, exists p' o, perform k Display p = (p', [], o) /\
  (o = Ok Nothing <-> window k = Ok tt /\ exists x, snd (get_shape k p) = Ok x) /\
  (forall e, o = Err e <-> window k = Err e \/ (window k = Ok tt /\ snd (get_shape k p) = Err e)) /\
  (window k <> Ok tt -> p' = p) /\ (window k = Ok tt -> p' = fst (get_shape k p)).
Proof.
  intros S T k p. cbn [perform]. unfold display. destruct (window k) as [[]|e] eqn:W.
  - destruct (get_shape k p) as [q [x|e]] eqn:G; cbn [fst snd]; do 2 eexists; (split; [reflexivity|]).
    + split; [split; eauto|]. split; [|split; congruence]. intros e. split; [discriminate|]. intros [H|[_ H]]; discriminate.
    + split; [split; [discriminate|]; intros (_ & x & H); discriminate|]. split; [|split; congruence]. intros e'. split; [intros H; right; split; congruence|].
      intros [H|[_ H]]; congruence.
  - do 2 eexists. split; [reflexivity|]. split; [split; [discriminate|]; intros (H & _); discriminate|].
    split; [|split; congruence]. intros e'. split; [intros H; left; congruence|]. intros [H|[H _]]; congruence.
Qed.
