(** The recorded foils: enclosures of the coordinates computed by the model. *)
From Coq Require Import Reals List ZArith String Lra Lia.
From Verif Require Import Base ProfileModel ProfileSpec CustomSpec NacaModel NacaSpec NacaProofs NacaProofs2 Enclose ValidNacaData.
Import ListNotations.
Open Scope R_scope.

(** The arrays agree with the recorded rows to the accuracy the authors ask for. *)
Definition recorded (p : profile) (rows : list (Z * Z * Z * Z)) : Prop :=
  sized (List.length rows) p /\
  forall k a b c d, nth_error rows k = Some (a, b, c, d) ->
    near (fst (up_i p k)) a /\ near (snd (up_i p k)) b /\ near (fst (down_i p k)) c /\ near (snd (down_i p k)) d.

Definition ist (k : nat) : iv := frac (Z.of_nat k) 239.
Lemma ist_ok : forall k, inside (ist k) (station 240 k).
Proof.
  intros k. unfold station, ist. rewrite (INR_IZR_INZ k), (INR_IZR_INZ (240 - 1)). change (Z.of_nat (240 - 1)) with 239%Z. apply frac_ok.
Qed.
Definition ihalf (x : iv) : iv :=
  imul (frac 3 5) (iadd (imul (frac 2969 10000) (isqrt x))
    (imul x (isub (imul x (isub (imul x (isub (frac 2843 10000) (imul x (frac 1036 10000)))) (frac 3516 10000))) (frac 1260 10000)))).
Lemma ihalf_ok : forall i x t, t = 12 / 100 -> inside i x -> inside (ihalf i) (half_thickness t x).
Proof.
  intros i x t -> H. replace (half_thickness (12 / 100) x) with
    (3 / 5 * (2969 / 10000 * sqrt x + x * (x * (x * (2843 / 10000 - x * (1036 / 10000)) - 3516 / 10000) - 1260 / 10000))).
  - unfold ihalf. repeat first [apply imul_ok|apply iadd_ok|apply isub_ok|apply isqrt_ok|apply frac_ok|exact H].
  - unfold half_thickness. replace 0.2969 with (2969 / 10000) by lra. replace (-0.1260) with (- (1260 / 10000)) by lra. replace (-0.3516) with (- (3516 / 10000)) by lra.
    replace 0.2843 with (2843 / 10000) by lra. replace (-0.1036) with (- (1036 / 10000)) by lra. field.
Qed.
(** cos (atan s) and sin (atan s). *)
Definition icosat (s : iv) : iv := iinv (isqrt (iadd (frac 1 1) (imul s s))).
Lemma icosat_ok : forall i s, inside i s -> inside (icosat i) (cos (atan s)).
Proof.
  intros i s H. rewrite cos_atan. unfold Rdiv. rewrite Rmult_1_l. apply iinv_ok, isqrt_ok, iadd_ok; [|unfold Rsqr; apply imul_ok; auto].
  replace 1 with (1 / 1) by field. apply frac_ok.
Qed.

Definition laid_iv (h c s x : iv) : iv * iv * iv * iv :=
  let co := icosat s in let hc := imul h co in let hs := imul s hc in (isub x hs, iadd c hc, iadd x hs, isub c hc).
Definition flat_iv (h c x : iv) : iv * iv * iv * iv := (x, iadd c h, x, isub c h).
Definition check (ev : nat -> iv * iv * iv * iv) (rows : list (Z * Z * Z * Z)) : bool :=
  forallb (fun kr => let '(k, (a, b, c, d)) := kr in let '(i, j, l, m) := ev k in
    (nearby i a && nearby j b && nearby l c && nearby m d)%bool) (combine (seq 0 (List.length rows)) rows).
Lemma check_ok : forall ev rows X U D V p, traced 240 X U D V p -> List.length rows = 240%nat ->
  (forall k, (k < 240)%nat -> let x := station 240 k in let '(i, j, l, m) := ev k in inside i (X x) /\ inside j (U x) /\ inside l (D x) /\ inside m (V x)) ->
  check ev rows = true -> recorded p rows.
Proof.
  intros ev rows X U D V p T L H C. split; [rewrite L; eapply traced_sized; exact T|]. intros k a b c d E.
  assert (K : (k < 240)%nat). { rewrite <- L. apply nth_error_Some. rewrite E. discriminate. }
  unfold check in C. rewrite forallb_forall in C. specialize (C (k, (a, b, c, d))).
  assert (M : In (k, (a, b, c, d)) (combine (seq 0 (List.length rows)) rows)).
  { apply (nth_error_In _ k). clear - E. revert rows E. cut (forall rows s, nth_error rows k = Some (a, b, c, d) -> nth_error (combine (seq s (List.length rows)) rows) k = Some ((s + k)%nat, (a, b, c, d))).
    { intros C rows E. rewrite (C rows 0%nat E). reflexivity. }
    induction k as [|k IH]; intros [|r rows] s E; try discriminate; cbn in *; [injection E as ->; rewrite Nat.add_0_r; reflexivity|].
    rewrite (IH rows (S s) E). do 2 f_equal. lia. }
  specialize (C M). specialize (H k K). cbn [fst snd] in *. destruct (ev k) as [[[i j] l] m]. destruct H as (H1 & H2 & H3 & H4).
  apply Bool.andb_true_iff in C. destruct C as (C & C4). apply Bool.andb_true_iff in C. destruct C as (C & C3). apply Bool.andb_true_iff in C. destruct C as (C1 & C2).
  destruct (traced_nth 240 X U D V p k T ltac:(lia) K) as (-> & ->). cbn [fst snd].
  split; [|split; [|split]]; eapply nearby_ok; eauto.
Qed.
Lemma laid_iv_ok : forall h c s x ih ic is ix, inside ih h -> inside ic c -> inside is s -> inside ix x ->
  let '(i, j, l, m) := laid_iv ih ic is ix in
  inside i (x - h * sin (atan s)) /\ inside j (c + h * cos (atan s)) /\ inside l (x + h * sin (atan s)) /\ inside m (c - h * cos (atan s)).
Proof.
  intros h c s x ih ic is ix H C S X. unfold laid_iv. rewrite sin_atan. pose proof (icosat_ok _ _ S) as K.
  replace (h * (s * cos (atan s))) with (s * (h * cos (atan s))) by ring.
  repeat match goal with |- _ /\ _ => split end; repeat first [apply iadd_ok|apply isub_ok|apply imul_ok|assumption].
Qed.
Lemma flat_iv_ok : forall h c x ih ic ix, inside ih h -> inside ic c -> inside ix x ->
  let '(i, j, l, m) := flat_iv ih ic ix in inside i x /\ inside j (c + h) /\ inside l x /\ inside m (c - h).
Proof. intros h c x ih ic ix H C X. unfold flat_iv. repeat match goal with |- _ /\ _ => split end; repeat first [apply iadd_ok|apply isub_ok|assumption]. Qed.

(** ** Symmetric *)
Definition ev_symmetric (k : nat) : iv * iv * iv * iv := let x := ist k in let h := ihalf x in (x, h, x, ineg h).
Lemma symmetric_rows : forall p rows t, t = 12 / 100 -> traced 240 (fun x => x) (half_thickness t) (fun x => x) (fun x => - half_thickness t x) p ->
  List.length rows = 240%nat -> check ev_symmetric rows = true -> recorded p rows.
Proof.
  intros p rows t Et T L C. apply (check_ok ev_symmetric rows _ _ _ _ p T L); auto. intros k _. cbv zeta. unfold ev_symmetric. pose proof (ist_ok k) as X.
  pose proof (ihalf_ok _ _ t Et X) as H. split; [exact X|]. split; [exact H|]. split; [exact X|]. apply ineg_ok. exact H.
Qed.

(** ** Four digits, 2412 *)
Definition before4 (k : nat) : bool := (Z.of_nat k * 5 <=? 2 * 239)%Z.
Lemma before4_ok : forall k, if before4 k then station 240 k <= 4 / 10 else ~ station 240 k <= 4 / 10.
Proof.
  intros k. unfold before4, station. rewrite (INR_IZR_INZ k), (INR_IZR_INZ (240 - 1)). change (Z.of_nat (240 - 1)) with 239%Z.
  destruct (Z.leb_spec (Z.of_nat k * 5) (2 * 239)) as [H|H]; [apply IZR_le in H|apply IZR_lt in H]; rewrite !mult_IZR in H; lra.
Qed.
Definition icamber4 (k : nat) (x : iv) : iv :=
  if before4 k then imul (imul (frac 1 8) x) (isub (frac 4 5) x)
  else imul (imul (frac 1 18) (iadd (frac 1 5) x)) (isub (frac 1 1) x).
Definition islope4 (k : nat) (x : iv) : iv :=
  if before4 k then imul (frac 1 8) (isub (frac 4 5) (imul (frac 2 1) x)) else imul (frac 1 18) (isub (frac 4 5) (imul (frac 2 1) x)).
Lemma icamber4_ok : forall k i, inside i (station 240 k) -> inside (icamber4 k i) (c4 (INR 2 / 100) (INR 4 / 10) (station 240 k)).
Proof.
  intros k i H. replace (INR 2) with 2 by reflexivity. replace (INR 4) with 4 by (cbn; lra). unfold icamber4, c4. pose proof (before4_ok k) as B. set (x := station 240 k) in *.
  destruct (before4 k), (Rle_dec x (4 / 10)); try contradiction.
  - replace (2 / 100 / (4 / 10) ^ 2) with (1 / 8) by field. replace (2 * (4 / 10)) with (4 / 5) by field.
    repeat first [apply imul_ok|apply isub_ok|apply iadd_ok|apply frac_ok|exact H].
  - replace (2 / 100 / (1 - 4 / 10) ^ 2) with (1 / 18) by field. replace (1 - 2 * (4 / 10)) with (1 / 5) by field. replace (1 - x) with (1 / 1 - x) by field.
    repeat first [apply imul_ok|apply isub_ok|apply iadd_ok|apply frac_ok|exact H].
Qed.
Lemma islope4_ok : forall k i, inside i (station 240 k) -> inside (islope4 k i) (d4 (INR 2 / 100) (INR 4 / 10) (station 240 k)).
Proof.
  intros k i H. replace (INR 2) with 2 by reflexivity. replace (INR 4) with 4 by (cbn; lra). unfold islope4, d4. pose proof (before4_ok k) as B. set (x := station 240 k) in *.
  replace (2 * (4 / 10) - 2 * x) with (4 / 5 - 2 / 1 * x) by field.
  destruct (before4 k), (Rle_dec x (4 / 10)); try contradiction.
  - replace (2 / 100 / (4 / 10) ^ 2) with (1 / 8) by field. repeat first [apply imul_ok|apply isub_ok|apply iadd_ok|apply frac_ok|exact H].
  - replace (2 / 100 / (1 - 4 / 10) ^ 2) with (1 / 18) by field. repeat first [apply imul_ok|apply isub_ok|apply iadd_ok|apply frac_ok|exact H].
Qed.
Definition ev_2412_cosine (k : nat) := let x := ist k in laid_iv (ihalf x) (icamber4 k x) (islope4 k x) x.
Definition ev_2412_linear (k : nat) := let x := ist k in flat_iv (ihalf x) (icamber4 k x) x.

(** ** Five digits, 230 and 231 *)
Definition before5 (p q : Z) (k : nat) : bool := (Z.of_nat k * q <=? p * 239)%Z.
Lemma before5_ok : forall p q k, (0 < q)%Z -> if before5 p q k then station 240 k <= IZR p / IZR q else ~ station 240 k <= IZR p / IZR q.
Proof.
  intros p q k Q. unfold before5, station. rewrite (INR_IZR_INZ k), (INR_IZR_INZ (240 - 1)). change (Z.of_nat (240 - 1)) with 239%Z. apply IZR_lt in Q.
  assert (E : IZR p / IZR q * IZR q = IZR p) by (field; lra).
  destruct (Z.leb_spec (Z.of_nat k * q) (p * 239)) as [H|H]; [apply IZR_le in H|apply IZR_lt in H]; rewrite !mult_IZR in H.
  - apply Rmult_le_reg_r with (IZR q); auto. lra.
  - intros F. apply Rmult_le_compat_r with (r := IZR q) in F; lra.
Qed.
Definition icamber5 (k6 m m2 m3 : iv) (b : bool) (x : iv) : iv :=
  if b then imul k6 (imul x (iadd (imul x (isub x (imul (frac 3 1) m))) m2)) else imul k6 (imul m3 (isub (frac 1 1) x)).
Definition islope5 (k6 m m2 m3 : iv) (b : bool) (x : iv) : iv :=
  if b then imul k6 (iadd (imul (imul (frac 3 1) x) (isub x (imul (frac 2 1) m))) m2) else ineg (imul k6 m3).
Definition ev5 (p q kp kq : Z) (flat : bool) (k : nat) : iv * iv * iv * iv :=
  let m := frac p q in let m2 := frac (p * p * (3 * q - p)) (q * q * q) in let m3 := frac (p * p * p) (q * q * q) in let k6 := frac kp (6 * kq) in
  let x := ist k in let b := before5 p q k in
  if flat then flat_iv (ihalf x) (icamber5 k6 m m2 m3 b x) x else laid_iv (ihalf x) (icamber5 k6 m m2 m3 b x) (islope5 k6 m m2 m3 b x) x.
Lemma ev5_ok : forall p q kp kq k t, (0 < q)%Z -> (0 < kq)%Z -> t = 12 / 100 ->
  let m := IZR p / IZR q in let k1 := IZR kp / IZR kq in let x := station 240 k in let h := half_thickness t x in let c := camber_line5 k1 m x in let s := d5 k1 m x in
  (let '(i, j, l, n) := ev5 p q kp kq false k in
   inside i (x - h * sin (atan s)) /\ inside j (c + h * cos (atan s)) /\ inside l (x + h * sin (atan s)) /\ inside n (c - h * cos (atan s))) /\
  (let '(i, j, l, n) := ev5 p q kp kq true k in inside i x /\ inside j (c + h) /\ inside l x /\ inside n (c - h)).
Proof.
  intros p q kp kq k t Q K Et m k1 x h c s. pose proof (ist_ok k) as X. fold x in X. pose proof (ihalf_ok _ _ t Et X) as H. fold h in H.
  pose proof (before5_ok p q k Q) as B. fold m x in B. apply IZR_lt in Q. apply IZR_lt in K.
  assert (M : inside (frac p q) m) by apply frac_ok.
  assert (M2 : inside (frac (p * p * (3 * q - p)) (q * q * q)) (m ^ 2 * (3 - m))).
  { replace (m ^ 2 * (3 - m)) with (IZR (p * p * (3 * q - p)) / IZR (q * q * q)); [apply frac_ok|]. rewrite !mult_IZR, minus_IZR, mult_IZR. unfold m. field. lra. }
  assert (M3 : inside (frac (p * p * p) (q * q * q)) (m ^ 3)).
  { replace (m ^ 3) with (IZR (p * p * p) / IZR (q * q * q)); [apply frac_ok|]. rewrite !mult_IZR. unfold m. field. lra. }
  assert (K6 : inside (frac kp (6 * kq)) (k1 / 6)).
  { replace (k1 / 6) with (IZR kp / IZR (6 * kq)); [apply frac_ok|]. rewrite mult_IZR. unfold k1. field. lra. }
  assert (C : inside (icamber5 (frac kp (6 * kq)) (frac p q) (frac (p * p * (3 * q - p)) (q * q * q)) (frac (p * p * p) (q * q * q)) (before5 p q k) (ist k)) c).
  { unfold icamber5, c, camber_line5. destruct (before5 p q k), (Rle_dec x m); try contradiction.
    - replace (k1 / 6 * (x ^ 3 - 3 * m * x ^ 2 + m ^ 2 * (3 - m) * x)) with (k1 / 6 * (x * (x * (x - 3 / 1 * m) + m ^ 2 * (3 - m)))) by field.
      repeat first [assumption|apply frac_ok|apply imul_ok|apply isub_ok|apply iadd_ok].
    - replace (1 - x) with (1 / 1 - x) by field. repeat first [assumption|apply frac_ok|apply imul_ok|apply isub_ok|apply iadd_ok]. }
  assert (S : inside (islope5 (frac kp (6 * kq)) (frac p q) (frac (p * p * (3 * q - p)) (q * q * q)) (frac (p * p * p) (q * q * q)) (before5 p q k) (ist k)) s).
  { unfold islope5, s, d5. destruct (before5 p q k), (Rle_dec x m); try contradiction.
    - replace (1 / 6 * k1 * (3 * x ^ 2 - 6 * m * x + m ^ 2 * (3 - m))) with (k1 / 6 * (3 / 1 * x * (x - 2 / 1 * m) + m ^ 2 * (3 - m))) by field.
      repeat first [assumption|apply frac_ok|apply imul_ok|apply isub_ok|apply iadd_ok].
    - replace (-1 / 6 * k1 * m ^ 3) with (- (k1 / 6 * m ^ 3)) by field. apply ineg_ok, imul_ok; assumption. }
  split.
  - apply (laid_iv_ok h c s x _ _ _ _ H C S X).
  - apply (flat_iv_ok h c x _ _ _ H C X).
Qed.
