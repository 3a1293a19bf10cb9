(** Positive definiteness of the one-dimensional Wendland C2 kernel.
    Pure analysis, no model definition. *)
From Coq Require Import Reals List Lra Lia Psatz.
From Coquelicot Require Import Coquelicot.
Import ListNotations.
Open Scope R_scope.

Ltac toR := match goal with |- @eq _ ?a ?b => change (@eq R a b) end.

Lemma is_RInt_0 : forall a b, is_RInt (fun _ => 0) a b 0.
Proof.
  intros a b. apply (eq_ind (scal (b - a) 0) (fun v => is_RInt (fun _ => 0) a b v)).
  apply (is_RInt_const a b 0). unfold scal; simpl; unfold mult; simpl; toR; ring.
Qed.

Definition wend (u : R) : R := if Rlt_dec 0 (1 - u) then (1 - u) ^ 4 * (4 * u + 1) else 0.

(** Hat kernel at scale s. *)
Definition hat (s u : R) : R :=
  if Rle_dec s u then 0 else 4 * ((s - u) ^ 3 * (u ^ 2 + 3 * s * u + s ^ 2)) / s ^ 2.

Lemma is_RInt_hat : forall u, 0 <= u -> is_RInt (fun s => hat s u) 0 1 (wend u).
Proof.
  intros u Hu. unfold wend. destruct (Rlt_dec 0 (1 - u)) as [H1|H1].
  - (* u < 1 *)
    replace ((1 - u) ^ 4 * (4 * u + 1)) with (plus 0 ((1 - u) ^ 4 * (4 * u + 1)))
      by (unfold plus; simpl; ring).
    apply (is_RInt_Chasles (fun s => hat s u) 0 u 1).
    + apply (is_RInt_ext (fun _ => 0)).
      * rewrite Rmin_left, Rmax_right by lra. intros s Hs. unfold hat.
        destruct (Rle_dec s u); auto. lra.
      * apply is_RInt_0.
    + destruct (Req_dec u 0) as [->|Hu0].
      * apply (is_RInt_ext (fun s => 4 * s ^ 3)).
        { rewrite Rmin_left, Rmax_right by lra. intros s Hs. unfold hat.
          destruct (Rle_dec s 0); [lra|]. toR. field. lra. }
        replace ((1 - 0) ^ 4 * (4 * 0 + 1)) with (minus (1 ^ 4) (0 ^ 4))
          by (unfold minus, plus, opp; simpl; ring).
        apply (is_RInt_derive (fun s => s ^ 4)).
        { intros x Hx. auto_derive; auto. ring. }
        { intros x Hx. apply (ex_derive_continuous (fun s => 4 * s ^ 3)). auto_derive; auto. }
      * set (F := fun s => 4 * (s ^ 4 / 4 - 5 / 2 * s ^ 2 * u ^ 2 + 5 * s * u ^ 3 + u ^ 5 / s)).
        apply (is_RInt_ext (fun s => 4 * (s ^ 3 - 5 * s * u ^ 2 + 5 * u ^ 3 - u ^ 5 / s ^ 2))).
        { rewrite Rmin_left, Rmax_right by lra. intros s Hs. unfold hat.
          destruct (Rle_dec s u); [lra|]. toR. field. lra. }
        replace ((1 - u) ^ 4 * (4 * u + 1)) with (minus (F 1) (F u))
          by (unfold minus, plus, opp, F; simpl; field; lra).
        apply (is_RInt_derive F).
        { rewrite Rmin_left, Rmax_right by lra. intros x Hx. unfold F. auto_derive; [lra|]. toR. field. lra. }
        { rewrite Rmin_left, Rmax_right by lra. intros x Hx.
          apply (ex_derive_continuous (fun s => 4 * (s ^ 3 - 5 * s * u ^ 2 + 5 * u ^ 3 - u ^ 5 / s ^ 2))).
          auto_derive. nra. }
  - apply (is_RInt_ext (fun _ => 0)).
    + rewrite Rmin_left, Rmax_right by lra. intros s Hs. unfold hat.
      destruct (Rle_dec s u); auto. lra.
    + apply is_RInt_0.
Qed.

(** Compactly supported bump whose autocorrelation is the hat kernel. *)
Definition bump (s t : R) : R := Rmax 0 (s ^ 2 / 4 - t ^ 2).

Lemma bump_zero : forall s t, 0 < s -> s / 2 <= Rabs t -> bump s t = 0.
Proof.
  intros s t Hs Ht. unfold bump. apply Rmax_left.
  assert (t ^ 2 = Rabs t ^ 2) by (rewrite (RPow_abs t 2); rewrite Rabs_pos_eq; auto; nra).
  rewrite H. nra.
Qed.

Lemma bump_inside : forall s t, Rabs t <= s / 2 -> bump s t = s ^ 2 / 4 - t ^ 2.
Proof.
  intros s t Ht. unfold bump. apply Rmax_right.
  assert (t ^ 2 = Rabs t ^ 2) by (rewrite (RPow_abs t 2); rewrite Rabs_pos_eq; auto; nra).
  rewrite H. pose proof (Rabs_pos t). nra.
Qed.

Lemma is_RInt_zero_on : forall (f : R -> R) a b, a <= b ->
  (forall t, a < t < b -> f t = 0) -> is_RInt f a b 0.
Proof.
  intros f a b Hab H. apply (is_RInt_ext (fun _ => 0)).
  - rewrite Rmin_left, Rmax_right by lra. intros t Ht. symmetry; auto.
  - apply is_RInt_0.
Qed.

Lemma autocorr_le : forall s x y M, 0 < s -> x <= y ->
  Rabs x + s <= M -> Rabs y + s <= M ->
  is_RInt (fun t => bump s (t - x) * bump s (t - y)) (- M) M (s ^ 2 / 120 * hat s (y - x)).
Proof.
  intros s x y M Hs Hxy HMx HMy.
  assert (Hx : - M <= x - s /\ x + s <= M) by (unfold Rabs in HMx; destruct (Rcase_abs x); lra).
  assert (Hy : - M <= y - s /\ y + s <= M) by (unfold Rabs in HMy; destruct (Rcase_abs y); lra).
  unfold hat. destruct (Rle_dec s (y - x)) as [Hd|Hd].
  - rewrite Rmult_0_r. apply is_RInt_zero_on; [lra|]. intros t Ht.
    destruct (Rle_dec (s / 2) (t - x)).
    + rewrite (bump_zero s (t - x)); auto. ring. rewrite Rabs_pos_eq; lra.
    + rewrite (bump_zero s (t - y)); auto. ring. rewrite Rabs_left; lra.
  - set (V := s ^ 2 / 120 * _).
    replace V with (plus 0 (plus V 0)) by (unfold plus; simpl; ring).
    set (g := fun t => bump s (t - x) * bump s (t - y)).
    apply (is_RInt_Chasles g (- M) (y - s / 2) M).
    { apply is_RInt_zero_on; [lra|]. intros t Ht.
      unfold g. rewrite (bump_zero s (t - y)); auto. ring. rewrite Rabs_left; lra. }
    apply (is_RInt_Chasles g (y - s / 2) (x + s / 2) M).
    2:{ apply is_RInt_zero_on; [lra|]. intros t Ht.
        unfold g. rewrite (bump_zero s (t - x)); auto. ring. rewrite Rabs_pos_eq; lra. }
    set (F := fun t => let v := t - x in let d := y - x in
       s ^ 4 / 16 * v - s ^ 2 / 4 * (v - d) ^ 3 / 3 - s ^ 2 / 4 * v ^ 3 / 3
       + v ^ 5 / 5 - d * v ^ 4 / 2 + d ^ 2 * v ^ 3 / 3).
    apply (is_RInt_ext (fun t => (s ^ 2 / 4 - (t - x) ^ 2) * (s ^ 2 / 4 - (t - y) ^ 2))).
    { rewrite Rmin_left, Rmax_right by lra. intros t Ht. unfold g.
      rewrite !bump_inside; auto; apply Rabs_le; lra. }
    replace V with (minus (F (x + s / 2)) (F (y - s / 2)))
      by (unfold minus, plus, opp, F, V; simpl; field; lra).
    apply (is_RInt_derive F).
    { intros t Ht. unfold F. auto_derive; auto. field. }
    { intros t Ht.
      apply (ex_derive_continuous (fun t => (s ^ 2 / 4 - (t - x) ^ 2) * (s ^ 2 / 4 - (t - y) ^ 2))).
      auto_derive; auto. }
Qed.

Lemma autocorr : forall s x y M, 0 < s -> Rabs x + s <= M -> Rabs y + s <= M ->
  is_RInt (fun t => bump s (t - x) * bump s (t - y)) (- M) M (s ^ 2 / 120 * hat s (Rabs (x - y))).
Proof.
  intros s x y M Hs Hx Hy. destruct (Rle_dec x y).
  - rewrite Rabs_minus_sym, Rabs_pos_eq by lra. apply autocorr_le; auto.
  - rewrite Rabs_pos_eq by lra.
    apply (is_RInt_ext (fun t => bump s (t - y) * bump s (t - x))).
    { intros; toR; ring. }
    apply autocorr_le; auto; lra.
Qed.

(** Finite sums and quadratic forms over lists of (node, coefficient). *)
Definition sumf {A} (f : A -> R) (l : list A) : R := fold_right (fun a acc => f a + acc) 0 l.

Definition qform (K : R -> R -> R) (l : list (R * R)) : R :=
  sumf (fun p => sumf (fun q => snd p * snd q * K (fst p) (fst q)) l) l.

Lemma sumf_ext : forall {A} (f g : A -> R) l, (forall a, In a l -> f a = g a) -> sumf f l = sumf g l.
Proof. induction l; simpl; intros; auto. rewrite H by auto. rewrite IHl; auto. Qed.

Lemma sumf_scal : forall {A} k (f : A -> R) l, sumf (fun a => k * f a) l = k * sumf f l.
Proof. induction l; simpl; [ring|]. rewrite IHl. ring. Qed.

Lemma sumf_plus : forall {A} (f g : A -> R) l, sumf (fun a => f a + g a) l = sumf f l + sumf g l.
Proof. induction l; simpl; [ring|]. rewrite IHl. ring. Qed.

Lemma sumf_nonneg : forall {A} (f : A -> R) l, (forall a, In a l -> 0 <= f a) -> 0 <= sumf f l.
Proof. induction l; simpl; intros; [lra|]. pose proof (H a). assert (0 <= sumf f l) by auto. assert (0 <= f a) by auto. lra. Qed.

Lemma sumf_square : forall {A} (f : A -> R) l,
  sumf (fun p => sumf (fun q => f p * f q) l) l = (sumf f l) ^ 2.
Proof.
  intros A f l.
  rewrite (sumf_ext _ (fun p => sumf f l * f p)).
  - rewrite sumf_scal. ring.
  - intros a _. rewrite sumf_scal. ring.
Qed.

Lemma is_RInt_sumf : forall {A} (f : A -> R -> R) (v : A -> R) a b l,
  (forall x, In x l -> is_RInt (f x) a b (v x)) ->
  is_RInt (fun t => sumf (fun x => f x t) l) a b (sumf v l).
Proof.
  induction l; simpl; intros H.
  - apply is_RInt_0.
  - apply (is_RInt_plus (fun t => f a0 t) (fun t => sumf (fun x => f x t) l)); auto.
Qed.

Lemma is_RInt_qform : forall (K : R -> R -> R -> R) (V : R -> R -> R) a b l,
  (forall x y, In x (map fst l) -> In y (map fst l) -> is_RInt (fun t => K t x y) a b (V x y)) ->
  is_RInt (fun t => qform (K t) l) a b (qform V l).
Proof.
  intros K V a b l H. unfold qform.
  apply (is_RInt_sumf (fun p t => sumf (fun q => snd p * snd q * K t (fst p) (fst q)) l)).
  intros p Hp. apply (is_RInt_sumf (fun q t => snd p * snd q * K t (fst p) (fst q))).
  intros q Hq. apply (is_RInt_scal (fun t => K t (fst p) (fst q))).
  apply H; apply in_map; auto.
Qed.

Lemma bound_nodes : forall (l : list (R * R)) s, exists M, forall x, In x (map fst l) -> Rabs x + s <= M.
Proof.
  induction l as [|p l IH]; intros s.
  - exists 0. simpl; tauto.
  - destruct (IH s) as [M HM]. exists (Rmax M (Rabs (fst p) + s)). simpl. intros x [<-|Hx].
    apply Rmax_r. apply Rle_trans with M; auto. apply Rmax_l.
Qed.

Lemma hat_psd : forall s l, 0 < s -> 0 <= qform (fun x y => hat s (Rabs (x - y))) l.
Proof.
  intros s l Hs.
  destruct (bound_nodes l s) as [M0 HM0].
  set (M := Rmax M0 0).
  assert (HM : forall x, In x (map fst l) -> Rabs x + s <= M).
  { intros x Hx. apply Rle_trans with M0; auto. apply Rmax_l. }
  assert (0 <= M) by apply Rmax_r.
  assert (I : is_RInt (fun t => qform (fun x y => bump s (t - x) * bump s (t - y)) l) (- M) M
                (qform (fun x y => s ^ 2 / 120 * hat s (Rabs (x - y))) l)).
  { apply (is_RInt_qform (fun t x y => bump s (t - x) * bump s (t - y))). intros. apply autocorr; auto. }
  assert (E : qform (fun x y => s ^ 2 / 120 * hat s (Rabs (x - y))) l
              = s ^ 2 / 120 * qform (fun x y => hat s (Rabs (x - y))) l).
  { unfold qform. rewrite <- sumf_scal. apply sumf_ext. intros p _.
    rewrite <- sumf_scal. apply sumf_ext. intros q _. ring. }
  rewrite E in I.
  assert (P : 0 <= s ^ 2 / 120 * qform (fun x y => hat s (Rabs (x - y))) l).
  { apply (is_RInt_ge_0 (fun t => qform (fun x y => bump s (t - x) * bump s (t - y)) l) (- M) M); auto.
    - lra.
    - intros t _. unfold qform.
      rewrite (sumf_ext _ (fun p => sumf (fun q => (snd p * bump s (t - fst p)) * (snd q * bump s (t - fst q))) l)).
      + rewrite (sumf_square (fun p => snd p * bump s (t - fst p))). apply pow2_ge_0.
      + intros p _. apply sumf_ext. intros q _. ring. }
  assert (0 < s ^ 2 / 120) by nra.
  apply Rmult_le_reg_l with (s ^ 2 / 120); auto. lra.
Qed.

(** A kernel vanishing off the diagonal. *)
Lemma qform_diag_aux : forall (K : R -> R -> R) k (l : list (R * R)) x, (forall q, In q l -> fst q <> x) ->
  (forall y, In y (map fst l) -> x <> y -> K x y = 0 /\ K y x = 0) ->
  forall c : R, sumf (fun q => c * snd q * K x (fst q)) l = 0 /\
           sumf (fun q => snd q * c * K (fst q) x) l = k * 0.
Proof.
  intros K k l x H1 H2 c.
  assert (forall q, In q l -> K x (fst q) = 0 /\ K (fst q) x = 0).
  { intros q Hq. apply H2. apply in_map; auto. intro E; apply (H1 q Hq); auto. }
  split.
  - rewrite (sumf_ext _ (fun q => 0 * snd q)). rewrite sumf_scal; ring.
    intros q Hq. destruct (H q Hq) as [-> _]. ring.
  - rewrite (sumf_ext _ (fun q => 0 * snd q)). rewrite sumf_scal; ring.
    intros q Hq. destruct (H q Hq) as [_ ->]. ring.
Qed.

Lemma qform_cons : forall (K : R -> R -> R) (p : R * R) l,
  qform K (p :: l) = snd p * snd p * K (fst p) (fst p)
    + sumf (fun q => snd p * snd q * K (fst p) (fst q)) l
    + sumf (fun q => snd q * snd p * K (fst q) (fst p)) l + qform K l.
Proof.
  intros K p l. unfold qform at 1. simpl. unfold qform.
  rewrite sumf_plus. ring.
Qed.

Lemma qform_diag : forall (K : R -> R -> R) k (l : list (R * R)), NoDup (map fst l) ->
  (forall x, In x (map fst l) -> K x x = k) ->
  (forall x y, In x (map fst l) -> In y (map fst l) -> x <> y -> K x y = 0) ->
  qform K l = k * sumf (fun p => snd p ^ 2) l.
Proof.
  induction l as [|p l IH]; intros ND D O.
  - unfold qform; simpl. ring.
  - simpl in ND. inversion ND; subst. rewrite qform_cons.
    destruct (qform_diag_aux K k l (fst p)) with (c := snd p) as [E1 E2].
    { intros q Hq E. apply H1. rewrite <- E. apply in_map; auto. }
    { intros y Hy N. split; apply O; simpl; auto. }
    rewrite E1, E2, IH; auto.
    + rewrite D by (simpl; auto). simpl. ring.
    + intros; apply D; simpl; auto.
    + intros; apply O; simpl; auto.
Qed.

Theorem wendland_pd : forall l d, NoDup (map fst l) -> 0 < d <= 1 ->
  (forall x y, In x (map fst l) -> In y (map fst l) -> x <> y -> d <= Rabs (x - y)) ->
  d ^ 4 * sumf (fun p => snd p ^ 2) l <= qform (fun x y => wend (Rabs (x - y))) l.
Proof.
  intros l d ND Hd Gap.
  set (f := fun s => qform (fun x y => hat s (Rabs (x - y))) l).
  assert (I : is_RInt f 0 1 (qform (fun x y => wend (Rabs (x - y))) l)).
  { apply (is_RInt_qform (fun s x y => hat s (Rabs (x - y)))).
    intros. apply is_RInt_hat. apply Rabs_pos. }
  assert (E01 : ex_RInt f 0 1) by (eexists; exact I).
  assert (E1 : ex_RInt f d 1) by (apply (ex_RInt_Chasles_2 f 0 d 1); auto; lra).
  assert (I0 : is_RInt f 0 d (d ^ 4 * sumf (fun p => snd p ^ 2) l)).
  { apply (is_RInt_ext (fun s => 4 * s ^ 3 * sumf (fun p => snd p ^ 2) l)).
    - rewrite Rmin_left, Rmax_right by lra. intros s Hs. unfold f. symmetry.
      apply qform_diag; auto.
      + intros x _. unfold hat. rewrite Rminus_diag_eq, Rabs_R0 by auto.
        destruct (Rle_dec s 0); [lra|]. toR. field. lra.
      + intros x y Hx Hy N. unfold hat. specialize (Gap x y Hx Hy N).
        destruct (Rle_dec s (Rabs (x - y))); auto. lra.
    - set (S := sumf (fun p => snd p ^ 2) l).
      replace (d ^ 4 * S) with (minus (d ^ 4 * S) (0 ^ 4 * S)) by (unfold minus, plus, opp; simpl; ring).
      apply (is_RInt_derive (fun s => s ^ 4 * S)).
      { intros x Hx. auto_derive; auto. ring. }
      { intros x Hx. apply (ex_derive_continuous (fun s => 4 * s ^ 3 * S)). auto_derive; auto. } }
  destruct E1 as [v Hv].
  assert (Pv : 0 <= v).
  { apply (is_RInt_ge_0 f d 1); auto. lra. intros s Hs. apply hat_psd. lra. }
  pose proof (is_RInt_Chasles f 0 d 1 _ _ I0 Hv) as IS.
  pose proof (is_RInt_unique f 0 1 _ I) as U1. pose proof (is_RInt_unique f 0 1 _ IS) as U2.
  change (RInt f 0 1 = d ^ 4 * sumf (fun p => snd p ^ 2) l + v) in U2.
  rewrite <- U1, U2. lra.
Qed.
