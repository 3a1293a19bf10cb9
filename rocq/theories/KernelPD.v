(** Strict positive definiteness of kernels that are power series in the scalar
    product, in any dimension: used for the Gaussian and the two multiquadric
    bases. *)
From Coq Require Import Reals List Lra Lia Arith.
From Verif Require Import Base SolveProofs WendlandPD RbfProofs.
Import ListNotations.
Open Scope R_scope.

(** ** Weighted nodes *)
Notation node := (list R * R)%type (only parsing).
Definition lin (l : list node) (f : list R -> R) : R := sumf (fun p : node => snd p * f (fst p)) l.
Definition form (K : list R -> list R -> R) (l : list node) : R :=
  sumf (fun p : node => sumf (fun q : node => snd p * snd q * K (fst p) (fst q)) l) l.

Lemma sumf_0 : forall {A} (l : list A), sumf (fun _ => 0) l = 0.
Proof. induction l; cbn; auto. fold (sumf (fun _ : A => 0) l). lra. Qed.
Lemma sumf_swap : forall {A B} (f : A -> B -> R) l m, sumf (fun a => sumf (f a) m) l = sumf (fun b => sumf (fun a => f a b) l) m.
Proof.
  intros A B f. induction l as [|a l IH]; intros m.
  - cbn [sumf fold_right]. symmetry. apply (sumf_0 m).
  - change (sumf (f a) m + sumf (fun a => sumf (f a) m) l = sumf (fun b => f a b + sumf (fun a => f a b) l) m).
    rewrite IH, <- sumf_plus. reflexivity.
Qed.
Lemma form_ext : forall K K' l, (forall p q, In p l -> In q l -> K (fst p) (fst q) = K' (fst p) (fst q)) -> form K l = form K' l.
Proof. intros K K' l H. unfold form. apply sumf_ext. intros p P. apply sumf_ext. intros q Q. rewrite H; auto. Qed.
Lemma form_plus : forall K K' l, form (fun x y => K x y + K' x y) l = form K l + form K' l.
Proof.
  intros. unfold form. rewrite <- sumf_plus. apply sumf_ext. intros p _. rewrite <- sumf_plus. apply sumf_ext. intros q _. ring.
Qed.
Lemma form_scal : forall k K l, form (fun x y => k * K x y) l = k * form K l.
Proof.
  intros. unfold form. rewrite <- sumf_scal. apply sumf_ext. intros p _. rewrite <- sumf_scal. apply sumf_ext. intros q _. ring.
Qed.

(** ** Monomials *)
Fixpoint mono (d k : nat) : list (list R -> R) :=
  match k with
  | O => [fun _ => 1]
  | S k => flat_map (fun c => map (fun g x => nth c x 0 * g x) (mono d k)) (seq 0 d)
  end.
Lemma mono_mul : forall d k g c, In g (mono d k) -> (c < d)%nat -> In (fun x => nth c x 0 * g x) (mono d (S k)).
Proof.
  intros d k g c G C. cbn [mono]. apply in_flat_map. exists c. split; [apply in_seq; lia|].
  apply (in_map (fun g x => nth c x 0 * g x)). auto.
Qed.

Lemma sumf_app : forall {A} (f : A -> R) l m, sumf f (l ++ m) = sumf f l + sumf f m.
Proof.
  intros A f. induction l as [|a l IH]; intros m.
  - change (sumf f m = 0 + sumf f m). ring.
  - change (f a + sumf f (l ++ m) = f a + sumf f l + sumf f m). rewrite IH. ring.
Qed.
Lemma sumf_flat_map : forall {A B} (f : B -> R) (g : A -> list B) l, sumf f (flat_map g l) = sumf (fun a => sumf f (g a)) l.
Proof.
  intros A B f g. induction l as [|a l IH]; [reflexivity|]. cbn [flat_map]. rewrite sumf_app, IH. reflexivity.
Qed.
Lemma dot_seq : forall d x y, List.length x = d -> List.length y = d -> dot x y = sumf (fun c => nth c x 0 * nth c y 0) (seq 0 d).
Proof.
  induction d as [|d IH]; intros [|a x] [|b y] X Y; try discriminate; [reflexivity|].
  injection X as X. injection Y as Y. cbn [dot]. rewrite (IH x y X Y). cbn [seq]. rewrite <- seq_shift.
  change (sumf _ (0%nat :: ?l)) with (a * b + sumf (fun c => nth c (a :: x) 0 * nth c (b :: y) 0) (map S (seq 0 d))).
  rewrite sumf_map. reflexivity.
Qed.
Lemma dot_pow : forall d k x y, List.length x = d -> List.length y = d -> dot x y ^ k = sumf (fun g => g x * g y) (mono d k).
Proof.
  intros d k x y X Y. induction k as [|k IH].
  - cbn. ring.
  - cbn [mono]. change (dot x y ^ S k) with (dot x y * dot x y ^ k). rewrite sumf_flat_map, IH, (dot_seq d x y X Y), Rmult_comm, <- sumf_scal. apply sumf_ext. intros c _.
    rewrite sumf_map. rewrite Rmult_comm, <- sumf_scal. apply sumf_ext. intros g _. ring.
Qed.
Lemma form_mono : forall d k l, (forall p, In p l -> List.length (fst p) = d) ->
  form (fun x y => dot x y ^ k) l = sumf (fun g => lin l g * lin l g) (mono d k).
Proof.
  intros d k l D. unfold form.
  transitivity (sumf (fun p => sumf (fun g => sumf (fun q => snd p * g (fst p) * (snd q * g (fst q))) l) (mono d k)) l).
  { apply sumf_ext. intros p P. rewrite <- sumf_swap. apply sumf_ext. intros q Q. rewrite (dot_pow d k) by auto. rewrite <- sumf_scal.
    apply sumf_ext. intros g _. ring. }
  rewrite sumf_swap. apply sumf_ext. intros g _. unfold lin.
  rewrite <- sumf_scal. apply sumf_ext. intros p _. rewrite sumf_scal. ring.
Qed.
Lemma form_pow_nonneg : forall d k l, (forall p, In p l -> List.length (fst p) = d) -> 0 <= form (fun x y => dot x y ^ k) l.
Proof. intros d k l D. rewrite (form_mono d k l D). apply sumf_nonneg. intros g _. nra. Qed.
Lemma sumf_zero_all : forall {A} (f : A -> R) l, (forall a, In a l -> 0 <= f a) -> sumf f l <= 0 -> forall a, In a l -> f a = 0.
Proof.
  intros A f. induction l as [|b l IH]; intros P Z a I; [destruct I|].
  change (f b + sumf f l <= 0) in Z. assert (0 <= sumf f l) by (apply sumf_nonneg; intros; apply P; right; auto).
  pose proof (P b (or_introl eq_refl)). destruct I as [<-|I]; [lra|]. apply IH; auto; [intros; apply P; right; auto|lra].
Qed.
Lemma form_pow_zero : forall d k l g, (forall p, In p l -> List.length (fst p) = d) -> form (fun x y => dot x y ^ k) l <= 0 ->
  In g (mono d k) -> lin l g = 0.
Proof.
  intros d k l g D Z G. rewrite (form_mono d k l D) in Z.
  pose proof (sumf_zero_all (fun g => lin l g * lin l g) _ (fun a _ => Rle_0_sqr (lin l a)) Z g G) as E. cbv beta in E. nra.
Qed.

(** ** Vanishing moments *)
Lemma moments_product : forall d l qs (sel : list R -> nat), (forall q, In q qs -> (sel q < d)%nat) ->
  (forall k g, In g (mono d k) -> lin l g = 0) ->
  forall k g, In g (mono d k) ->
  lin l (fun x => fold_right (fun q acc => (nth (sel q) x 0 - nth (sel q) q 0) * acc) 1 qs * g x) = 0.
Proof.
  intros d l qs sel. induction qs as [|q qs IH]; intros S M k g G.
  - cbn [fold_right]. rewrite <- (M k g G). unfold lin. apply sumf_ext. intros p _. ring.
  - pose proof (IH (fun q I => S q (or_intror I)) M) as IH'. clear IH.
    pose proof (IH' k g G) as E1. pose proof (IH' (Datatypes.S k) _ (mono_mul d k g (sel q) G (S q (or_introl eq_refl)))) as E2.
    cbn [fold_right]. unfold lin in *.
    match type of E2 with ?T2 = 0 => match type of E1 with ?T1 = 0 =>
      transitivity (T2 + - nth (sel q) q 0 * T1); [|rewrite E1, E2; ring] end end.
    rewrite <- sumf_scal, <- sumf_plus.
    apply sumf_ext. intros p _. ring.
Qed.

Lemma differ : forall d (x y : list R), List.length x = d -> List.length y = d -> x <> y -> exists c, (c < d)%nat /\ nth c x 0 <> nth c y 0.
Proof.
  induction d as [|d IH]; intros [|a x] [|b y] X Y N; try discriminate; [exfalso; auto|].
  injection X as X. injection Y as Y. destruct (Req_EM_T a b) as [->|AB].
  - destruct (IH x y X Y) as (c & C & E); [congruence|]. exists (S c). split; [lia|auto].
  - exists 0%nat. split; [lia|auto].
Qed.
Lemma differ_fun : forall d (x : list R) qs, List.length x = d -> (forall q, In q qs -> List.length q = d /\ q <> x) ->
  exists sel : list R -> nat, forall q, In q qs -> (sel q < d)%nat /\ nth (sel q) x 0 <> nth (sel q) q 0.
Proof.
  intros d x qs X. induction qs as [|q qs IH]; intros H.
  - exists (fun _ => 0%nat). intros q [].
  - destruct IH as (sel & S); [intros; apply H; right; auto|]. destruct (H q (or_introl eq_refl)) as [Q N].
    destruct (differ d x q X Q) as (c & C & E); [auto|].
    exists (fun z => if list_eq_dec Req_EM_T z q then c else sel z). intros z [<-|Z].
    + destruct (list_eq_dec Req_EM_T q q); [auto|contradiction].
    + destruct (list_eq_dec Req_EM_T z q) as [->|]; auto.
Qed.
Lemma moments : forall d l, (forall p, In p l -> List.length (fst p) = d) -> NoDup (map fst l) ->
  (forall k g, In g (mono d k) -> lin l g = 0) -> forall p, In p l -> snd p = 0.
Proof.
  intros d l D ND M [x w] P. destruct (in_split _ _ P) as (l1 & l2 & ->).
  rewrite map_app in ND. cbn [map fst] in ND. apply NoDup_remove_2 in ND. rewrite <- map_app in ND.
  set (qs := map fst (l1 ++ l2)) in *.
  assert (X : List.length x = d) by (apply (D (x, w)); auto).
  destruct (differ_fun d x qs X) as (sel & S).
  { intros q Q. unfold qs in Q. apply in_map_iff in Q. destruct Q as (p & <- & I). split.
    - apply D. apply in_app_iff in I. apply in_app_iff. cbn. tauto.
    - intros E. apply ND. unfold qs. rewrite <- E. apply in_map. auto. }
  pose proof (moments_product d _ qs sel (fun q I => proj1 (S q I)) M 0%nat (fun _ => 1) (or_introl eq_refl)) as E.
  set (f := fun x => fold_right (fun q acc => (nth (sel q) x 0 - nth (sel q) q 0) * acc) 1 qs * 1) in E.
  assert (Z : forall q, In q qs -> f q = 0).
  { intros q Q. unfold f. rewrite Rmult_1_r. clear - Q. revert Q. generalize qs. intros l. induction l as [|a l IH]; intros I; [destruct I|].
    cbn [fold_right]. destruct I as [->|I]; [ring|]. rewrite IH by auto. ring. }
  assert (NZ : f x <> 0).
  { unfold f. rewrite Rmult_1_r. clear - S. induction qs as [|q qs IH]; cbn [fold_right]; [lra|].
    apply Rmult_integral_contrapositive_currified; [|apply IH; intros; apply S; right; auto]. destruct (S q (or_introl eq_refl)). lra. }
  unfold lin in E. rewrite sumf_app in E. change (sumf ?h ((x, w) :: l2)) with (w * f x + sumf h l2) in E.
  assert (V : forall m, (forall p, In p m -> In (fst p) qs) -> sumf (fun p : node => snd p * f (fst p)) m = 0).
  { intros m H. rewrite <- (sumf_0 m). apply sumf_ext. intros p I. rewrite Z by auto. ring. }
  rewrite !V in E; [| intros p I; unfold qs; apply in_map, in_app_iff; auto.. ].
  cbn [snd]. assert (E' : w * f x = 0) by lra. apply Rmult_integral in E'. tauto.
Qed.

(** ** Power series with positive coefficients *)
Lemma sumf_cv : forall {A} (f : nat -> A -> R) (g : A -> R) l, (forall a, In a l -> Un_cv (fun n => f n a) (g a)) ->
  Un_cv (fun n => sumf (f n) l) (sumf g l).
Proof.
  intros A f g. induction l as [|a l IH]; intros H.
  - cbn. intros e E. exists 0%nat. intros n _. unfold R_dist. rewrite Rminus_diag_eq, Rabs_R0; auto.
  - change (Un_cv (fun n => f n a + sumf (f n) l) (g a + sumf g l)). apply (CV_plus (fun n => f n a) (fun n => sumf (f n) l)).
    + apply H. left. auto.
    + apply IH. intros. apply H. right. auto.
Qed.
Lemma scal_cv : forall k u x, Un_cv u x -> Un_cv (fun n => k * u n) (k * x).
Proof.
  intros k u x H. apply (CV_mult (fun _ => k) u k x); auto.
  intros e E. exists 0%nat. intros n _. unfold R_dist. rewrite Rminus_diag_eq, Rabs_R0; auto.
Qed.
Lemma form_sum : forall (a : nat -> R) l n, form (fun x y => sum_f_R0 (fun k => a k * dot x y ^ k) n) l =
  sum_f_R0 (fun k => a k * form (fun x y => dot x y ^ k) l) n.
Proof.
  intros a l. induction n as [|n IH].
  - cbn [sum_f_R0]. apply form_scal.
  - cbn [sum_f_R0]. rewrite form_plus, IH, form_scal. reflexivity.
Qed.
Lemma form_series : forall d (a : nat -> R) (K : list R -> list R -> R) l,
  (forall k, 0 < a k) -> (forall p, In p l -> List.length (fst p) = d) ->
  (forall p q, In p l -> In q l -> infinite_sum (fun k => a k * dot (fst p) (fst q) ^ k) (K (fst p) (fst q))) ->
  form K l <= 0 -> forall k, form (fun x y => dot x y ^ k) l = 0.
Proof.
  intros d a K l A D CV Z.
  set (u := fun n => sum_f_R0 (fun k => a k * form (fun x y => dot x y ^ k) l) n).
  assert (U : Un_cv u (form K l)).
  { assert (U' : Un_cv (fun n => form (fun x y => sum_f_R0 (fun k => a k * dot x y ^ k) n) l) (form K l)).
    { unfold form. apply (sumf_cv (fun n p => sumf (fun q : node => snd p * snd q * sum_f_R0 (fun k => a k * dot (fst p) (fst q) ^ k) n) l)).
      intros p P. apply (sumf_cv (fun n q => snd p * snd q * sum_f_R0 (fun k => a k * dot (fst p) (fst q) ^ k) n)).
      intros q Q. apply scal_cv. exact (CV p q P Q). }
    intros e E. destruct (U' e E) as (N & HN). exists N. intros n G. unfold u. rewrite <- form_sum. apply HN. auto. }
  assert (NN : forall k, 0 <= a k * form (fun x y => dot x y ^ k) l).
  { intros k. apply Rmult_le_pos; [specialize (A k); lra|]. apply (form_pow_nonneg d). auto. }
  assert (G : Un_growing u) by (intros n; unfold u; cbn [sum_f_R0]; specialize (NN (S n)); lra).
  pose proof (growing_ineq u (form K l) G U) as B.
  assert (P : forall n, 0 <= u n) by (induction n; unfold u in *; cbn [sum_f_R0]; [apply NN|specialize (NN (S n)); lra]).
  intros k. assert (E : a k * form (fun x y => dot x y ^ k) l <= 0).
  { specialize (B k). destruct k as [|k]; unfold u in *; cbn [sum_f_R0] in B; [lra|]. specialize (P k). lra. }
  specialize (A k). specialize (NN k). assert (E2 : a k * form (fun x y => dot x y ^ k) l = 0) by lra.
  apply Rmult_integral in E2. destruct E2; [lra|auto].
Qed.
Lemma series_pd : forall d (a : nat -> R) (K : list R -> list R -> R) l,
  (forall k, 0 < a k) -> (forall p, In p l -> List.length (fst p) = d) ->
  (forall p q, In p l -> In q l -> infinite_sum (fun k => a k * dot (fst p) (fst q) ^ k) (K (fst p) (fst q))) ->
  NoDup (map fst l) -> form K l <= 0 -> forall p, In p l -> snd p = 0.
Proof.
  intros d a K l A D CV ND Z. apply (moments d l D ND). intros k g G.
  eapply form_pow_zero; eauto. rewrite (form_series d a K l A D CV Z k). lra.
Qed.
