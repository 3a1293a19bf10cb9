(** The Beckert-Wendland basis in many dimensions. *)
From Coq Require Import Reals String List Lra Lia.
From Verif Require Import Base SolveModel SolveProofs RbfModel RbfProofs.
Import ListNotations.
Open Scope R_scope.

(** The unit vectors of R^d. *)
Definition axis (d i : nat) : list R := map (fun j => if Nat.eqb j i then 1 else 0) (seq 0 d).
(** The origin and the ends of the unit vectors. *)
Definition star (d : nat) : list (list R) := repeat 0 d :: map (axis d) (seq 0 d).

Lemma axis_length : forall d i, List.length (axis d i) = d.
Proof. intros. unfold axis. rewrite map_length. apply seq_length. Qed.
Lemma axis_nth : forall d i j, (j < d)%nat -> nth j (axis d i) 0 = if Nat.eqb j i then 1 else 0.
Proof.
  intros d i j H. unfold axis. rewrite nth_indep with (d' := (fun j => if Nat.eqb j i then 1 else 0) 0%nat) by (rewrite map_length, seq_length; lia).
  rewrite (map_nth (fun j => if Nat.eqb j i then 1 else 0)). rewrite seq_nth by lia. reflexivity.
Qed.
Lemma star_length : forall d, List.length (star d) = S d.
Proof. intros. unfold star. cbn [List.length]. rewrite map_length, seq_length. reflexivity. Qed.
Lemma star_points : forall d, Forall (fun x => List.length x = d) (star d).
Proof. intros. unfold star. constructor; [apply repeat_length|]. apply Forall_forall. intros x I. apply in_map_iff in I as (i & <- & _). apply axis_length. Qed.
Lemma star_distinct : forall d, NoDup (star d).
Proof.
  intros d. unfold star. constructor.
  - intros I. apply in_map_iff in I as (i & E & I). apply in_seq in I. assert (H : nth i (axis d i) 0 = nth i (repeat 0 d) 0) by (rewrite E; reflexivity).
    rewrite axis_nth, Nat.eqb_refl, nth_repeat in H by lia. lra.
  - assert (K : forall l, NoDup l -> (forall i, In i l -> (i < d)%nat) -> NoDup (map (axis d) l)).
    { induction l as [|i l IH]; intros N B; [constructor|]. inversion N as [|? ? Ni Nl]; subst. cbn [map]. constructor; [|apply IH; auto; intros j Hj; apply B; right; exact Hj].
      intros I. apply in_map_iff in I as (j & E & J). assert (L : (i < d)%nat) by (apply B; left; reflexivity).
      assert (H : nth i (axis d j) 0 = nth i (axis d i) 0) by (rewrite E; reflexivity). rewrite !axis_nth, Nat.eqb_refl in H by exact L.
      destruct (Nat.eqb_spec i j); [subst; contradiction|lra]. }
    apply K; [apply seq_NoDup|]. intros i I. apply in_seq in I. lia.
Qed.

(** Sums of values that vanish but at one or two indices. *)
Lemma sum_none : forall (f : nat -> R) l, (forall j, In j l -> f j = 0) -> fold_right Rplus 0 (map f l) = 0.
Proof. induction l as [|j l IH]; intros H; cbn; [reflexivity|]. rewrite (H j), IH; [ring|intros; apply H; right; assumption|left; reflexivity]. Qed.
Lemma sum_one : forall (f : nat -> R) l i, NoDup l -> In i l -> (forall j, In j l -> j <> i -> f j = 0) -> fold_right Rplus 0 (map f l) = f i.
Proof.
  induction l as [|k l IH]; intros i N I H; [destruct I|]. inversion N as [|? ? Nk Nl]; subst. cbn [map fold_right]. destruct (Nat.eq_dec k i) as [->|E].
  - rewrite sum_none; [ring|]. intros j J. apply H; [right; exact J|]. intros ->. contradiction.
  - rewrite (H k) by (cbn; auto). destruct I as [->|I]; [contradiction|]. rewrite (IH i); auto; [ring|]. intros j J. apply H. right. exact J.
Qed.
Lemma map2_maps : forall A B C D (g : B -> C -> D) (f : A -> B) (h : A -> C) l, map2 g (map f l) (map h l) = map (fun j => g (f j) (h j)) l.
Proof. induction l as [|x l IH]; cbn; [reflexivity|]. f_equal. exact IH. Qed.
Lemma repeat_map : forall d, repeat 0 d = map (fun _ => 0) (seq 0 d).
Proof. intros d. rewrite <- (seq_length d 0) at 1. generalize (seq 0 d). induction l as [|x l IH]; cbn; [reflexivity|]. f_equal. exact IH. Qed.

Lemma dist_axis : forall d i, (i < d)%nat -> cdist (repeat 0 d) (axis d i) = 1 /\ cdist (axis d i) (repeat 0 d) = 1.
Proof.
  intros d i H. unfold cdist, axis. rewrite repeat_map, !map2_maps.
  assert (I : In i (seq 0 d)) by (apply in_seq; lia). pose proof (seq_NoDup d 0) as N.
  split; rewrite (sum_one _ _ i) by (auto; intros j _ E; apply Nat.eqb_neq in E; rewrite E; ring); rewrite Nat.eqb_refl;
    [replace ((0 - 1) * (0 - 1)) with 1 by ring|replace ((1 - 0) * (1 - 0)) with 1 by ring]; apply sqrt_1.
Qed.
Lemma dist_axes : forall d i j, (i < d)%nat -> (j < d)%nat -> i <> j -> cdist (axis d i) (axis d j) = sqrt 2.
Proof.
  intros d i j Hi Hj Ne. unfold cdist, axis. rewrite map2_maps. f_equal.
  assert (E : forall l, NoDup l -> In i l -> In j l -> fold_right Rplus 0 (map (fun k => ((if Nat.eqb k i then 1 else 0) - (if Nat.eqb k j then 1 else 0)) * ((if Nat.eqb k i then 1 else 0) - (if Nat.eqb k j then 1 else 0))) l) = 2).
  { intros l N I J. transitivity (fold_right Rplus 0 (map (fun k => if Nat.eqb k i then 1 else 0) l) + fold_right Rplus 0 (map (fun k => if Nat.eqb k j then 1 else 0) l)).
    - clear N I J. induction l as [|k l IH]; cbn [map fold_right]; [ring|]. rewrite IH. destruct (Nat.eqb_spec k i), (Nat.eqb_spec k j); try ring. subst. contradiction.
    - rewrite (sum_one _ l i), (sum_one _ l j), !Nat.eqb_refl; auto; try lra; intros k _ E; apply Nat.eqb_neq in E; rewrite E; reflexivity. }
  apply E; [apply seq_NoDup|apply in_seq; lia|apply in_seq; lia].
Qed.
Lemma dist_self : forall x, cdist x x = 0.
Proof. intros. unfold cdist. replace (fold_right Rplus 0 (map2 (fun a b => (a - b) * (a - b)) x x)) with 0; [apply sqrt_0|]. induction x as [|a x IH]; cbn; [reflexivity|]. rewrite <- IH. ring. Qed.

Lemma dot_ones : forall f l, dot (repeat 1 (List.length l)) (map f l) = fold_right Rplus 0 (map f (l : list nat)).
Proof. induction l as [|x l IH]; cbn; [reflexivity|]. rewrite IH. ring. Qed.
Lemma dot_ones_seq : forall f d, dot (repeat 1 d) (map f (seq 0 d)) = fold_right Rplus 0 (map f (seq 0 d)).
Proof. intros f d. pose proof (dot_ones f (seq 0 d)) as H. rewrite seq_length in H. exact H. Qed.
Lemma sum_const : forall (l : list nat) c, fold_right Rplus 0 (map (fun _ => c) l) = INR (List.length l) * c.
Proof. induction l as [|x l IH]; intros c; [cbn; ring|]. cbn [map fold_right List.length]. rewrite IH, S_INR. ring. Qed.

(** A radius between 1 and the distance of two unit vectors for which the unit vectors
    weigh 1/k at the origin. *)
Lemma sqrt2_bounds : 14142 / 10000 <= sqrt 2 <= 14143 / 10000.
Proof. pose proof (sqrt_pos 2). pose proof (sqrt_def 2). split; nra. Qed.
Lemma radius_exists : forall k, (36 <= k)%nat -> exists r, 1 < r <= sqrt 2 /\ (1 - 1 / r) ^ 4 * (4 * (1 / r) + 1) = / INR k.
Proof.
  intros k Hk. assert (K : 36 <= INR k) by (change 36 with (IZR (Z.of_nat 36)); rewrite <- INR_IZR_INZ; apply le_INR; exact Hk). 
  assert (K1 : 0 < / INR k <= / 36) by (split; [apply Rinv_0_lt_compat; lra|apply Rinv_le_contravar; lra]).
  pose proof sqrt2_bounds as S. pose proof (sqrt_def 2 ltac:(lra)) as SS.
  destruct (IVT_cor (fun h => / INR k - (1 - h) ^ 4 * (4 * h + 1)) (sqrt 2 / 2) 1) as (h & (H1 & H2) & E).
  - reg.
  - lra.
  - assert (E : (1 - sqrt 2 / 2) ^ 4 * (4 * (sqrt 2 / 2) + 1) = 11 / 2 * sqrt 2 - 31 / 4).
    { set (s := sqrt 2) in *. replace ((1 - s / 2) ^ 4 * (4 * (s / 2) + 1)) with ((1 - s + s * s / 4) * (1 - s + s * s / 4) * (2 * s + 1)) by field. rewrite SS.
      replace ((1 - s + 2 / 4) * (1 - s + 2 / 4) * (2 * s + 1)) with (2 * s * (s * s) - 5 * (s * s) + 3 / 2 * s + 9 / 4) by field. rewrite SS. field. }
    rewrite E. replace ((1 - 1) ^ 4 * (4 * 1 + 1)) with 0 by ring. assert (A : / INR k - (11 / 2 * sqrt 2 - 31 / 4) <= 0) by lra. nra.
  - cbv beta in E. assert (N : h <> 1). { intros ->. replace ((1 - 1) ^ 4 * (4 * 1 + 1)) with 0 in E by ring. lra. }
    exists (/ h). assert (P : 0 < h) by lra. split; [split|].
    + rewrite <- Rinv_1. apply Rinv_lt_contravar; lra.
    + replace (sqrt 2) with (/ (sqrt 2 / 2)). { apply Rinv_le_contravar; lra. }
      apply Rmult_eq_reg_l with (sqrt 2 / 2); [|lra]. rewrite Rinv_r by lra. lra.
    + replace (1 / / h) with h by (field; lra). lra.
Qed.

Lemma wendland_values : forall r c, 1 < r <= sqrt 2 -> (1 - 1 / r) ^ 4 * (4 * (1 / r) + 1) = c ->
  phi Wendland 0 r = 1 /\ phi Wendland 1 r = c /\ phi Wendland (sqrt 2) r = 0.
Proof.
  intros r c (R1 & R2) E. unfold phi. assert (I : 0 < / r < 1) by (split; [apply Rinv_0_lt_compat; lra|rewrite <- Rinv_1; apply Rinv_lt_contravar; lra]).
  split; [|split].
  - replace (0 / r) with 0 by (field; lra). destruct (Rlt_dec 0 (1 - 0)); [ring|lra].
  - destruct (Rlt_dec 0 (1 - 1 / r)); [exact E|lra].
  - assert (1 <= sqrt 2 / r). { apply Rmult_le_reg_r with r; [lra|]. replace (sqrt 2 / r * r) with (sqrt 2) by (field; lra). lra. }
    destruct (Rlt_dec 0 (1 - sqrt 2 / r)); [lra|ring].
Qed.

Lemma star_singular : forall k, (36 <= k)%nat -> exists r, 1 < r <= sqrt 2 /\
  forall y Q out, List.length y = List.length (star (k * k)) -> reconstruct_f (star (k * k)) y Q out "beckert_wendland_c2_basis" r = Err LinAlgError.
Proof.
  intros k Hk. destruct (radius_exists k Hk) as (r & Hr & E). exists r. split; [exact Hr|]. intros y Q out Ly. set (d := (k * k)%nat) in *.
  destruct (wendland_values r _ Hr E) as (V0 & V1 & V2). assert (K : 0 < INR k) by (apply lt_0_INR; lia). 
  apply (reconstruct_err_solve _ _ _ _ Wendland); [reflexivity|cbn; lra|].
  set (A := map (fun x => map (fun y => phi Wendland (cdist x y) r) (star d)) (star d)).
  assert (SA : square A) by apply square_weights. assert (LA : List.length A = S d) by (unfold A; rewrite map_length; apply star_length).
  assert (LY : List.length y = List.length A) by (rewrite LA, Ly; apply star_length).
  destruct (linalg_solve A y) as [w|e] eqn:Ew; [exfalso|destruct (linalg_solve_err _ _ _ SA LY Ew) as [-> _]; reflexivity].
  pose proof (proj1 (linalg_solve_ok_iff A y SA LY) (ex_intro _ _ Ew)) as Inj.
  assert (Z : - INR k :: repeat 1 d = zeros (List.length A)).
  { apply Inj; [rewrite LA; cbn [List.length]; rewrite repeat_length; reflexivity|]. rewrite LA. unfold A. rewrite matvec_rbf. unfold rbf_sum.
    unfold star at 2. cbn [map].
    assert (H0 : dot (- INR k :: repeat 1 d) (map (fun y0 => phi Wendland (cdist (repeat 0 d) y0) r) (star d)) = 0).
    { unfold star. cbn [map dot]. rewrite dist_self, V0, map_map. rewrite dot_ones_seq.
      rewrite (map_ext_in _ (fun _ => / INR k)); [|intros i I; apply in_seq in I; rewrite (proj1 (dist_axis d i ltac:(lia))); exact V1].
      rewrite sum_const, seq_length. unfold d. rewrite mult_INR. field. lra. }
    rewrite H0. unfold zeros. cbn [repeat]. f_equal. rewrite map_map, repeat_map. apply map_ext_in. intros i I. apply in_seq in I.
    unfold star. cbn [map dot]. rewrite (proj2 (dist_axis d i ltac:(lia))), V1, map_map. rewrite dot_ones_seq.
    rewrite (sum_one _ _ i); [rewrite dist_self, V0; field; lra|apply seq_NoDup|apply in_seq; lia|].
    intros j J Ne. apply in_seq in J. rewrite dist_axes by lia. exact V2. }
  rewrite LA in Z. unfold zeros in Z. cbn [repeat] in Z. injection Z as Z _. lra.
Qed.

Lemma many_dimensions : exists X r, NoDup X /\ Forall (fun x => List.length x = (36 * 36)%nat) X /\ 0 < r /\
  forall y Q out, List.length y = List.length X -> reconstruct_f X y Q out "beckert_wendland_c2_basis" r = Err LinAlgError.
Proof.
  destruct (star_singular 36 (le_n _)) as (r & Hr & H). exists (star (36 * 36)), r. split; [apply star_distinct|]. split; [apply star_points|]. split; [lra|exact H].
Qed.
