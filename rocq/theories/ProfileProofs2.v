(** Proofs about interpolation, chord and camber lines, thickness. *)
From Coq Require Import Reals List ZArith Lia Lra Bool String.
From Verif Require Import Base ProfileModel ProfileSpec RbfModel RbfProofs RbfProofs2 SolveProofs ProfileProofs.
Import ListNotations.
Open Scope R_scope.

#[global] Arguments interpolate_coordinates : simpl never.
#[global] Arguments compute_chord_line : simpl never.
#[global] Arguments compute_camber_line : simpl never.
#[global] Arguments resolve_n : simpl never.
#[global] Arguments reconstruct_1d : simpl never.
#[global] Arguments update_edges : simpl never.
#[global] Arguments vzip : simpl never.
#[global] Arguments linspace : simpl never.

Notation W := "beckert_wendland_c2_basis"%string (only parsing).

Lemma list_eqb_eq : forall a b, list_eqb a b = true <-> a = b.
Proof.
  induction a as [|x a IH]; destruct b as [|y b]; simpl; split; intros H; try discriminate; auto.
  - destruct (Req_EM_T x y); [|discriminate]. apply IH in H. subst; auto.
  - injection H as -> ->. destruct (Req_EM_T y y); [apply IH; auto|congruence].
Qed.
Lemma arrays_equal_refl : forall a, arrays_equal a a = Ok true.
Proof. intros. unfold arrays_equal. rewrite Nat.eqb_refl. f_equal. apply list_eqb_eq; auto. Qed.

Lemma resolve_n_eq : forall n p, xup p = xdown p -> resolve_n n p = Ok n.
Proof. intros n p E. unfold resolve_n. rewrite E, arrays_equal_refl. simpl. auto. Qed.

Lemma resolve_n_cases : forall n p n', resolve_n n p = Ok n' ->
  List.length (xup p) = List.length (xdown p) /\
  (n' = n \/ n = None /\ xup p <> xdown p /\ n' = Some 500%Z) /\
  (n' = None -> xup p = xdown p).
Proof.
  intros n p n' H. unfold resolve_n, arrays_equal in H.
  destruct (Nat.eqb_spec (List.length (xup p)) (List.length (xdown p))) as [L|]; [|discriminate]. simpl in H.
  split; auto.
  destruct (list_eqb (xup p) (xdown p)) eqn:E.
  - apply list_eqb_eq in E. injection H as <-. split; auto.
  - assert (xup p <> xdown p) by (intros C; apply list_eqb_eq in C; congruence).
    destruct n; injection H as <-; split; auto; discriminate.
Qed.

(** ** linspace *)
Lemma linspace_length : forall a b n, List.length (linspace a b n) = n.
Proof. intros. unfold linspace. rewrite map_length, seq_length. auto. Qed.
Lemma linspace_nth : forall a b n i, (i < n)%nat ->
  nth_error (linspace a b n) i = Some (a + INR i * ((b - a) / INR (n - 1))).
Proof.
  intros a b n i H. unfold linspace.
  erewrite map_nth_error; [reflexivity|]. rewrite nth_error_nth' with (d := 0%nat) by (rewrite seq_length; auto).
  rewrite seq_nth by auto. auto.
Qed.
Lemma linspace_first : forall a b n, (0 < n)%nat -> nth_error (linspace a b n) 0 = Some a.
Proof. intros. rewrite linspace_nth by auto. simpl. f_equal. ring. Qed.
Lemma linspace_last : forall a b n, (2 <= n)%nat -> nth_error (linspace a b n) (n - 1) = Some b.
Proof.
  intros a b n H. rewrite linspace_nth by lia. f_equal.
  assert (INR (n - 1) <> 0) by (apply not_0_INR; lia). field; auto.
Qed.
Lemma linspace_same : forall a n, linspace a a n = repeat a n.
Proof.
  intros a n. unfold linspace.
  assert (G : forall m s, map (fun i => a + INR i * ((a - a) / INR (n - 1))) (seq s m) = repeat a m).
  { induction m; intros s; simpl; auto. rewrite IHm. f_equal. unfold Rdiv. ring. }
  apply G.
Qed.

(** ** vmax *)
Lemma fold_max_ge : forall l x, x <= fold_left Rmax l x.
Proof. induction l as [|a l IH]; intros x; simpl; [lra|]. eapply Rle_trans; [apply Rmax_l|apply IH]. Qed.
Lemma vmax_spec : forall l m, vmax l = Ok m <-> (In m l /\ forall x, In x l -> x <= m).
Proof.
  assert (K : forall l x, (In (fold_left Rmax l x) (x :: l)) /\ forall y, In y (x :: l) -> y <= fold_left Rmax l x).
  { induction l as [|a l IH]; intros x; simpl.
    - split; auto. intros y [<-|[]]; lra.
    - destruct (IH (Rmax x a)) as [A B]. split.
      + destruct A as [A|A]; [|auto]. rewrite <- A. unfold Rmax. destruct (Rle_dec x a); auto.
      + intros y [<-|[<-|H]].
        * eapply Rle_trans; [|apply B; left; auto]. apply Rmax_l.
        * eapply Rle_trans; [|apply B; left; auto]. apply Rmax_r.
        * apply B; right; auto. }
  intros [|x l] m; simpl.
  - split; [discriminate|intros [[] _]].
  - destruct (K l x) as [A B]. split.
    + intros H. injection H as <-. split; auto.
    + intros [I M]. f_equal. apply Rle_antisym; [apply M; auto|apply B; auto].
Qed.
Lemma vmax_ok : forall l, l <> [] -> exists m, vmax l = Ok m.
Proof. destruct l; [congruence|simpl; eauto]. Qed.

Lemma vmax_map_scale : forall k l m, 0 <= k -> vmax l = Ok m -> vmax (map (fun x => k * x) l) = Ok (k * m).
Proof.
  intros k l m Hk H. apply vmax_spec in H. destruct H as [I M]. apply vmax_spec. split.
  - apply (in_map (fun x => k * x)). auto.
  - intros x Hx. apply in_map_iff in Hx. destruct Hx as (y & <- & Hy). apply Rmult_le_compat_l; auto.
Qed.

Lemma vzip_ok : forall {A B C} (f : A -> B -> C) a b, List.length a = List.length b -> vzip f a b = Ok (map2 f a b).
Proof. intros. unfold vzip. rewrite H, Nat.eqb_refl. auto. Qed.
Lemma vzip_inv : forall {A B C} (f : A -> B -> C) a b c, vzip f a b = Ok c -> List.length a = List.length b /\ c = map2 f a b.
Proof.
  intros A B C f a b c H. unfold vzip in H. destruct (Nat.eqb_spec (List.length a) (List.length b)); [|discriminate].
  split; congruence.
Qed.
Lemma map2_nth : forall {A B C} (f : A -> B -> C) a b i x y,
  nth_error a i = Some x -> nth_error b i = Some y -> nth_error (map2 f a b) i = Some (f x y).
Proof.
  induction a as [|x0 a IH]; intros b i x y Ha Hb; destruct i, b; simpl in *; try discriminate; auto; congruence.
Qed.
Lemma map2_nth_inv : forall {A B C} (f : A -> B -> C) a b i z,
  nth_error (map2 f a b) i = Some z -> exists x y, nth_error a i = Some x /\ nth_error b i = Some y /\ z = f x y.
Proof.
  induction a as [|x0 a IH]; intros b i z H; destruct i, b; simpl in *; try discriminate; auto.
  - injection H as <-. eauto.
Qed.
Lemma map2_map_l : forall {A A' B C} (f : A' -> B -> C) (g : A -> A') a b, map2 f (map g a) b = map2 (fun x y => f (g x) y) a b.
Proof. induction a; destruct b; simpl; auto. f_equal. auto. Qed.
Lemma map2_map_r : forall {A B B' C} (f : A -> B' -> C) (g : B -> B') a b, map2 f a (map g b) = map2 (fun x y => f x (g y)) a b.
Proof. induction a; destruct b; simpl; auto. f_equal. auto. Qed.
Lemma map_map2 : forall {A B C D} (g : C -> D) (f : A -> B -> C) a b, map g (map2 f a b) = map2 (fun x y => g (f x y)) a b.
Proof. induction a; destruct b; simpl; auto. f_equal. auto. Qed.
Lemma map2_ext : forall {A B C} (f g : A -> B -> C) a b, (forall x y, f x y = g x y) -> map2 f a b = map2 g a b.
Proof. induction a; destruct b; simpl; intros H; auto. f_equal; auto. Qed.
Lemma map2_comm : forall {A B} (f g : A -> A -> B) a b, (forall x y, f x y = g y x) -> map2 f a b = map2 g b a.
Proof. induction a; destruct b; simpl; intros H; auto. f_equal; auto. Qed.

(** ** interpolate_coordinates *)
Lemma interpolate_type : forall x r p, interpolate_coordinates (PyFloat x) r p = Err TypeError.
Proof. reflexivity. Qed.
Lemma interpolate_value : forall z r p, (z <= 0)%Z \/ r <= 0 -> interpolate_coordinates (PyInt z) r p = Err ValueError.
Proof.
  intros z r p H. unfold interpolate_coordinates. destruct (Z.leb_spec z 0); auto. destruct (Rle_dec r 0); auto. destruct H; [lia|lra].
Qed.

(** One surface: the interpolant through the nodes, sampled uniformly. *)
Definition surface_ok (r : R) (x y : list R) (n : nat) (xx yy : list R) : Prop :=
  exists x0 xn s, first x = Ok x0 /\ final x = Ok xn /\ xx = linspace x0 xn n /\
    map s x = y /\ yy = map s xx /\
    forall xs, reconstruct_1d x y xs (zeros (List.length xs)) W r = Ok (map s xs).

Lemma rec1d_interpolant : forall x y r xx o, reconstruct_1d x y xx (zeros (List.length xx)) W r = Ok o ->
  exists s : R -> R, map s x = y /\ o = map s xx /\
   forall xs, reconstruct_1d x y xs (zeros (List.length xs)) W r = Ok (map s xs).
Proof.
  intros x y r xx o H. unfold reconstruct_1d in *.
  destruct (reconstruct_interpolant W r (column x) y) as [s [Hs HQ]]; [eauto|].
  assert (G : forall xs, reconstruct_f (column x) y (column xs) (zeros (List.length xs)) W r = Ok (map (fun t => s [t]) xs)).
  { intros xs. rewrite HQ by (unfold zeros; rewrite repeat_length, column_length; auto).
    unfold column. rewrite map_map. f_equal.
    replace (List.length xs) with (List.length (map (fun t => s [t]) xs)) by apply map_length. apply map2_zeros_l. }
  exists (fun t => s [t]). split; [|split; auto].
  - rewrite <- Hs. unfold column. rewrite map_map. auto.
  - rewrite G in H. congruence.
Qed.

Lemma interpolate_inv : forall z r p a b c d, interpolate_coordinates (PyInt z) r p = Ok (a, b, c, d) ->
  (0 < z)%Z /\ 0 < r /\ surface_ok r (xup p) (yup p) (Z.to_nat z) a c /\ surface_ok r (xdown p) (ydown p) (Z.to_nat z) b d.
Proof.
  intros z r p a b c d H. unfold interpolate_coordinates in H.
  destruct (Z.leb_spec z 0); [discriminate|]. destruct (Rle_dec r 0); [discriminate|].
  repeat match goal with H : bind _ _ = Ok _ |- _ =>
      let a := fresh "q" in let E := fresh "E" in apply bind_ok in H; destruct H as [a [E H]] end.
  injection H as <- <- <- <-.
  split; [lia|]. split; [lra|]. split.
  - rewrite <- (linspace_length q q0 (Z.to_nat z)) in E1 at 2. apply rec1d_interpolant in E1.
    destruct E1 as (s & A & B & C). exists q, q0, s. auto 10.
  - rewrite <- (linspace_length q2 q3 (Z.to_nat z)) in E4 at 2. apply rec1d_interpolant in E4.
    destruct E4 as (s & A & B & C). exists q2, q3, s. auto 10.
Qed.

Lemma interpolate_intro : forall z r p a b c d, (0 < z)%Z -> 0 < r ->
  surface_ok r (xup p) (yup p) (Z.to_nat z) a c -> surface_ok r (xdown p) (ydown p) (Z.to_nat z) b d ->
  interpolate_coordinates (PyInt z) r p = Ok (a, b, c, d).
Proof.
  intros z r p a b c d Hz Hr (x0 & xn & s & F & L & E & S1 & S2 & S3) (x0' & xn' & s' & F' & L' & E' & S1' & S2' & S3').
  unfold interpolate_coordinates. destruct (Z.leb_spec z 0); [lia|]. destruct (Rle_dec r 0); [lra|].
  rewrite F, L, F', L'. simpl bind. rewrite <- E, <- E'.
  assert (La : List.length a = Z.to_nat z) by (rewrite E; apply linspace_length).
  assert (Lb : List.length b = Z.to_nat z) by (rewrite E'; apply linspace_length).
  rewrite <- La at 1. rewrite S3. simpl bind. rewrite <- Lb. rewrite S3'. simpl bind. congruence.
Qed.

Lemma surface_exists : forall r x y n, 0 < r -> x <> [] -> NoDup x -> List.length y = List.length x ->
  exists xx yy, surface_ok r x y n xx yy.
Proof.
  intros r x y n Hr N ND L. destruct (first_ok _ N) as [x0 F]. destruct (final_ok _ N) as [xn F'].
  set (xx := linspace x0 xn n).
  destruct (proj2 (proj1 (wendland_iff r x y xx (zeros (List.length xx)) Hr L (repeat_length _ _))) ND) as [o Ho].
  destruct (rec1d_interpolant _ _ _ _ _ Ho) as (s & A & B & C).
  exists xx, o, x0, xn, s. auto 10.
Qed.

Lemma interpolate_ok : forall z r p, (0 < z)%Z -> 0 < r -> paired p -> xup p <> [] -> xdown p <> [] ->
  NoDup (xup p) -> NoDup (xdown p) ->
  exists a b c d, interpolate_coordinates (PyInt z) r p = Ok (a, b, c, d).
Proof.
  intros z r p Hz Hr (L1 & L2) N1 N2 D1 D2.
  destruct (surface_exists r (xup p) (yup p) (Z.to_nat z) Hr N1 D1) as (a & c & S1); auto.
  destruct (surface_exists r (xdown p) (ydown p) (Z.to_nat z) Hr N2 D2) as (b & d & S2); auto.
  exists a, b, c, d. apply interpolate_intro; auto.
Qed.

(** The sampled abscissae are equally spaced from the first to the last node and
    the sample at a data abscissa is the datum. *)
Lemma surface_samples : forall r x y n xx yy, surface_ok r x y n xx yy ->
  List.length xx = n /\ List.length yy = n /\
  (forall x0 xn, first x = Ok x0 -> final x = Ok xn ->
    forall i, (i < n)%nat -> nth_error xx i = Some (x0 + INR i * ((xn - x0) / INR (n - 1)))) /\
  (forall i j t d, nth_error x i = Some t -> nth_error y i = Some d -> nth_error xx j = Some t -> nth_error yy j = Some d).
Proof.
  intros r x y n xx yy (x0 & xn & s & F & L & E & S1 & S2 & S3). subst xx yy.
  rewrite map_length, linspace_length. repeat split; auto.
  - intros x0' xn' F' L' i Hi. rewrite F in F'. rewrite L in L'. injection F' as <-. injection L' as <-.
    apply linspace_nth; auto.
  - intros i j t d Hi Hd Hj. rewrite (map_nth_error s _ _ Hj). rewrite <- S1 in Hd.
    rewrite (map_nth_error s _ _ Hi) in Hd. auto.
Qed.

(** ** Chord line *)
Lemma chord_line_inv : forall n p xs ys, compute_chord_line n p = Ok (xs, ys) ->
  exists le te k, update_edges p = Ok (le, te) /\ fst te <> fst le /\
    k = (snd te - snd le) / (fst te - fst le) /\
    ys = map (fun x => k * (x - fst le) + snd le) xs /\
    exists n', resolve_n n p = Ok n' /\
     ((exists z, n' = Some z /\ (0 < z)%Z /\ xs = linspace (fst le) (fst te) (Z.to_nat z)) \/
      ((n' = None \/ n' = Some 0%Z) /\ xs = xup p)).
Proof.
  intros n p xs ys H. unfold compute_chord_line in H.
  apply bind_ok in H. destruct H as [[[lx ly] [tx ty]] [E H]].
  apply bind_ok in H. destruct H as [k [Ek H]]. apply bind_ok in H. destruct H as [n' [En H]].
  unfold fdiv in Ek. destruct (Req_EM_T (tx - lx) 0); [discriminate|]. injection Ek as <-.
  exists (lx, ly), (tx, ty), ((ty - ly) / (tx - lx)). simpl. repeat split; auto; [lra| |].
  - destruct (truthy n') as [z|]; [destruct (Z.ltb z 0); [discriminate|]|]; injection H as <- <-; auto.
  - exists n'. split; auto. unfold truthy in H. destruct n' as [z|].
    + destruct (Z.eqb_spec z 0).
      * right. split; [subst; auto|]. congruence.
      * left. exists z. destruct (Z.ltb_spec z 0); [discriminate|]. injection H as <- _. repeat split; auto. lia.
    + right. split; auto. congruence.
Qed.

Lemma chord_line_points : forall n p xs ys, compute_chord_line n p = Ok (xs, ys) ->
  exists le te, update_edges p = Ok (le, te) /\ List.length ys = List.length xs /\
   (forall q, In q (combine xs ys) -> collinear le te q) /\
   nth_error (combine xs ys) 0 = Some le /\
   (n <> Some 1%Z -> nth_error (combine xs ys) (List.length xs - 1) = Some te).
Proof.
  intros n p xs ys H. apply chord_line_inv in H.
  destruct H as (le & te & k & E & N & Ek & Ey & n' & En & Hn). exists le, te.
  assert (Hk : k * (fst te - fst le) = snd te - snd le) by (subst k; field; lra).
  split; auto. split; [subst ys; apply map_length|].
  assert (C : combine xs ys = map (fun x => (x, k * (x - fst le) + snd le)) xs).
  { subst ys. clear. induction xs; simpl; auto. f_equal; auto. }
  rewrite C. split; [|split].
  - intros q Hq. apply in_map_iff in Hq. destruct Hq as (x & <- & Hx). unfold collinear; simpl.
    rewrite <- Hk. ring.
  - assert (F : nth_error xs 0 = Some (fst le)).
    { destruct Hn as [(z & -> & Hz & ->)|(_ & ->)].
      - apply linspace_first. lia.
      - apply update_edges_iff in E. destruct E as (xu0 & ? & ? & ? & ? & ? & ? & F & _ & _ & _ & _ & _ & _ & _ & _ & E).
        injection E as -> _. simpl. destruct (xup p); [discriminate|]. simpl in *. congruence. }
    rewrite (map_nth_error _ _ _ F). destruct le; simpl. apply f_equal, injective_projections; simpl; ring.
  - intros N1. assert (F : nth_error xs (List.length xs - 1) = Some (fst te)).
    { destruct Hn as [(z & -> & Hz & ->)|(_ & ->)].
      - rewrite linspace_length. apply linspace_last.
        apply resolve_n_cases in En. destruct En as (_ & [En|(En & _ & E5)] & _).
        + subst n. assert (z <> 1%Z) by congruence. lia.
        + injection E5 as ->. lia.
      - apply update_edges_iff in E. destruct E as (? & ? & xun & ? & ? & ? & ? & _ & _ & F & _ & _ & _ & _ & _ & _ & E).
        injection E as _ ->. simpl. clear - F. revert xun F. induction (xup p) as [|a l IH]; intros; [discriminate|].
        destruct l as [|b l]; [simpl in *; congruence|]. specialize (IH xun F).
        replace (List.length (a :: b :: l) - 1)%nat with (S (List.length (b :: l) - 1)) by (simpl; lia). auto. }
    rewrite (map_nth_error _ _ _ F). destruct te as [tx ty]; simpl in *. apply f_equal, injective_projections; simpl; lra.
Qed.

Lemma chord_line_succeeds : forall n p, uniform p -> xup p <> [] ->
  ((exists l, compute_chord_line n p = Ok l) <->
   exists le te, update_edges p = Ok (le, te) /\ fst le <> fst te /\ (forall z, n = Some z -> (0 <= z)%Z)).
Proof.
  intros n p (L1 & L2 & L3) N. split.
  - intros [[xs ys] H]. apply chord_line_inv in H.
    destruct H as (le & te & k & E & Nx & Ek & Ey & n' & En & Hn). exists le, te. repeat split; auto.
    intros z ->. apply resolve_n_cases in En. destruct En as (_ & [->|(A & _)] & _); [|discriminate].
    destruct Hn as [(z' & A & B & _)|([A|A] & _)]; try discriminate; injection A as ->; lia.
  - intros ([lx ly] & [tx ty] & E & Nx & Hz). unfold compute_chord_line. rewrite E. simpl in *.
    unfold fdiv. destruct (Req_EM_T (tx - lx) 0); [lra|]. simpl.
    assert (R : exists n', resolve_n n p = Ok n').
    { unfold resolve_n, arrays_equal. rewrite L3, Nat.eqb_refl. simpl. destruct (list_eqb _ _), n; eauto. }
    destruct R as [n' En]. rewrite En. simpl. unfold truthy. destruct n' as [z|]; eauto.
    destruct (Z.eqb_spec z 0); eauto. destruct (Z.ltb_spec z 0); eauto.
    apply resolve_n_cases in En. destruct En as (_ & [A|(_ & _ & A)] & _).
    + subst n. specialize (Hz z eq_refl). lia.
    + injection A as ->. lia.
Qed.

(** ** Scaling of the RBF reconstruction *)
Lemma map2_same_scale : forall (k : R) y, map2 Rplus (vscale k y) (vscale 0 y) = vscale k y.
Proof. induction y as [|a y IH]; simpl; auto. f_equal; [ring|apply IH]. Qed.

Lemma rec1d_unique : forall x y r xs o1 o2, reconstruct_1d x y xs (zeros (List.length xs)) W r = Ok o1 ->
  reconstruct_1d x y xs (zeros (List.length xs)) W r = Ok o2 -> o1 = o2.
Proof. intros. congruence. Qed.

Lemma surface_linear : forall r x y1 y2 n xx1 xx2 o1 o2 k1 k2,
  surface_ok r x y1 n xx1 o1 -> surface_ok r x y2 n xx2 o2 ->
  surface_ok r x (map2 Rplus (vscale k1 y1) (vscale k2 y2)) n xx1 (map2 Rplus (vscale k1 o1) (vscale k2 o2)).
Proof.
  intros r x y1 y2 n xx1 xx2 o1 o2 k1 k2 (x0 & xn & s1 & F & L & E & S1 & S2 & S3) (x0' & xn' & s2 & F' & L' & E' & S1' & S2' & S3').
  rewrite F in F'. injection F' as <-. rewrite L in L'. injection L' as <-.
  exists x0, xn, (fun t => k1 * s1 t + k2 * s2 t). subst.
  assert (G : forall xs, map2 Rplus (vscale k1 (map s1 xs)) (vscale k2 (map s2 xs)) = map (fun t => k1 * s1 t + k2 * s2 t) xs).
  { induction xs as [|a xs IH]; simpl; auto. f_equal; [ring|apply IH]. }
  repeat split; auto.
  intros xs. specialize (S3 xs). specialize (S3' xs). unfold reconstruct_1d in *.
  rewrite <- (column_length xs) in S3, S3' |- *.
  rewrite (reconstruct_linear _ _ _ _ _ k1 k2 _ _ _ S3 S3'). f_equal. apply G.
Qed.

Lemma surface_scale : forall r x y n xx o k, surface_ok r x y n xx o -> surface_ok r x (vscale k y) n xx (vscale k o).
Proof.
  intros r x y n xx o k H. pose proof (surface_linear r x y y n xx xx o o k 0 H H) as G.
  rewrite !map2_same_scale in G. auto.
Qed.

Lemma surface_unique : forall r x y n xx1 xx2 o1 o2, surface_ok r x y n xx1 o1 -> surface_ok r x y n xx2 o2 -> xx1 = xx2 /\ o1 = o2.
Proof.
  intros r x y n xx1 xx2 o1 o2 (x0 & xn & s1 & F & L & E & S1 & S2 & S3) (x0' & xn' & s2 & F' & L' & E' & S1' & S2' & S3').
  rewrite F in F'. injection F' as <-. rewrite L in L'. injection L' as <-. subst.
  split; auto. specialize (S3 (linspace x0 xn n)). specialize (S3' (linspace x0 xn n)). congruence.
Qed.

(** ** Thickness *)
Lemma max_thickness_inv : forall n p t, max_thickness n p = Ok t ->
  exists n', resolve_n n p = Ok n' /\
   ((exists z a b c d, n' = Some z /\ interpolate_coordinates (PyInt z) 1 p = Ok (a, b, c, d) /\
       vmax (map2 (fun a b => Rabs (a - b)) c d) = Ok t) \/
    ((n' = None \/ n' = Some 0%Z) /\ List.length (yup p) = List.length (ydown p) /\
      vmax (map2 (fun a b => Rabs (a - b)) (yup p) (ydown p)) = Ok t)).
Proof.
  intros n p t H. unfold max_thickness in H. apply bind_ok in H. destruct H as [n' [En H]]. exists n'. split; auto.
  unfold truthy in H.
  assert (D : bind (vzip (fun a b => Rabs (a - b)) (yup p) (ydown p)) vmax = Ok t ->
    List.length (yup p) = List.length (ydown p) /\ vmax (map2 (fun a b => Rabs (a - b)) (yup p) (ydown p)) = Ok t).
  { intros G. apply bind_ok in G. destruct G as [th [Et G]]. apply vzip_inv in Et. destruct Et as [L ->]. auto. }
  destruct n' as [z|].
  - destruct (Z.eqb_spec z 0) as [->|Nz].
    + right. split; auto.
    + left. apply bind_ok in H. destruct H as [[[[a b] c] d] [Ei H]].
      apply bind_ok in H. destruct H as [th [Et H]]. apply vzip_inv in Et. destruct Et as [L ->].
      exists z, a, b, c, d. auto.
  - right. split; auto.
Qed.

Lemma abs_scale_zip : forall k a b, map2 (fun a b => Rabs (a - b)) (vscale k a) (vscale k b) =
  map (fun x => Rabs k * x) (map2 (fun a b => Rabs (a - b)) a b).
Proof.
  intros. unfold vscale. rewrite map2_map_l, map2_map_r, map_map2. apply map2_ext. intros.
  rewrite <- Rabs_mult. f_equal. ring.
Qed.

Lemma max_thickness_scale : forall n p t k, max_thickness n p = Ok t ->
  max_thickness n (mkProfile (xup p) (xdown p) (vscale k (yup p)) (vscale k (ydown p))) = Ok (Rabs k * t).
Proof.
  intros n p t k H. apply max_thickness_inv in H. destruct H as (n' & En & H).
  unfold max_thickness. change (resolve_n n (mkProfile (xup p) (xdown p) (vscale k (yup p)) (vscale k (ydown p)))) with (resolve_n n p).
  rewrite En. simpl bind.
  assert (Hv : forall l, vmax l = Ok t -> vmax (map (fun x => Rabs k * x) l) = Ok (Rabs k * t))
    by (intros; apply vmax_map_scale; auto; apply Rabs_pos).
  destruct H as [(z & a & b & c & d & -> & Ei & Hm)|(Hn & L & Hm)].
  - unfold truthy. destruct (interpolate_inv _ _ _ _ _ _ _ Ei) as (Hz & Hr & S1 & S2).
    destruct (Z.eqb_spec z 0); [lia|]. cbv beta iota.
    rewrite (interpolate_intro z 1 _ a b (vscale k c) (vscale k d)); auto using surface_scale.
    + simpl bind. rewrite vzip_ok.
      * simpl bind. rewrite abs_scale_zip. auto.
      * rewrite !vscale_length. destruct (surface_samples _ _ _ _ _ _ S1) as (_ & -> & _).
        destruct (surface_samples _ _ _ _ _ _ S2) as (_ & -> & _). auto.
    + apply surface_scale; auto.
    + apply surface_scale; auto.
  - replace (truthy n') with (@None Z) by (destruct Hn as [->| ->]; auto). simpl.
    rewrite vzip_ok by (rewrite !vscale_length; auto). simpl bind. rewrite abs_scale_zip. auto.
Qed.

Lemma set_thickness_ok : forall t p old, max_thickness None p = Ok old -> old <> 0 ->
  exists q, set_thickness_max t p = Ok q /\ max_thickness None q = Ok (Rabs t) /\
    xup q = xup p /\ xdown q = xdown p /\
    yup q = vscale (t / old) (yup p) /\ ydown q = vscale (t / old) (ydown p).
Proof.
  intros t p old H N. unfold set_thickness_max. rewrite H. simpl. destruct (Req_EM_T old 0); [congruence|].
  eexists. split; [reflexivity|]. split; [|auto].
  rewrite (max_thickness_scale _ _ _ _ H). f_equal.
  assert (0 <= old).
  { apply max_thickness_inv in H. destruct H as (n' & _ & H).
    assert (G : forall a b, vmax (map2 (fun a b => Rabs (a - b)) a b) = Ok old -> 0 <= old).
    { intros a b Hm. apply vmax_spec in Hm. destruct Hm as [I _].
      apply In_nth_error in I. destruct I as [i I]. apply map2_nth_inv in I. destruct I as (u & v & _ & _ & ->). apply Rabs_pos. }
    destruct H as [(z & a & b & c & d & -> & Ei & Hm)|(Hn & L & Hm)]; eapply G; eauto. }
  rewrite Rabs_div by auto. rewrite (Rabs_right old) by lra. field. auto.
Qed.

Lemma set_thickness_zero : forall t p, max_thickness None p = Ok 0 ->
  exists q, set_thickness_max t p = Ok q /\ xup q = xup p /\ xdown q = xdown p /\
    yup q = zeros (List.length (yup p)) /\ ydown q = zeros (List.length (ydown p)).
Proof.
  intros t p H. unfold set_thickness_max. rewrite H. simpl. destruct (Req_EM_T 0 0); [|congruence].
  eexists. split; [reflexivity|]. simpl. repeat split; auto.
  - induction (yup p); simpl; auto. unfold zeros in *. simpl. f_equal; [ring|auto].
  - induction (ydown p); simpl; auto. unfold zeros in *. simpl. f_equal; [ring|auto].
Qed.

Lemma set_thickness_err : forall t p e, set_thickness_max t p = Err e <-> max_thickness None p = Err e.
Proof. intros. unfold set_thickness_max. destruct (max_thickness None p); simpl; split; congruence. Qed.

(** When is the thickness computable?  Uniform profiles with distinct abscissae. *)
Lemma max_thickness_ok : forall n p, uniform p -> xup p <> [] ->
  (xup p = xdown p /\ (n = None \/ n = Some 0%Z)) \/
  (NoDup (xup p) /\ NoDup (xdown p) /\ (forall z, n = Some z -> (0 < z)%Z)) ->
  exists t, max_thickness n p = Ok t.
Proof.
  intros n p (L1 & L2 & L3) N H. unfold max_thickness.
  assert (R : exists n', resolve_n n p = Ok n').
  { unfold resolve_n, arrays_equal. rewrite L3, Nat.eqb_refl. simpl. destruct (list_eqb _ _), n; eauto. }
  destruct R as [n' En]. rewrite En. simpl bind. apply resolve_n_cases in En. destruct En as (_ & En & En').
  assert (D : exists t, bind (vzip (fun a b => Rabs (a - b)) (yup p) (ydown p)) vmax = Ok t).
  { rewrite vzip_ok by congruence. simpl. apply vmax_ok. intros C. apply (f_equal (@List.length R)) in C.
    rewrite map2_length in C by congruence. destruct (xup p); [congruence|]. simpl in *. lia. }
  destruct n' as [z|]; simpl; auto.
  destruct (Z.eqb_spec z 0); auto.
  destruct H as [(E & [->| ->])|(D1 & D2 & Hz)].
  - destruct En as [En|(_ & En & _)]; [discriminate|contradiction].
  - destruct En as [En|(En & _)]; [injection En as ->; congruence|discriminate].
  - assert (Pz : (0 < z)%Z). { destruct En as [<-|(_ & _ & En)]; [apply Hz; auto|injection En as ->; lia]. }
    destruct (interpolate_ok z 1 p Pz Rlt_0_1) as (a & b & c & d & Ei); auto.
    { split; auto. } { intros C. rewrite C in L3. destruct (xup p); simpl in *; [congruence|lia]. }
    rewrite Ei. simpl bind. destruct (interpolate_inv _ _ _ _ _ _ _ Ei) as (_ & _ & S1 & S2).
    apply surface_samples in S1. apply surface_samples in S2. destruct S1 as (_ & Lc & _). destruct S2 as (_ & Ld & _).
    rewrite vzip_ok by congruence. simpl. apply vmax_ok. intros C. apply (f_equal (@List.length R)) in C.
    rewrite map2_length in C by congruence. simpl in *. lia.
Qed.
