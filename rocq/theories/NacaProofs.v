(** Lemmas about the NACA generators. *)
From Coq Require Import Reals List ZArith String Ascii Lra Lia Sorted Psatz.
From Coquelicot Require Import Coquelicot.
From Verif Require Import Base SolveProofs ProfileModel ProfileSpec ProfileProofs ProfileProofs2 CustomProofs2 CustomProofs3
  NacaModel NacaBounds NacaSpec.
Import ListNotations.
Open Scope R_scope.

(** ** Stations *)
Lemma linspace01 : forall n, (2 <= n)%nat -> linspace 0 1 n = map (station n) (seq 0 n).
Proof. intros n H. unfold linspace, station. apply map_ext. intros i. rewrite Rminus_0_r. unfold Rdiv. ring. Qed.
Lemma station_bounds : forall n i, (2 <= n)%nat -> (i < n)%nat -> 0 <= station n i <= 1.
Proof.
  intros n i H Hi. unfold station. assert (0 < INR (n - 1)) by (apply lt_0_INR; lia).
  assert (0 <= INR i) by apply pos_INR. assert (INR i <= INR (n - 1)) by (apply le_INR; lia). split.
  - apply Rmult_le_pos; auto. left. apply Rinv_0_lt_compat; auto.
  - apply Rmult_le_reg_r with (INR (n - 1)); auto. unfold Rdiv. rewrite Rmult_assoc, Rinv_l by lra. lra.
Qed.
Lemma station_0 : forall n, station n 0 = 0.
Proof. intros. unfold station. simpl. unfold Rdiv. ring. Qed.
Lemma station_last : forall n, (2 <= n)%nat -> station n (n - 1) = 1.
Proof. intros. unfold station. apply Rinv_r. apply not_0_INR. lia. Qed.
Lemma station_lt : forall n i j, (2 <= n)%nat -> (i < j)%nat -> station n i < station n j.
Proof.
  intros n i j H L. unfold station. apply Rmult_lt_compat_r; [|apply lt_INR; auto].
  apply Rinv_0_lt_compat, lt_0_INR. lia.
Qed.

Lemma split_map : forall {A} (P Q : A -> bool) (f g : A -> R) l,
  (forall a, Q a = negb (P a)) ->
  StronglySorted (fun a b => P b = true -> P a = true) l ->
  map f (filter P l) ++ map g (filter Q l) = map (fun a => if P a then f a else g a) l.
Proof.
  intros A P Q f g l HQ H. induction H as [|a l S IH F]; auto. simpl. rewrite HQ. destruct (P a) eqn:E; simpl.
  - rewrite <- IH. auto.
  - assert (K : filter P l = []).
    { clear IH S. induction F as [|b l Hb F IHF]; auto. simpl. destruct (P b); auto. specialize (Hb eq_refl). discriminate. }
    assert (K2 : forall l, filter P l = [] -> map (fun a => if P a then f a else g a) l = map g (filter Q l)).
    { clear - HQ. induction l as [|b l IH]; auto. simpl. rewrite HQ. destruct (P b); [discriminate|]. simpl. intros. f_equal. auto. }
    rewrite K. simpl. f_equal. symmetry. apply K2; auto.
Qed.

Lemma stations_sorted : forall n, (2 <= n)%nat -> forall k m, StronglySorted Rlt (map (station n) (seq k m)).
Proof.
  intros n H k m. revert k. induction m as [|m IH]; intros k; simpl; constructor; auto.
  apply Forall_forall. intros x I. apply in_map_iff in I. destruct I as (j & <- & I). apply in_seq in I. apply station_lt; lia.
Qed.

Lemma split_stations : forall n c (f g : R -> R),
  map f (upto c (linspace 0 1 n)) ++ map g (beyond c (linspace 0 1 n)) =
  map (fun x => if Rle_dec x c then f x else g x) (linspace 0 1 n).
Proof.
  intros n c f g. unfold upto, beyond.
  rewrite (split_map (fun a => if Rle_dec a c then true else false) (fun a => if Rlt_dec c a then true else false)).
  - apply map_ext. intros a. destruct (Rle_dec a c); auto.
  - intros a. destruct (Rle_dec a c); destruct (Rlt_dec c a); auto; lra.
  - destruct n as [|[|n']]; [repeat constructor|repeat constructor|]. set (n := S (S n')). assert (H : (2 <= n)%nat) by (unfold n; lia).
    rewrite linspace01 by auto. pose proof (stations_sorted n H 0 n) as S. induction S as [|a l S IH F]; constructor; auto.
    apply Forall_forall. intros b I E. rewrite Forall_forall in F. specialize (F b I).
    destruct (Rle_dec b c); [|discriminate]. destruct (Rle_dec a c); auto. lra.
Qed.

(** ** Shapes *)
Lemma map2_map_same : forall {A} (f : R -> R -> R) (g h : A -> R) l, map2 f (map g l) (map h l) = map (fun a => f (g a) (h a)) l.
Proof. induction l; simpl; auto. f_equal; auto. Qed.
Lemma map2_map_self : forall (f : R -> R -> R) (h : R -> R) l, map2 f l (map h l) = map (fun a => f a (h a)) l.
Proof. induction l; simpl; auto. f_equal; auto. Qed.

(** A foil given by functions of the station. *)
Definition traced (n : nat) (X U : R -> R) (D V : R -> R) (p : profile) : Prop :=
  p = mkProfile (map X (linspace 0 1 n)) (map D (linspace 0 1 n)) (map U (linspace 0 1 n)) (map V (linspace 0 1 n)).

Lemma lay_normal_traced : forall n (h c sl : R -> R),
  exists p, lay_normal (linspace 0 1 n) (map h (linspace 0 1 n)) (map c (linspace 0 1 n)) (map sl (linspace 0 1 n)) = Ok p /\
  traced n (fun x => x - h x * sin (atan (sl x))) (fun x => c x + h x * cos (atan (sl x)))
           (fun x => x + h x * sin (atan (sl x))) (fun x => c x - h x * cos (atan (sl x))) p.
Proof.
  intros. unfold lay_normal. set (l := linspace 0 1 n).
  rewrite map_map. rewrite !vzip_ok by (rewrite !map_length; auto). cbn [bind].
  rewrite !map2_map_same.
  rewrite !vzip_ok by (rewrite ?map_length; auto). cbn [bind].
  rewrite !map2_map_same, !map2_map_self. eexists. split; [reflexivity|]. reflexivity.
Qed.
Lemma lay_vertical_traced : forall n (h c : R -> R),
  exists p, lay_vertical (linspace 0 1 n) (map h (linspace 0 1 n)) (map c (linspace 0 1 n)) = Ok p /\
  traced n (fun x => x) (fun x => c x + h x) (fun x => x) (fun x => c x - h x) p.
Proof.
  intros. unfold lay_vertical. set (l := linspace 0 1 n).
  rewrite !vzip_ok by (rewrite ?map_length; auto). cbn [bind].
  rewrite !map2_map_same. eexists. split; [reflexivity|]. unfold traced. rewrite !map_id. reflexivity.
Qed.

Definition c4 (m p x : R) : R := if Rle_dec x p then m / p ^ 2 * x * (2 * p - x) else m / (1 - p) ^ 2 * (1 - 2 * p + x) * (1 - x).
Definition d4 (m p x : R) : R := if Rle_dec x p then m / p ^ 2 * (2 * p - 2 * x) else m / (1 - p) ^ 2 * (2 * p - 2 * x).
Definition d5 (k1 m x : R) : R := if Rle_dec x m then 1 / 6 * k1 * (3 * x ^ 2 - 6 * m * x + m ^ 2 * (3 - m)) else -1 / 6 * k1 * m ^ 3.

Lemma naca4_traced : forall m p t cosine n, exists f, naca4 m p t cosine n = Ok f /\
  let h := half_thickness t in
  (p = 0 -> traced n (fun x => x) h (fun x => x) (fun x => - h x) f) /\
  (p <> 0 -> cosine = true -> traced n
     (fun x => x - h x * sin (atan (d4 m p x))) (fun x => c4 m p x + h x * cos (atan (d4 m p x)))
     (fun x => x + h x * sin (atan (d4 m p x))) (fun x => c4 m p x - h x * cos (atan (d4 m p x))) f) /\
  (p <> 0 -> cosine = false -> traced n (fun x => x) (fun x => c4 m p x + h x) (fun x => x) (fun x => c4 m p x - h x) f).
Proof.
  intros m p t cosine n. unfold naca4. destruct (Req_EM_T p 0) as [Z|Z].
  - eexists. split; [reflexivity|]. cbv zeta. split; [|split; intros; contradiction].
    intros _. unfold symmetric_foil, traced. rewrite !map_id, map_map. auto.
  - rewrite !split_stations. destruct cosine.
    + destruct (lay_normal_traced n (half_thickness t) (c4 m p) (d4 m p)) as (f & E & T).
      exists f. split; [exact E|]. cbv zeta. split; [contradiction|]. split; [auto|discriminate].
    + destruct (lay_vertical_traced n (half_thickness t) (c4 m p)) as (f & E & T).
      exists f. split; [exact E|]. cbv zeta. split; [contradiction|]. split; [discriminate|auto].
Qed.

Lemma camber5_eq : forall k1 m x, (if Rle_dec x m then k1 / 6 * (x ^ 3 - 3 * m * x ^ 2 + m ^ 2 * (3 - m) * x) else k1 / 6 * m ^ 3 * (1 - x)) = camber_line5 k1 m x.
Proof. intros. unfold camber_line5. destruct (Rle_dec x m); auto. ring. Qed.

Lemma naca5_traced : forall cld p (reflex : bool) s t cosine n, s = (if reflex then 1 else 0) ->
  exists f, naca5 cld p s t cosine n = Ok f /\
  let h := half_thickness t in let m := naca5_m reflex p in let k := naca5_k reflex m in
  (p = 0 -> traced n (fun x => x) h (fun x => x) (fun x => - h x) f) /\
  (p <> 0 -> cosine = true -> traced n
     (fun x => x - h x * sin (atan (d5 k m x))) (fun x => cld / (3/10) * camber_line5 k m x + h x * cos (atan (d5 k m x)))
     (fun x => x + h x * sin (atan (d5 k m x))) (fun x => cld / (3/10) * camber_line5 k m x - h x * cos (atan (d5 k m x))) f) /\
  (p <> 0 -> cosine = false -> traced n (fun x => x) (fun x => camber_line5 k m x + h x) (fun x => x) (fun x => camber_line5 k m x - h x) f).
Proof.
  intros cld p reflex s t cosine n Hs. unfold naca5.
  assert (E0 : (if Req_EM_T s 1 then Ok true else if Req_EM_T s 0 then Ok false else Err ValueError) = Ok reflex).
  { destruct reflex; subst s.
    - destruct (Req_EM_T 1 1); [auto|congruence].
    - destruct (Req_EM_T 0 1); [lra|]. destruct (Req_EM_T 0 0); [auto|congruence]. }
  rewrite E0. cbn [bind]. destruct (Req_EM_T p 0) as [Z|Z].
  - eexists. split; [reflexivity|]. cbv zeta. split; [|split; intros; contradiction].
    intros _. unfold symmetric_foil, traced. rewrite !map_id, map_map. auto.
  - rewrite !split_stations.
    set (m := naca5_m reflex p). set (k := naca5_k reflex m).
    rewrite (map_ext _ _ (camber5_eq k m)).
    destruct cosine.
    + rewrite map_map. destruct (lay_normal_traced n (half_thickness t) (fun x => cld / (3/10) * camber_line5 k m x) (d5 k m)) as (f & E & T).
      exists f. split; [exact E|]. cbv zeta. split; [contradiction|]. split; [auto|discriminate].
    + destruct (lay_vertical_traced n (half_thickness t) (camber_line5 k m)) as (f & E & T).
      exists f. split; [exact E|]. cbv zeta. split; [contradiction|]. split; [discriminate|auto].
Qed.

(** ** Camber lines *)
Lemma c4_textbook : forall m p x, p <> 0 -> p <> 1 -> c4 m p x = camber_line4 m p x.
Proof. intros. unfold c4, camber_line4. destruct (Rle_dec x p); field; lra. Qed.
Lemma camber4_ends : forall m p, 0 < p < 1 -> camber_line4 m p 0 = 0 /\ camber_line4 m p 1 = 0.
Proof.
  intros m p H. unfold camber_line4. destruct (Rle_dec 0 p); [|lra]. destruct (Rle_dec 1 p); [lra|].
  split; field; lra.
Qed.
Lemma camber4_peak : forall m p, 0 < p < 1 -> camber_line4 m p p = m.
Proof. intros m p H. unfold camber_line4. destruct (Rle_dec p p); [|lra]. field; lra. Qed.
Lemma camber4_range : forall m p x, 0 <= m -> 0 < p < 1 -> 0 <= x <= 1 -> 0 <= camber_line4 m p x <= m.
Proof.
  intros m p x M P X. unfold camber_line4.
  assert (K : forall a b, 0 < b -> 0 <= a <= b -> 0 <= (a / b) ^ 2 <= 1).
  { intros a b B A. assert (0 <= a / b <= 1).
    { split; [apply Rmult_le_pos; [lra|left; apply Rinv_0_lt_compat; lra]|]. apply Rmult_le_reg_r with b; auto. unfold Rdiv. rewrite Rmult_assoc, Rinv_l; lra. }
    nra. }
  destruct (Rle_dec x p).
  - specialize (K (p - x) p ltac:(lra) ltac:(lra)). nra.
  - specialize (K (x - p) (1 - p) ltac:(lra) ltac:(lra)). nra.
Qed.
Lemma d4_slope : forall m p x, 0 < p < 1 -> is_derive (camber_line4 m p) x (d4 m p x).
Proof.
  intros m p x P.
  assert (D1 : forall x, is_derive (fun x => m * (1 - ((p - x) / p) ^ 2)) x (m / p ^ 2 * (2 * p - 2 * x))).
  { intros. auto_derive; [auto|]. field; lra. }
  assert (D2 : forall x, is_derive (fun x => m * (1 - ((x - p) / (1 - p)) ^ 2)) x (m / (1 - p) ^ 2 * (2 * p - 2 * x))).
  { intros. auto_derive; [auto|]. field; lra. }
  destruct (Rtotal_order x p) as [L|[E|G]].
  - unfold d4. destruct (Rle_dec x p); [|lra].
    apply is_derive_ext_loc with (fun x => m * (1 - ((p - x) / p) ^ 2)); [|apply D1].
    exists (mkposreal (p - x) ltac:(lra)). intros y B. unfold camber_line4. destruct (Rle_dec y p); auto.
    unfold ball, AbsRing_ball in B. cbn in B. unfold AbsRing_ball, abs, minus, plus, opp in B. cbn in B. apply Rabs_def2 in B. lra.
  - subst x. unfold d4. destruct (Rle_dec p p); [|lra].
    replace (m / p ^ 2 * (2 * p - 2 * p)) with 0 by (field; lra).
    (* both pieces have value m and slope 0 at p *)
    apply is_derive_Reals. intros eps He.
    pose proof (D1 p) as A1. pose proof (D2 p) as A2.
    apply is_derive_Reals in A1. apply is_derive_Reals in A2.
    destruct (A1 eps He) as [e1 B1]. destruct (A2 eps He) as [e2 B2].
    assert (M : 0 < Rmin e1 e2) by (apply Rmin_glb_lt; apply cond_pos).
    exists (mkposreal _ M). intros h Hn Hh. simpl in Hh.
    assert (Rabs h < e1) by (eapply Rlt_le_trans; [apply Hh|apply Rmin_l]).
    assert (Rabs h < e2) by (eapply Rlt_le_trans; [apply Hh|apply Rmin_r]).
    specialize (B1 h Hn H). specialize (B2 h Hn H0).
    unfold camber_line4. destruct (Rle_dec p p); [|lra]. destruct (Rle_dec (p + h) p).
    + replace (m / p ^ 2 * (2 * p - 2 * p)) with 0 in B1 by (field; lra). exact B1.
    + replace (m / (1 - p) ^ 2 * (2 * p - 2 * p)) with 0 in B2 by (field; lra).
      replace (m * (1 - ((p - p) / p) ^ 2)) with (m * (1 - ((p - p) / (1 - p)) ^ 2)) by (field; lra). exact B2.
  - unfold d4. destruct (Rle_dec x p); [lra|].
    apply is_derive_ext_loc with (fun x => m * (1 - ((x - p) / (1 - p)) ^ 2)); [|apply D2].
    exists (mkposreal (x - p) ltac:(lra)). intros y B. unfold camber_line4. destruct (Rle_dec y p); auto.
    unfold ball, AbsRing_ball in B. cbn in B. unfold AbsRing_ball, abs, minus, plus, opp in B. cbn in B. apply Rabs_def2 in B. lra.
Qed.
Lemma d5_slope : forall k m x, is_derive (camber_line5 k m) x (d5 k m x).
Proof.
  intros k m x.
  assert (D1 : forall x, is_derive (fun x => k / 6 * (x ^ 3 - 3 * m * x ^ 2 + m ^ 2 * (3 - m) * x)) x (1 / 6 * k * (3 * x ^ 2 - 6 * m * x + m ^ 2 * (3 - m)))).
  { intros. auto_derive; [auto|]. field. }
  assert (D2 : forall x, is_derive (fun x => k / 6 * (m ^ 3 * (1 - x))) x (-1 / 6 * k * m ^ 3)).
  { intros. auto_derive; [auto|]. field. }
  destruct (Rtotal_order x m) as [L|[E|G]].
  - unfold d5. destruct (Rle_dec x m); [|lra].
    apply is_derive_ext_loc with (fun x => k / 6 * (x ^ 3 - 3 * m * x ^ 2 + m ^ 2 * (3 - m) * x)); [|apply D1].
    exists (mkposreal (m - x) ltac:(lra)). intros y B. unfold camber_line5. destruct (Rle_dec y m); auto.
    unfold ball, AbsRing_ball in B. cbn in B. unfold AbsRing_ball, abs, minus, plus, opp in B. cbn in B. apply Rabs_def2 in B. lra.
  - subst x. unfold d5. destruct (Rle_dec m m); [|lra].
    apply is_derive_Reals. intros eps He.
    pose proof (D1 m) as A1. pose proof (D2 m) as A2.
    apply is_derive_Reals in A1. apply is_derive_Reals in A2.
    destruct (A1 eps He) as [e1 B1]. destruct (A2 eps He) as [e2 B2].
    assert (M : 0 < Rmin e1 e2) by (apply Rmin_glb_lt; apply cond_pos).
    exists (mkposreal _ M). intros h Hn Hh. simpl in Hh.
    assert (Rabs h < e1) by (eapply Rlt_le_trans; [apply Hh|apply Rmin_l]).
    assert (Rabs h < e2) by (eapply Rlt_le_trans; [apply Hh|apply Rmin_r]).
    specialize (B1 h Hn H). specialize (B2 h Hn H0).
    unfold camber_line5. destruct (Rle_dec m m); [|lra]. destruct (Rle_dec (m + h) m).
    + exact B1.
    + replace (1 / 6 * k * (3 * m ^ 2 - 6 * m * m + m ^ 2 * (3 - m))) with (-1 / 6 * k * m ^ 3) by field.
      replace (k / 6 * (m ^ 3 - 3 * m * m ^ 2 + m ^ 2 * (3 - m) * m)) with (k / 6 * (m ^ 3 * (1 - m))) by field. exact B2.
  - unfold d5. destruct (Rle_dec x m); [lra|].
    apply is_derive_ext_loc with (fun x => k / 6 * (m ^ 3 * (1 - x))); [|apply D2].
    exists (mkposreal (x - m) ltac:(lra)). intros y B. unfold camber_line5. destruct (Rle_dec y m); auto.
    unfold ball, AbsRing_ball in B. cbn in B. unfold AbsRing_ball, abs, minus, plus, opp in B. cbn in B. apply Rabs_def2 in B. lra.
Qed.
Lemma camber5_ends : forall k m, 0 <= m < 1 -> camber_line5 k m 0 = 0 /\ camber_line5 k m 1 = 0.
Proof. intros k m H. unfold camber_line5. destruct (Rle_dec 0 m); [|lra]. destruct (Rle_dec 1 m); [lra|]. split; field. Qed.

(** ** Thickness *)
Lemma half_shape : forall t x, 0 <= x -> half_thickness t x = t / 2 * shape (sqrt x).
Proof.
  intros t x X. unfold half_thickness, shape.
  rewrite <- (sqrt_sqrt x X) at 2 3 4 5. set (s := sqrt x).
  replace (0.2969) with (2969 / 10000) by lra. replace (-0.1260) with (- (126 / 1000)) by lra.
  replace (-0.3516) with (-(3516 / 10000)) by lra. replace 0.2843 with (2843 / 10000) by lra.
  replace (-0.1036) with (- (1036 / 10000)) by lra. field.
Qed.
Lemma sqrt_01 : forall x, 0 <= x <= 1 -> 0 <= sqrt x <= 1.
Proof. intros x [A B]. split; [apply sqrt_pos|]. rewrite <- sqrt_1. apply sqrt_le_1; lra. Qed.
Lemma half_bounds : forall t x, 0 <= t -> 0 <= x <= 1 -> 0 <= 2 * half_thickness t x <= 1.0002 * t.
Proof.
  intros t x T X. rewrite half_shape by lra. pose proof (sqrt_01 x X) as S.
  pose proof (shape_pos _ S). pose proof (shape_bound _ S). split; [nra|]. nra.
Qed.
Lemma half_ends : forall t, half_thickness t 0 = 0 /\ half_thickness t 1 = 0.
Proof. intros t. unfold half_thickness. rewrite sqrt_0, sqrt_1. split; lra. Qed.
Lemma half_strict : forall t x, 0 < t -> 0 < x < 1 -> 0 < half_thickness t x.
Proof.
  intros t x T X. rewrite half_shape by lra. apply Rmult_lt_0_compat; [lra|]. apply shape_strict.
  split; [apply sqrt_lt_R0; lra|]. rewrite <- sqrt_1. apply sqrt_lt_1; lra.
Qed.
Lemma half_peak : forall t, 0 <= t -> t <= 2 * half_thickness t 0.3.
Proof.
  intros t T. unfold half_thickness.
  assert (S : 0.5477 <= sqrt 0.3). { rewrite <- (sqrt_square 0.5477) by lra. apply sqrt_le_1; lra. }
  nra.
Qed.
