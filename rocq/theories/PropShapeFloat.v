(** C113 - C115: checks, thickness and camber in binary64 arithmetic. *)
From Coq Require Import Reals ZArith List Lra Lia Bool.
From Flocq Require Import Core BinarySingleNaN.
From Verif Require Import Base PpgFloatModel PpgFloatProofs ProfileModel ProfileSpec FloatModel FloatSpec FloatProofs FloatProofs2 ShapeFloatModel ShapeFloatSpec ShapeFloatProofs ShapeFloatProofs2 ShapeFloatProofs3 ShapeFloatProofs4 ShapeFloatProofs5 ShapeFloatProofs6 ShapeFloatProofs7.
Import ListNotations.
Open Scope R_scope.

(** ** C113 *)
Theorem C113_numbers : forall p, numbers p -> same_sizes p -> fxup p <> [] ->
  (check_coordinates64 p = Ok tt -> in_order (meaning p) /\ ends_agree (1 + 8 * eps) (meaning p)) /\
  (in_order (meaning p) -> ends_agree (1 - 8 * eps) (meaning p) -> check_coordinates64 p = Ok tt) /\
  (check_coordinates64 p <> Ok tt -> check_coordinates64 p = Err ValueError).
Proof. exact check_numbers. Qed.
Print Assumptions C113_numbers.

(** Values that are not numbers: no NaN gets through among the ordinates or at the
    ends of the abscissae, an infinity at an end needs the same infinity opposite. *)
Theorem C113_not_numbers : forall p, same_sizes p -> check_coordinates64 p = Ok tt ->
  Forall (fun y => ~ is_nan64 y) (fyup p) /\ Forall (fun y => ~ is_nan64 y) (fydown p) /\
  (let same a b := ~ is_nan64 a /\ ~ is_nan64 b /\ (is_infinite a \/ is_infinite b -> a = b) in
   same (hd zero64 (fxdown p)) (hd zero64 (fxup p)) /\ same (last (fxdown p) zero64) (last (fxup p) zero64) /\
   same (hd zero64 (fydown p)) (hd zero64 (fyup p)) /\ same (last (fydown p) zero64) (last (fyup p) zero64)).
Proof. exact check_not_numbers. Qed.
Print Assumptions C113_not_numbers.

(** The abscissae between the ends are not looked at. *)
Theorem C113_abscissae_between : forall p q, fyup p = fyup q -> fydown p = fydown q ->
  length (fxup p) = length (fxup q) -> length (fxdown p) = length (fxdown q) ->
  first (fxup p) = first (fxup q) -> first (fxdown p) = first (fxdown q) -> final (fxup p) = final (fxup q) -> final (fxdown p) = final (fxdown q) ->
  check_coordinates64 p = check_coordinates64 q.
Proof. exact check_abscissae. Qed.
Print Assumptions C113_abscissae_between.

(** Identical ends agree whatever their size, infinities included. *)
Theorem C113_same_ends : forall p, same_sizes p -> fxup p <> [] -> Forall is_number (fyup p) -> Forall is_number (fydown p) -> in_order (meaning p) ->
  (let same a b := a = b /\ ~ is_nan64 b in
   same (hd zero64 (fxdown p)) (hd zero64 (fxup p)) /\ same (last (fxdown p) zero64) (last (fxup p) zero64) /\
   same (hd zero64 (fydown p)) (hd zero64 (fyup p)) /\ same (last (fydown p) zero64) (last (fyup p) zero64)) ->
  check_coordinates64 p = Ok tt.
Proof. exact check_same_ends. Qed.
Print Assumptions C113_same_ends.

(** Among surfaces of different lengths a NaN ordinate may pass. *)
Theorem C113_nan_free_refuted : exists p, check_coordinates64 p = Ok tt /\ Exists is_nan64 (fydown p).
Proof.
  exists (mkF [zero64; f1] [zero64; f1; f1] [zero64; f1] [zero64; nan64; f1]). split; [vm_compute; reflexivity|].
  right. left. reflexivity.
Qed.
Print Assumptions C113_nan_free_refuted.

Local Ltac each := repeat (apply Forall_cons; [|]); try apply Forall_nil.
Lemma values : real zero64 = 0 /\ real f1 = 1 /\ real two64 = 2 /\ real one64 = 1 /\ 1000 <= huge / 8.
Proof.
  split; [reflexivity|]. split; [unfold real, f1, B2R, F2R; cbn; lra|]. split; [apply two64_val|]. split; [apply one64_val|]. pose proof huge_big. lra.
Qed.
(** A lens of thickness 2; the same with NaN for an abscissa; a NaN ordinate. *)
Definition lens : fprofile := mkF [zero64; f1; two64] [zero64; f1; two64] [zero64; f1; zero64] [zero64; minus_one; zero64].
Example C113_example : numbers lens /\ same_sizes lens /\ fxup lens <> [] /\ in_order (meaning lens) /\ ends_agree (1 - 8 * eps) (meaning lens).
Proof.
  destruct values as (A & B & C & _). split; [repeat split; repeat constructor|]. split; [repeat split|]. split; [discriminate|].
  assert (E : ends_agree (1 - 8 * eps) (meaning lens)).
  { unfold ends_agree, agrees, meaning, lens. cbn [map xup xdown yup ydown fxup fxdown fyup fydown hd last]. rewrite A, C. replace (0 - 0) with 0 by ring. replace (2 - 2) with 0 by ring. rewrite Rabs_R0.
    pose proof eps_bounds as [E1 E2]. pose proof (Rabs_pos 2). repeat split; apply Rmult_le_pos; lra. }
  split; [|exact E]. intros [|[|i]] u d H L U D; [lia| |cbn in L; lia]. unfold meaning, lens in *. cbn [map yup ydown fyup fydown nth_error] in *.
  assert (u = 1) by congruence. destruct minus_one_val as (V & _). assert (d = -1) by (rewrite <- V; unfold real in D; congruence). lra.
Qed.
Example C113_example_nan : check_coordinates64 (mkF [zero64; nan64; two64] [zero64; nan64; two64] [zero64; f1; zero64] [zero64; minus_one; zero64]) = Ok tt /\
  check_coordinates64 (mkF [zero64; f1; two64] [zero64; f1; two64] [zero64; nan64; zero64] [zero64; minus_one; zero64]) = Err ValueError /\
  check_coordinates64 (mkF [zero64; f1; pinf] [zero64; f1; pinf] [zero64; f1; zero64] [zero64; minus_one; zero64]) = Ok tt /\
  check_coordinates64 (mkF [zero64; f1; nan64] [zero64; f1; nan64] [zero64; f1; zero64] [zero64; minus_one; zero64]) = Err ValueError.
Proof. vm_compute. auto. Qed.

Example C113_example_infinite : let p := mkF [zero64; pinf] [zero64; pinf] [zero64; f1] [zero64; f1] in
  same_sizes p /\ Forall is_number (fyup p) /\ in_order (meaning p) /\ last (fxdown p) zero64 = last (fxup p) zero64 /\ is_infinite (last (fxup p) zero64).
Proof. cbv zeta. split; [repeat split|]. split; [each; reflexivity|]. split; [intros [|[|i]] u d H L; cbn in L; lia|]. split; [reflexivity|]. split; discriminate. Qed.

(** ** C114 *)
Theorem C114_measured : forall p, numbers p -> common_abscissae p -> same_sizes p -> fxup p <> [] ->
  Forall (fun g => g <= huge) (gap (yup (meaning p)) (ydown (meaning p))) ->
  exists t e, max_thickness64 p = Ok t /\ max_thickness None (meaning p) = Ok e /\ is_number t /\ Rabs (real t - e) <= eps * e.
Proof. exact thickness_error. Qed.
Print Assumptions C114_measured.

Theorem C114_set_ordinates : forall T p e M, numbers p -> common_abscissae p -> same_sizes p -> fxup p <> [] ->
  Forall (fun g => g <= huge) (gap (yup (meaning p)) (ydown (meaning p))) ->
  Forall (fun y => Rabs y <= M) (yup (meaning p)) -> Forall (fun y => Rabs y <= M) (ydown (meaning p)) ->
  max_thickness None (meaning p) = Ok e -> reachable T e M ->
  exists q, set_thickness_max64 T p = Ok q /\ numbers q /\ fxup q = fxup p /\ fxdown q = fxdown p /\ same_sizes q /\
    (let bound got y := Rabs (got - y * (real T / e)) <= 5 * eps * Rabs (y * (real T / e)) + eta in
     Forall2 bound (yup (meaning q)) (yup (meaning p)) /\ Forall2 bound (ydown (meaning q)) (ydown (meaning p))).
Proof. exact set_error. Qed.
Print Assumptions C114_set_ordinates.

Theorem C114_set_measured : forall T p e M, numbers p -> common_abscissae p -> same_sizes p -> fxup p <> [] ->
  Forall (fun g => g <= huge) (gap (yup (meaning p)) (ydown (meaning p))) ->
  Forall (fun y => Rabs y <= M) (yup (meaning p)) -> Forall (fun y => Rabs y <= M) (ydown (meaning p)) ->
  max_thickness None (meaning p) = Ok e -> reachable T e M ->
  exists q t, set_thickness_max64 T p = Ok q /\ max_thickness64 q = Ok t /\ is_number t /\
    Rabs (real t - Rabs (real T)) <= 15 * eps * (M * Rabs (real T / e)) + 3 * eta.
Proof. exact set_measured. Qed.
Print Assumptions C114_set_measured.

(** The error is relative to the ordinates, not to the thickness. *)
Theorem C114_relative_accuracy_refuted : exists p T q old t, numbers p /\ common_abscissae p /\ same_sizes p /\ is_number T /\
  max_thickness64 p = Ok old /\ 0 < real old /\ set_thickness_max64 T p = Ok q /\ numbers q /\ max_thickness64 q = Ok t /\ Rabs (real t - real T) > real T / 4.
Proof. exact offset_refuted. Qed.
Print Assumptions C114_relative_accuracy_refuted.

Theorem C114_flat : forall T p, numbers p -> common_abscissae p -> same_sizes p -> fxup p <> [] -> map real (fyup p) = map real (fydown p) ->
  exists q, set_thickness_max64 T p = Ok q /\ fxup q = fxup p /\ fxdown q = fxdown p /\ same_sizes q /\
    Forall (fun y => is_number y /\ real y = 0) (fyup q) /\ Forall (fun y => is_number y /\ real y = 0) (fydown q).
Proof. exact set_flat. Qed.
Print Assumptions C114_flat.

Theorem C114_nan_measured : forall p, common_abscissae p -> same_sizes p -> Exists is_nan64 (fyup p) \/ Exists is_nan64 (fydown p) ->
  exists t, max_thickness64 p = Ok t /\ is_nan64 t.
Proof. exact thickness_nan. Qed.
Print Assumptions C114_nan_measured.

(** One NaN ordinate makes all of them NaN. *)
Theorem C114_nan_spreads : forall T p, common_abscissae p -> same_sizes p -> Exists is_nan64 (fyup p) \/ Exists is_nan64 (fydown p) ->
  exists q, set_thickness_max64 T p = Ok q /\ fxup q = fxup p /\ fxdown q = fxdown p /\ same_sizes q /\ Forall is_nan64 (fyup q) /\ Forall is_nan64 (fydown q).
Proof. exact set_nan. Qed.
Print Assumptions C114_nan_spreads.

(** A thickness of 2^1024 or more is measured as infinite and flattens the profile. *)
Theorem C114_overflow : forall T p, numbers p -> common_abscissae p -> same_sizes p -> is_number T ->
  Exists (fun g => 2 * huge <= g) (gap (yup (meaning p)) (ydown (meaning p))) -> 
  (exists t, max_thickness64 p = Ok t /\ is_infinite t) /\
  exists q, set_thickness_max64 T p = Ok q /\ Forall (fun y => is_number y /\ real y = 0) (fyup q) /\ Forall (fun y => is_number y /\ real y = 0) (fydown q).
Proof. exact overflow_both. Qed.
Print Assumptions C114_overflow.

Lemma lens_values : map real [zero64; f1; zero64] = [0; 1; 0] /\ map real [zero64; minus_one; zero64] = [0; -1; 0].
Proof. destruct values as (A & B & _). destruct minus_one_val as (V & _). cbn [map]. rewrite A, B. unfold real. rewrite V. auto. Qed.
Example C114_example : numbers lens /\ common_abscissae lens /\ same_sizes lens /\
  Forall (fun g => g <= huge) (gap (yup (meaning lens)) (ydown (meaning lens))) /\
  Forall (fun y => Rabs y <= 1) (yup (meaning lens)) /\ Forall (fun y => Rabs y <= 1) (ydown (meaning lens)) /\
  max_thickness None (meaning lens) = Ok 2 /\ reachable one64 2 1.
Proof.
  destruct values as (A & B & C & D & H). destruct lens_values as (U & L).
  assert (CA : common_abscissae lens) by (repeat split; repeat constructor). assert (S : same_sizes lens) by (repeat split).
  split; [repeat split; repeat constructor|]. split; auto. split; auto.
  assert (G : gap (yup (meaning lens)) (ydown (meaning lens)) = [0; 2; 0]).
  { unfold meaning, lens. cbn [yup ydown fyup fydown]. rewrite U, L. unfold gap. cbn [map2]. rewrite Rminus_0_r, Rabs_R0. repeat f_equal. rewrite Rabs_pos_eq; lra. }
  split; [rewrite G; each; lra|]. split; [|split; [|split]].
  - unfold meaning, lens. cbn [yup fyup]. rewrite U. each; rewrite Rabs_pos_eq; lra.
  - unfold meaning, lens. cbn [ydown fydown]. rewrite L. each; [rewrite Rabs_R0; lra|rewrite Rabs_left; lra|rewrite Rabs_R0; lra].
  - rewrite thickness_exact by auto. rewrite G. apply ProfileProofs2.vmax_spec. split; [right; left; reflexivity|]. cbn. intros x [<-|[<-|[<-|[]]]]; lra.
  - unfold reachable. rewrite D. split; [reflexivity|]. split; [lra|]. rewrite (Rabs_pos_eq (1 / 2)) by lra.
    split; [right; split; [|lra]|lra]. change (1 / 2) with (1 * / 2). rewrite Rmult_1_l. change (/ 2) with (bpow radix2 (-1)). apply bpow_le. lia.
Qed.
(** The largest numbers of either sign. *)
Definition top : b64 := @B754_finite 53 1024 false 9007199254740991 971 eq_refl.
Example C114_example_overflow : let p := mkF [f1] [f1] [top] [fneg top] in
  numbers p /\ common_abscissae p /\ same_sizes p /\ Exists (fun g => 2 * huge <= g) (gap (yup (meaning p)) (ydown (meaning p))).
Proof.
  cbv zeta. split; [repeat split; repeat constructor|]. split; [repeat split; repeat constructor|]. split; [repeat split|]. left.
  unfold meaning. cbn [yup ydown fyup fydown map]. unfold real. rewrite fneg_val.
  assert (V : huge <= val top).
  { unfold top. cbn [B2R SpecFloat.cond_Zopp]. unfold F2R. cbn [Fnum Fexp]. unfold huge. change 1023%Z with (52 + 971)%Z. rewrite bpow_plus.
    apply Rmult_le_compat_r; [apply bpow_ge_0|]. cbn. lra. }
  pose proof huge_big. rewrite Rabs_pos_eq; lra.
Qed.
Example C114_example_nan : let p := mkF [zero64; f1] [zero64; f1] [f1; nan64] [zero64; zero64] in
  common_abscissae p /\ same_sizes p /\ Exists is_nan64 (fyup p).
Proof. cbv zeta. split; [repeat split; repeat constructor|]. split; [repeat split|]. right. left. reflexivity. Qed.
Example C114_example_flat : let p := mkF [zero64; f1] [zero64; f1] [f1; f1] [f1; f1] in
  numbers p /\ common_abscissae p /\ same_sizes p /\ map real (fyup p) = map real (fydown p).
Proof. cbv zeta. split; [repeat split; repeat constructor|]. split; [repeat split; repeat constructor|]. split; repeat split. Qed.

(** ** C115 *)
Theorem C115_camber_line : forall p, numbers p -> common_abscissae p -> same_sizes p ->
  Forall (fun y => Rabs y <= huge / 2) (yup (meaning p)) -> Forall (fun y => Rabs y <= huge / 2) (ydown (meaning p)) ->
  exists cs, compute_camber_line64 p = Ok (fxup p, cs) /\ length cs = length (fxup p) /\ Forall is_number cs /\
  forall i u d, nth_error (fyup p) i = Some u -> nth_error (fydown p) i = Some d -> exists c, nth_error cs i = Some c /\
    Rmin (real u) (real d) <= real c <= Rmax (real u) (real d) /\
    (let m := (real u + real d) / 2 in Rabs (real c - m) <= 3 * eps * Rabs m + eta).
Proof. exact camber_accuracy. Qed.
Print Assumptions C115_camber_line.

Theorem C115_deform : forall pc p, let K := real pc / 100 + 1 in let W := 1 + Rabs (real pc) / 100 in
  numbers p -> is_number pc -> common_abscissae p -> same_sizes p ->
  Forall (fun y => Rabs y <= huge / 8) (yup (meaning p)) -> Forall (fun y => Rabs y <= huge / 8) (ydown (meaning p)) ->
  Forall (fun m => W * Rabs m <= huge / 8) (mean (yup (meaning p)) (ydown (meaning p))) ->
  exists q, deform_camber_line64 pc p = Ok q /\ numbers q /\ fxup q = fxup p /\ fxdown q = fxdown p /\ same_sizes q /\
  forall i u d, nth_error (fyup p) i = Some u -> nth_error (fydown p) i = Some d ->
    exists u' d', nth_error (fyup q) i = Some u' /\ nth_error (fydown q) i = Some d' /\ real d' <= real u' /\
    let m := (real u + real d) / 2 in let h := Rabs (real u - real d) / 2 in let bound := 10 * eps * (W * Rabs m + h) + 5 * W * eta in
    Rabs (real u' - (m * K + h)) <= bound /\ Rabs (real d' - (m * K - h)) <= bound.
Proof. exact deform_accuracy. Qed.
Print Assumptions C115_deform.

Theorem C115_no_change : forall pc p, numbers p -> is_number pc -> real pc = 0 -> common_abscissae p -> same_sizes p ->
  above (yup (meaning p)) (ydown (meaning p)) ->
  Forall (fun y => Rabs y <= huge / 8) (yup (meaning p)) -> Forall (fun y => Rabs y <= huge / 8) (ydown (meaning p)) ->
  exists q, deform_camber_line64 pc p = Ok q /\ numbers q /\ fxup q = fxup p /\ fxdown q = fxdown p /\ same_sizes q /\
  forall i u d, nth_error (fyup p) i = Some u -> nth_error (fydown p) i = Some d ->
    exists u' d', nth_error (fyup q) i = Some u' /\ nth_error (fydown q) i = Some d' /\
    let bound := 5 * eps * Rmax (Rabs (real u)) (Rabs (real d)) + 3 * eta in
    Rabs (real u' - real u) <= bound /\ Rabs (real d' - real d) <= bound.
Proof. exact no_change. Qed.
Print Assumptions C115_no_change.

Theorem C115_no_change_on_a_grid : forall e pc p, (-1073 <= e <= 970)%Z -> numbers p -> is_number pc -> real pc = 0 -> common_abscissae p -> same_sizes p ->
  above (yup (meaning p)) (ydown (meaning p)) -> Forall (on_grid e) (yup (meaning p)) -> Forall (on_grid e) (ydown (meaning p)) ->
  exists q, deform_camber_line64 pc p = Ok q /\ meaning q = meaning p.
Proof. exact no_change_grid. Qed.
Print Assumptions C115_no_change_on_a_grid.

Theorem C115_no_change_refuted : exists p q, numbers p /\ common_abscissae p /\ same_sizes p /\ above (yup (meaning p)) (ydown (meaning p)) /\
  deform_camber_line64 zero64 p = Ok q /\ meaning q <> meaning p.
Proof. exact no_change_refuted. Qed.
Print Assumptions C115_no_change_refuted.

Example C115_example : numbers lens /\ common_abscissae lens /\ same_sizes lens /\ above (yup (meaning lens)) (ydown (meaning lens)) /\
  Forall (on_grid 0) (yup (meaning lens)) /\ Forall (on_grid 0) (ydown (meaning lens)) /\
  Forall (fun y => Rabs y <= huge / 8) (yup (meaning lens)) /\ Forall (fun y => Rabs y <= huge / 8) (ydown (meaning lens)) /\
  Forall (fun m => (1 + Rabs (real two64) / 100) * Rabs m <= huge / 8) (mean (yup (meaning lens)) (ydown (meaning lens))).
Proof.
  destruct values as (_ & _ & C & _ & H). destruct lens_values as (U & L).
  split; [repeat split; repeat constructor|]. split; [repeat split; repeat constructor|]. split; [repeat split|].
  unfold meaning, lens. cbn [yup ydown fyup fydown]. rewrite U, L, C.
  split. { intros [|[|[|[|i]]]] x y X Y; cbn in X, Y; try discriminate; injection X as <-; injection Y as <-; lra. }
  assert (Gr : forall z, (Z.abs z <= 1)%Z -> on_grid 0 (IZR z)) by (intros z Hz; exists z; split; [cbn; ring|lia]).
  split; [each; [apply (Gr 0%Z)|apply (Gr 1%Z)|apply (Gr 0%Z)]; lia|].
  split; [each; [apply (Gr 0%Z)|apply (Gr (-1)%Z)|apply (Gr 0%Z)]; lia|].
  split; [each; rewrite Rabs_pos_eq; lra|]. split; [each; unfold Rabs; destruct Rcase_abs; lra|].
  unfold mean. cbn [map2]. replace ((0 + 0) / 2) with 0 by lra. replace ((1 + -1) / 2) with 0 by lra. each; rewrite Rabs_R0; lra.
Qed.
