(** Coordinate checks in binary64: identical ends, infinite ones included. *)
From Coq Require Import Reals ZArith List Lra Lia Bool.
From Flocq Require Import Core BinarySingleNaN.
From Verif Require Import Base PpgFloatModel PpgFloatProofs ProfileModel FloatModel FloatSpec FloatProofs FloatProofs2 ShapeFloatModel ShapeFloatSpec ShapeFloatProofs.
Import ListNotations.
Open Scope R_scope.

Lemma close_self : forall a, ~ is_nan64 a -> isclose64 a a = true.
Proof.
  intros a N. destruct (finite a) eqn:F.
  - apply close_number; auto. unfold agrees. rewrite (Rminus_diag_eq _ _ eq_refl). rewrite Rabs_R0. pose proof eps_bounds. pose proof (Rabs_pos (val a)). apply Rmult_le_pos; lra.
  - destruct a as [b|b| |b m e H]; try discriminate F; [destruct b; reflexivity|]. exfalso. apply N. reflexivity.
Qed.
Lemma check_same_ends : forall p, same_sizes p -> fxup p <> [] -> Forall is_number (fyup p) -> Forall is_number (fydown p) -> in_order (meaning p) ->
  (let same a b := a = b /\ ~ is_nan64 b in
   same (hd zero64 (fxdown p)) (hd zero64 (fxup p)) /\ same (last (fxdown p) zero64) (last (fxup p) zero64) /\
   same (hd zero64 (fydown p)) (hd zero64 (fyup p)) /\ same (last (fydown p) zero64) (last (fyup p) zero64)) ->
  check_coordinates64 p = Ok tt.
Proof.
  intros p S N N3 N4 A ((E1 & B1) & (E2 & B2) & (E3 & B3) & (E4 & B4)). destruct (check_iff p S N) as (I & _). cbv zeta in I. apply I. rewrite E1, E2, E3, E4.
  split; [|repeat split; apply close_self; auto].
  intros i u d L U D. rewrite Bleb_correct; [|exact (nth_number _ _ _ N4 D)|exact (nth_number _ _ _ N3 U)]. apply Rle_bool_true.
  unfold in_order, meaning in A. cbn [yup ydown] in A. apply (A (Datatypes.S i)); rewrite ?map_length, ?nth_error_map, ?U, ?D; auto; lia.
Qed.
