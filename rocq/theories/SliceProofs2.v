(** A blade cut at radius 50. *)
From Coq Require Import Reals List Bool Lra Lia Arith.
From Verif Require Import Base ProfileModel ProfileSpec ProfileProofs BladeModel BladeSpec ReverseModel ReverseSpec ReverseProofs ReverseProofs2 ReverseProofs7
  ChordModel ChordSpec ChordProofs ChordProofs2 ReconstructModel SliceModel SliceSpec SliceProofs.
Import ListNotations.
Open Scope R_scope.

(** The two end caps and the lateral face of a cylinder. *)
Definition a_cylinder (radius : R) : res (list (nat * pt3)) := Ok [(0%nat, (1, 0, 0)); (1%nat, (-1, 0, 0)); (2%nat, (0, 0, 1))].
(** A quarter of a helix on the cylinder of radius 50. *)
Definition helix (t : R) : pt3 := (100 * t, 50 * sin (t * (PI / 2)), 50 * cos (t * (PI / 2))).
Definition a_wire : cwire := mkCwire 0 1 helix 1 helix.
Definition two_edges (f : nat) : res (list nat) := Ok [0%nat; 1%nat].
Definition wire_of_edges (l : list nat) : res cwire := match l with [] => Err RuntimeError | _ => Ok a_wire end.
Definition at_point (w : cwire) (p n : pt3) : list pt3 := [p].
Definition the_point (p n t b : pt3) : res pt3 := Ok p.
Definition the_points (l : list pt3) : res (list pt3) := Ok l.

Lemma helix_0 : helix 0 = (0, 0, 50).
Proof. unfold helix. rewrite Rmult_0_l, sin_0, cos_0. repeat f_equal; lra. Qed.
Lemma helix_1 : helix 1 = (100, 50, 0).
Proof. unfold helix. rewrite Rmult_1_l, sin_PI2, cos_PI2. repeat f_equal; lra. Qed.

Lemma a_camber : exists cam, camber_points (at_point a_wire) (at_point a_wire) the_point 500 50 (helix 1) (helix 0) = Ok cam /\ cam <> [].
Proof.
  rewrite helix_0, helix_1. destruct (geodesic_ok 50 (100, 50, 0) (0, 0, 50)) as (g & Hg); [lra|unfold on_cylinder; lra|unfold on_cylinder; lra|].
  destruct (camber_total (at_point a_wire) (at_point a_wire) the_point 500 50 (100, 50, 0) (0, 0, 50) g) with (2 := Hg) as (l & H).
  - apply Nat.leb_le. reflexivity.
  - left. apply geodesic_inv in Hg as (_ & -> & _). cbn [g_lam]. lra.
  - intros p nv t b. exists p. reflexivity.
  - discriminate.
  - discriminate.
  - exists l. split; [exact H|]. apply camber_shape in H; [|apply Nat.leb_le; reflexivity]. intros ->. destruct H as (_ & H & _). discriminate.
Qed.
Lemma a_radial : last_radial [(0%nat, (1, 0, 0)); (1%nat, (-1, 0, 0)); (2%nat, (0, 0, 1))] 2%nat.
Proof. exists [(0%nat, (1, 0, 0)); (1%nat, (-1, 0, 0))], [], 0, 1. split; [reflexivity|constructor]. Qed.
Lemma a_only : only_radial [(0%nat, (1, 0, 0)); (1%nat, (-1, 0, 0)); (2%nat, (0, 0, 1))] 2%nat.
Proof.
  exists [(0%nat, (1, 0, 0)); (1%nat, (-1, 0, 0))], [], 0, 1. split; [reflexivity|]. split; [|constructor].
  repeat constructor; cbn; lra.
Qed.

Lemma a_total : forall n, (2 <= n <= 500)%nat ->
  exists v r, new_bladex nat nat (list pt3) a_cylinder two_edges wire_of_edges at_point at_point the_point the_points table [50] n = Ok (v, r).
Proof.
  intros n N. apply bladex_total; [apply table_total|exact N|]. intros radius [<-|[]]. split; [lra|].
  destruct a_camber as (cam & A & B). exists [(0%nat, (1, 0, 0)); (1%nat, (-1, 0, 0)); (2%nat, (0, 0, 1))], 2%nat, [0%nat; 1%nat], a_wire, a_wire, a_wire, cam, cam.
  split; [reflexivity|]. split; [apply a_radial|]. split; [reflexivity|]. split; [reflexivity|]. split; [reflexivity|]. split; [reflexivity|].
  split; [exact A|]. split; [exact B|]. split; [reflexivity|].
  cbn [a_wire cw_value cw_last]. pose proof PI_RGT_0. unfold helix, unroll. cbn [snd]. rewrite !arctan2_polar by lra. lra.
Qed.
