(** The model against tests/test_blade.py. *)
From Coq Require Import Reals String List ZArith Lra Lia.
From Verif Require Import Base ProfileModel ProfileSpec CustomSpec NacaModel NacaSpec NacaProofs NacaProofs2 BladeModel BladeSpec Enclose ValidNacaProofs ValidNaca
  ValidBladeData ValidBladeProofs.
Import ListNotations.
Open Scope R_scope.

Lemma naca_0012 : forall n p, naca_coordinates "0012" true n = Ok p -> foil n p.
Proof.
  intros n p. change "0012"%string with (code [0; 0; 1; 2]%nat). rewrite coords4 by digit. rewrite thick12.
  destruct (naca4_traced (INR 0 / 100) (INR 0 / 10) (12 / 100) true n) as (q & E & T & _). intros H. rewrite E in H. injection H as <-.
  apply T. cbn [INR]. lra.
Qed.

(** test_blade.py 11-26; radius, chord, pitch, rake, skew in thousandths. *)
Definition sample : list (Z * Z * Z * Z * Z) := [
  (400, 550, 3000, 5, -4000); (500, 700, 3200, 15, -7000); (600, 850, 3400, 25, -7000); (700, 1000, 3600, 35, -4000); (800, 1030, 3800, 45, -1000);
  (900, 1000, 4100, 55, 2000); (1000, 970, 3900, 65, 5000); (1100, 940, 3700, 75, 8000); (1200, 910, 3500, 75, 11000); (1300, 300, 3300, 45, 14000)]%Z.
(** test_blade.py 289-303. *)
Example recorded_reflect : forall p, naca_coordinates "0012" true 240 = Ok p -> exists st' b' up down,
  apply_transformations true (fun _ => p) (blade_of sample) = (st', b', Ok tt) /\ coordinates b' = Built up down /\
  agrees up rows_up_reflect /\ agrees down rows_down_reflect.
Proof.
  intros p H. apply naca_0012 in H. destruct (applied sample 240 p true ltac:(discriminate) eq_refl H ltac:(lia)) as (st' & b' & E).
  destruct (applied_points sample 240 p true eq_refl H ltac:(lia) st' b' E) as (up & down & C & U & D & _). exists st', b', up, down.
  split; [exact E|]. split; [exact C|]. split; [apply U|apply D]; vm_compute; reflexivity.
Qed.
(** test_blade.py 305-320. *)
Example recorded_no_reflect : forall p, naca_coordinates "0012" true 240 = Ok p -> exists st' b' up down,
  apply_transformations false (fun _ => p) (blade_of sample) = (st', b', Ok tt) /\ coordinates b' = Built up down /\
  agrees up rows_up_no_reflect /\ agrees down rows_down_no_reflect.
Proof.
  intros p H. apply naca_0012 in H. destruct (applied sample 240 p false ltac:(discriminate) eq_refl H ltac:(lia)) as (st' & b' & E).
  destruct (applied_points sample 240 p false eq_refl H ltac:(lia) st' b' E) as (up & down & C & U & D & _). exists st', b', up, down.
  split; [exact E|]. split; [exact C|]. split; [apply U|apply D]; vm_compute; reflexivity.
Qed.
(** test_blade.py 273-287. *)
Example recorded_planar : forall p, naca_coordinates "0012" true 240 = Ok p -> exists b' up down,
  planar_to_cylindrical (fun _ => p) (blade_of sample) = (b', Ok tt) /\ coordinates b' = Built up down /\
  agrees up rows_up_planar /\ agrees down rows_down_planar.
Proof.
  intros p H. apply naca_0012 in H. destruct (planar_points sample 240 p ltac:(discriminate) eq_refl H ltac:(lia)) as (b' & up & down & E & C & U & D).
  exists b', up, down. split; [exact E|]. split; [exact C|]. split; [apply U|apply D]; vm_compute; reflexivity.
Qed.
(** test_blade.py 29-43, 339-389: [blade.build()] followed by [blade.rotate]. *)
Definition sample10 : list (Z * Z * Z * Z * Z) := [(400, 550, 3000, 5, -4000); (500, 700, 3200, 15, -7000)]%Z.
Example rotated : forall surface p, (forall g, exists f, surface g = Ok f) -> naca_coordinates "0012" true 10 = Ok p ->
  exists st' b' b2 up down, build surface true (fun _ => p) (blade_of sample10) = (st', b', Ok tt) /\
    blade_rotate None (Some (PI / 2)) "x" b' = (b2, Ok tt) /\ blade_rotate (Some 90) None "x" b' = (b2, Ok tt) /\ coordinates b2 = Built up down /\
    agrees up rows_rotate_deg_section_0 /\ agrees down rows_rotate_rad.
Proof.
  intros surface p TS H. apply naca_0012 in H.
  destruct (turned_points surface sample10 10 p TS ltac:(discriminate) eq_refl H ltac:(lia)) as (st' & b' & b2 & up & down & B & E1 & E2 & C & U & D).
  exists st', b', b2, up, down. split; [exact B|]. split; [exact E1|]. split; [exact E2|]. split; [exact C|]. split; [apply U|apply D]; vm_compute; reflexivity.
Qed.
