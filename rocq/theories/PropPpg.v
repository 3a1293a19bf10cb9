(** C53, C54: export_ppg. *)
From Coq Require Import String Reals List ZArith Ascii Lra.
From Flocq Require Import Core BinarySingleNaN.
From Verif Require Import Base TextModel FormatModel FormatSpec FormatProofs ProfileModel BladeModel BladeSpec BladeProofs6
  PpgModel PpgSpec PpgProofs PpgProofs2 PpgProofs3 PpgFloatModel PpgFloatProofs.
From Verif Require ParamsModel.
Import ListNotations.
Open Scope R_scope.

(** ** C53 *)
Theorem C53_parameters_restored : forall float_str d fs name D H nb nm st b fs' b',
  export_ppg float_str d fs name D H nb nm st b = (fs', b', Ok tt) -> b' = b.
Proof. exact export_restores. Qed.
Print Assumptions C53_parameters_restored.

Theorem C53_normalized_blade_untouched : forall float_str d fs name D H nb st b fs' b' o,
  export_ppg float_str d fs name D H nb true st b = (fs', b', o) -> b' = b.
Proof. exact export_normalized. Qed.
Print Assumptions C53_normalized_blade_untouched.

Theorem C53_unmeasurable_section : forall float_str d fs name D H nb nm st b e, measure st b = Err e ->
  export_ppg float_str d fs name D H nb nm st b = (fs, b, Err e).
Proof. exact export_unmeasurable. Qed.
Print Assumptions C53_unmeasurable_section.

Theorem C53_failed_write_leaves_normalised : forall float_str fs name D H nb st b, consistent b -> num_value D <> 0 ->
  (forall s, In s (sections b) -> exists t f, max_thickness None (st s) = Ok t /\ max_camber (Some 500%Z) (st s) = Ok f) ->
  exists text b1,
    export_ppg float_str Writable fs name D H nb false st b = (ParamsModel.put fs name text, b, Ok tt) /\
    nondimensional (num_value D) b b1 /\
    export_ppg float_str CannotOpen fs name D H nb false st b = (fs, b1, Err IOError) /\
    forall n, export_ppg float_str (FullAfter n) fs name D H nb false st b = (ParamsModel.put fs name (firstn n text), b1, Err IOError).
Proof. exact export_failure. Qed.
Print Assumptions C53_failed_write_leaves_normalised.

Theorem C53_retry_does_not_repair : forall float_str fs name D H nb st b fs1 b1 fs2 b2 o, consistent b -> num_value D <> 0 ->
  (forall s, In s (sections b) -> exists t f, max_thickness None (st s) = Ok t /\ max_camber (Some 500%Z) (st s) = Ok f) ->
  export_ppg float_str CannotOpen fs name D H nb false st b = (fs1, b1, o) ->
  export_ppg float_str Writable fs1 name D H nb false st b1 = (fs2, b2, Ok tt) ->
  nondimensional (num_value D) b b2.
Proof. exact export_retry. Qed.
Print Assumptions C53_retry_does_not_repair.

Example C53_example : (consistent two_blade /\ forall s, In s (sections two_blade) ->
    exists t f, max_thickness None (foil_store s) = Ok t /\ max_camber (Some 500%Z) (foil_store s) = Ok f) /\
  num_value (PyFloat (1 / 4)) <> 0 /\ num_value (PyInt 3) <> 0 /\
  (exists fs', export_ppg (fun _ => L "0.25") Writable (fun _ => None) (L "a.ppg") (PyFloat (1 / 4)) (PyFloat (3 / 40)) (PyInt 5)
     false foil_store two_blade = (fs', two_blade, Ok tt)) /\
  ~ nondimensional (1 / 4) two_blade two_blade.
Proof.
  destruct two_blade_measurable as (C & M). split; [auto|]. cbn [num_value]. split; [lra|]. split; [lra|]. split.
  - destruct (export_failure (fun _ => L "0.25") (fun _ => None) (L "a.ppg") (PyFloat (1 / 4)) (PyFloat (3 / 40)) (PyInt 5)
      foil_store two_blade C ltac:(cbn; lra) M) as (text & b1 & E & _). eauto.
  - intros (H & _). cbn in H. injection H. unfold in_radii. lra.
Qed.

(** The same conversions in binary64: exact for a diameter that is a power of
    two (such as the default 0.25), nearly exact otherwise, but not exact. *)
Theorem C53_binary64_length_power_of_two : forall (D c : b64) k, finite D = true -> val D = bpow radix2 k -> finite c = true ->
  val c = 0 \/ bpow radix2 (-1022) <= Rabs (val c / val D) -> Rabs (val c / val D) < bpow radix2 1024 ->
  val (norm_length D c) = val c / val D /\ finite (norm_length D c) = true /\
  val (abs_length D (norm_length D c)) = val c /\ finite (abs_length D (norm_length D c)) = true.
Proof. exact power_length. Qed.
Print Assumptions C53_binary64_length_power_of_two.

Theorem C53_binary64_radius_power_of_two : forall (D r : b64) k, finite D = true -> val D = bpow radix2 k -> finite r = true ->
  Rabs (val r) < bpow radix2 1023 ->
  val r = 0 \/ bpow radix2 (-1022) <= Rabs (val r * 2 / val D) -> Rabs (val r * 2 / val D) < bpow radix2 1024 ->
  val (norm_radius D r) = val r * 2 / val D /\ finite (norm_radius D r) = true /\
  val (abs_radius D (norm_radius D r)) = val r /\ finite (abs_radius D (norm_radius D r)) = true.
Proof. exact power_radius. Qed.
Print Assumptions C53_binary64_radius_power_of_two.

Theorem C53_binary64_length_error : forall D c : b64, finite D = true -> val D <> 0 -> finite c = true ->
  bpow radix2 (-1022) <= Rabs (val c / val D) <= bpow radix2 1023 ->
  bpow radix2 (-1021) <= Rabs (val c) <= bpow radix2 1022 ->
  finite (abs_length D (norm_length D c)) = true /\
  Rabs (val (abs_length D (norm_length D c)) - val c) <= bpow radix2 (-51) * Rabs (val c).
Proof. exact length_error. Qed.
Print Assumptions C53_binary64_length_error.

Theorem C53_binary64_restores_refuted : exists D c : b64, finite D = true /\ 0 < val D < 1 /\ finite c = true /\ 0 < val c < 1 /\
  val (abs_length D (norm_length D c)) <> val c /\ val (abs_radius D (norm_radius D c)) <> val c.
Proof. exact not_restored. Qed.
Print Assumptions C53_binary64_restores_refuted.

(** The diameter 2 and the length 2. *)
Example C53_binary64_example : finite two64 = true /\ val two64 = bpow radix2 1 /\
  bpow radix2 (-1022) <= Rabs (val two64 / val two64) <= bpow radix2 1023 /\
  bpow radix2 (-1021) <= Rabs (val two64) <= bpow radix2 1022 /\ Rabs (val two64 * 2 / val two64) < bpow radix2 1024.
Proof. exact two64_example. Qed.

(** ** C54 *)
Theorem C54_number_text : forall x, (forall a, In a (sci x) -> is_ws a = false) /\ sci x <> [] /\
  exists v, read_number (sci x) = Some v /\ nine_digits x v.
Proof. exact sci_text. Qed.
Print Assumptions C54_number_text.

Theorem C54_file_content : forall float_str, (forall x, ~ In nl (float_str x)) ->
  forall fs name D H nb nm st b fs' b',
  export_ppg float_str Writable fs name D H nb nm st b = (fs', b', Ok tt) ->
  exists text doc, fs' name = Some text /\ (forall other, other <> name -> fs' other = fs other) /\
    read_ppg text = Some doc /\
    List.length (d_rows doc) = List.length (sections b) /\ List.length (d_profiles doc) = List.length (sections b) /\
    (forall i s r c P k sk, station b i s r c P k sk -> exists t f row q,
       max_thickness None (st s) = Ok t /\ max_camber (Some 500%Z) (st s) = Ok f /\
       nth_error (d_rows doc) i = Some row /\
       Forall2 nine_digits [in_radii nm (num_value D) r; in_diameters nm (num_value D) c; sk; in_diameters nm (num_value D) k;
                            in_diameters nm (num_value D) P; t; f] row /\
       nth_error (d_profiles doc) i = Some q /\ nine_digits (in_radii nm (num_value D) r) (p_radius q) /\
       p_count q = Z.of_nat (List.length (xup (st s))) /\
       Forall2 nine_digits (xup (st s)) (p_x q) /\ Forall2 nine_digits (yup (st s)) (p_up q) /\
       Forall2 nine_digits (ydown (st s)) (p_down q)) /\
    header_of float_str D H nb (List.length (sections b)) (firstn 10 (split_nl text)) /\
    Forall2 (fun o l => Forall2 nine_digits [IZR (fst o) / 10000; IZR (snd o) / 10000] l) stock_hub (d_hub doc).
Proof. exact export_file. Qed.
Print Assumptions C54_file_content.

Example C54_example : (forall x : R, ~ In nl ((fun _ => L "0.25") x)) /\
  (exists fs', export_ppg (fun _ => L "0.25") Writable (fun _ => None) (L "a.ppg") (PyFloat (1 / 4)) (PyFloat (3 / 40)) (PyInt 5)
     false foil_store two_blade = (fs', two_blade, Ok tt)) /\ station two_blade 1 1 2 (1 / 4) 4 (1 / 5) 10.
Proof.
  split.
  - intros _ [H|[H|[H|[H|[]]]]]; discriminate.
  - split; [apply C53_example|apply two_blade_good].
Qed.

Theorem C54_lower_abscissas_recoverable_refuted : forall float_str, exists (st st' : store) b,
  xdown (st 0%nat) <> xdown (st' 0%nat) /\ sections b = [0%nat] /\
  forall d fs name D H nb nm,
    export_ppg float_str d fs name D H nb nm st b = export_ppg float_str d fs name D H nb nm st' b /\
    (num_value D <> 0 -> exists fs', export_ppg float_str Writable fs name D H nb nm st b = (fs', b, Ok tt)).
Proof. exact lower_abscissas_lost. Qed.
Print Assumptions C54_lower_abscissas_recoverable_refuted.
