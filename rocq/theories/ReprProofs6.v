(** Parameter files of binary64 numbers. *)
From Coq Require Import Reals String List ZArith Ascii Bool Lra Lia.
From Flocq Require Import Core Div BinarySingleNaN.
From Verif Require Import Base TextModel TextSpec ParamsModel ParamsSpec ParamsProofs2 ParamsProofs3 ParamsProofs4.
From Verif Require Import PpgFloatModel PpgFloatProofs FloatModel ReprModel ReprSpec ReprProofs ReprProofs2 ReprProofs3 ReprProofs4.
Import ListNotations.

Lemma all_printable64 : forall p : params b64, all_printable codec64 p.
Proof. intros p. split; [|split]; apply Forall_forall; intros; apply repr_printable. Qed.
Lemma round_trip64 : forall fs p f fs' p' q, write_parameters b64 codec64 fs p (AStr f) = (fs', (p', Ok tt)) ->
  populated p' -> read_parameters b64 codec64 fs' q (AStr f) = (fs', (p', Ok tt)).
Proof. intros. eapply round_trip; eauto. apply all_printable64. Qed.
Lemma copy64 : forall fs f q fs1 p, read_parameters b64 codec64 fs q (AStr f) = (fs1, (p, Ok tt)) -> forall g q', exists fs2,
  write_parameters b64 codec64 fs1 p (AStr g) = (fs2, (p, Ok tt)) /\ read_parameters b64 codec64 fs2 q' (AStr g) = (fs2, (p, Ok tt)).
Proof.
  intros fs f q fs1 p H g q'. destruct (read_inv _ _ _ _ _ _ _ H) as (C & P & _ & _ & _ & W).
  assert (W' : write_parameters b64 codec64 fs1 p (AStr g) = (put fs1 g (show_params b64 codec64 p), (p, Ok tt))).
  { unfold write_parameters in W |- *. destruct (check_params b64 codec64 p) as [p' [[]|e]]; [|discriminate]. injection W as _ ->. reflexivity. }
  eexists. split; [exact W'|]. apply (round_trip64 _ _ _ _ _ _ W'). auto.
Qed.
Lemma arange64 : c_arange codec64 <> [].
Proof. intros E. apply (f_equal (@List.length b64)) in E. vm_compute in E. discriminate. Qed.
Lemma default_file64 : forall fs f, fs f = None ->
  exists fs' p, read_parameters b64 codec64 fs (new_params b64 codec64) (AStr f) = (fs', (p, Ok tt)) /\ fs' f <> None /\
    radii b64 p = Some (c_arange codec64) /\ forall k, at_key (parameters b64 p) k = Some (repeat (c_zero codec64) (List.length (c_arange codec64))) /\
      at_key (nbasis b64 p) k = 10%Z /\ at_key (degree b64 p) k = 3%Z /\ at_key (npoints b64 p) k = 500%Z /\
      at_key (deformations b64 p) k = repeat (c_zero codec64) 10.
Proof.
  intros fs f E. apply (read_missing_fresh b64 codec64 fs f E arange64); [apply Forall_forall; intros|]; apply repr_printable.
Qed.

(** The numbers read from a file are the ones of its lines. *)
Open Scope R_scope.
Lemma rounded_nearest : forall neg m q y, rounded neg m q y -> is_finite y = true -> forall z : b64, is_finite z = true ->
  let v := if neg then - dec m q else dec m q in Rabs (B2R y - v) <= Rabs (B2R z - v).
Proof.
  intros neg m q y (R1 & R2) F z FZ v. destruct (Rlt_le_dec (round64 (dec m q)) (IZR (2 ^ 1024))) as [C|C]; [|rewrite (R2 C) in F; discriminate].
  destruct (R1 C) as (_ & _ & V). assert (E : B2R y = rnd v).
  { rewrite V. unfold v, round64. destruct neg; auto. symmetry. apply round_NE_opp. }
  rewrite E. pose proof valid64. destruct (round_N_pt radix2 fexp64 (fun t => negb (Z.even t)) v) as (_ & N). apply N. apply format_val.
Qed.
Lemma default_radii_texts : map float_repr (c_arange codec64) =
  [L "0.3"; L "0.4"; L "0.5"; L "0.6000000000000001"; L "0.7000000000000002"; L "0.8000000000000003"; L "0.9000000000000001"; L "1.0000000000000002"].
Proof. vm_compute. reflexivity. Qed.
