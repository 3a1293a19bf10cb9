(** The lower abscissas do not reach the file; measurable sections. *)
From Coq Require Import String Reals List ZArith Ascii Lra Lia.
From Verif Require Import Base TextModel FormatModel ProfileModel ProfileSpec ProfileProofs ProfileProofs2 ProfileProofs3
  ProfileProofs4 RbfProofs BladeModel BladeSpec BladeProofs BladeProofs2 BladeProofs6 PpgModel PpgSpec PpgProofs PpgProofs2.
From Verif Require ParamsModel.
Import ListNotations.
Open Scope R_scope.

(** A plate without thickness; the lower surface is sampled at [h]. *)
Definition thin (h : R) : profile := mkProfile [0; 1 / 2; 1] [0; h; 1] [0; 0; 0] [0; 0; 0].

Lemma nodup3 : forall h, 0 < h < 1 -> NoDup [0; h; 1].
Proof.
  intros h H. constructor; [intros [E|[E|[]]]; lra|]. constructor; [intros [E|[]]; lra|]. constructor; [intros []|constructor].
Qed.
Lemma thin_surface : forall h n, 0 < h < 1 -> surface_ok 1 [0; h; 1] [0; 0; 0] n (linspace 0 1 n) (map (fun _ => 0) (linspace 0 1 n)).
Proof.
  intros h n H. destruct (surface_exists 1 [0; h; 1] [0; 0; 0] n) as (xx & yy & S); [lra|discriminate|apply nodup3; auto|reflexivity|].
  pose proof (surface_scale _ _ _ _ _ _ 0 S) as S0.
  replace (vscale 0 [0; 0; 0]) with [0; 0; 0] in S0 by (unfold vscale; cbn [map]; rewrite Rmult_0_l; reflexivity).
  destruct (surface_samples _ _ _ _ _ _ S) as (L1 & L2 & _).
  pose proof S as S'. destruct S' as (x0 & xn & s & F & L & E & _). injection F as <-. injection L as <-. subst xx.
  destruct (surface_unique _ _ _ _ _ _ _ _ S S0) as (_ & Z).
  replace (map (fun _ => 0) (linspace 0 1 n)) with yy; auto. rewrite Z.
  revert L1. generalize (linspace 0 1 n). intros l L1. rewrite <- L1 in L2. clear - L2. revert l L2. unfold vscale.
  induction yy as [|a yy IH]; intros [|b l] L; try discriminate; cbn; auto. f_equal; [lra|]. apply IH. cbn in L. lia.
Qed.
Lemma thin_interp : forall h z, 0 < h < 1 -> (0 < z)%Z -> interpolate_coordinates (PyInt z) 1 (thin h) =
  Ok (linspace 0 1 (Z.to_nat z), linspace 0 1 (Z.to_nat z), map (fun _ => 0) (linspace 0 1 (Z.to_nat z)), map (fun _ => 0) (linspace 0 1 (Z.to_nat z))).
Proof. intros h z H Hz. apply interpolate_intro; auto; try lra; apply thin_surface; lra. Qed.

Lemma map2_const : forall {A} (f : R -> R -> R) (l : list A), map2 f (map (fun _ => 0) l) (map (fun _ => 0) l) = map (fun _ => f 0 0) l.
Proof. induction l; cbn; congruence. Qed.
Lemma vmax_const : forall {A} (l : list A) c, l <> [] -> vmax (map (fun _ => c) l) = Ok c.
Proof.
  intros A l c N. apply vmax_spec. split.
  - destruct l; [congruence|]. left. reflexivity.
  - intros x H. apply in_map_iff in H. destruct H as (? & <- & _). lra.
Qed.
Lemma samples_nonempty : linspace 0 1 (Z.to_nat 500) <> [].
Proof. intros C. apply (f_equal (@List.length R)) in C. rewrite linspace_length in C. cbn [List.length] in C. lia. Qed.

Lemma thin_thickness : forall h, 0 < h < 1 -> max_thickness None (thin h) = Ok 0.
Proof.
  intros h H. destruct (Req_dec h (1 / 2)) as [->|N].
  - unfold max_thickness. rewrite resolve_n_eq by reflexivity. cbn [bind truthy].
    change (yup (thin (1 / 2))) with (map (fun _ => 0) [0; 0; 0]). change (ydown (thin (1 / 2))) with (map (fun _ => 0) [0; 0; 0]).
    rewrite vzip_ok by reflexivity. cbn [bind]. rewrite map2_const, vmax_const by discriminate. rewrite Rminus_0_r, Rabs_R0. reflexivity.
  - assert (Rn : resolve_n None (thin h) = Ok (Some 500%Z)).
    { unfold resolve_n, arrays_equal, thin. cbn [xup xdown List.length Nat.eqb bind list_eqb].
      destruct (Req_EM_T 0 0) as [_|C]; [|lra]. destruct (Req_EM_T (1 / 2) h) as [C|_]; [exfalso; lra|]. reflexivity. }
    unfold max_thickness. rewrite Rn. cbn [bind truthy]. change (500 =? 0)%Z with false. cbv iota.
    rewrite thin_interp by (auto; lia). cbn [bind].
    generalize samples_nonempty. generalize (linspace 0 1 (Z.to_nat 500)). intros l Hl.
    rewrite vzip_ok by (rewrite !map_length; auto). cbn [bind]. rewrite map2_const, vmax_const by auto.
    rewrite Rminus_0_r, Rabs_R0. reflexivity.
Qed.
Lemma thin_camber : forall h, 0 < h < 1 -> max_camber (Some 500%Z) (thin h) = Ok 0.
Proof.
  intros h H. pose proof samples_nonempty as NE.
  assert (Ec : compute_chord_line (Some 500%Z) (thin h) = Ok (linspace 0 1 (Z.to_nat 500), map (fun _ => 0) (linspace 0 1 (Z.to_nat 500)))).
  { assert (U : update_edges (thin h) = Ok ((0, 0), (1, 0))).
    { apply update_edges_iff. exists 0, 0, 1, 1, 0, 0, 0. repeat (split; [reflexivity|]).
      rewrite !Rminus_diag_eq, Rabs_R0 by auto. repeat (split; [lra|]). do 2 f_equal. lra. }
    unfold compute_chord_line. rewrite U. cbn [bind]. unfold fdiv. destruct (Req_EM_T (1 - 0) 0); [lra|]. cbn [bind].
    replace (resolve_n (Some 500%Z) (thin h)) with (Ok (Some 500%Z)) by (unfold resolve_n, arrays_equal; cbn [xup xdown thin List.length Nat.eqb bind]; destruct (list_eqb _ _); reflexivity).
    cbn [bind truthy]. change (500 =? 0)%Z with false. cbv iota. change (500 <? 0)%Z with false. cbv iota.
    generalize (linspace 0 1 (Z.to_nat 500)). intros l. do 2 f_equal. apply map_ext. intros x. field. }
  assert (Em := camber_line_interp 500 (thin h) _ _ _ _ ltac:(lia) eq_refl (thin_interp h 500 H ltac:(lia))).
  revert Ec Em NE. generalize (linspace 0 1 (Z.to_nat 500)). intros l Ec Em NE. unfold mean in Em. rewrite map2_const in Em.
  rewrite (max_camber_peak _ _ _ _ _ Ec Em) by (rewrite map_length; auto).
  destruct (peak_ok (map2 Rminus (map (fun _ : R => (0 + 0) / 2) l) (map (fun _ : R => 0) l))) as (v & Hv).
  { destruct l; [congruence|discriminate]. }
  rewrite Hv. f_equal. apply peak_value in Hv. destruct Hv as (I & _).
  apply In_nth_error in I. destruct I as (i & I). apply map2_nth_inv in I. destruct I as (u & w & A & B & ->).
  apply nth_error_In, in_map_iff in A. apply nth_error_In, in_map_iff in B. destruct A as (? & <- & _), B as (? & <- & _). lra.
Qed.

(** Two blades with different lower abscissas have the same file. *)
Definition thin_blade : blade := mkBlade [0%nat] [1] [1 / 2] [3] [1 / 10] [5] None None NoCoords None None None None.
Lemma lower_abscissas_lost : forall float_str, exists (st st' : store) b, xdown (st 0%nat) <> xdown (st' 0%nat) /\ sections b = [0%nat] /\
  forall d fs name D H nb nm,
    export_ppg float_str d fs name D H nb nm st b = export_ppg float_str d fs name D H nb nm st' b /\
    (num_value D <> 0 -> exists fs', export_ppg float_str Writable fs name D H nb nm st b = (fs', b, Ok tt)).
Proof.
  intros float_str. exists (fun _ => thin (1 / 2)), (fun _ => thin (1 / 4)), thin_blade.
  split. { cbn. intros C. injection C. lra. }
  split; [reflexivity|]. intros d fs name D H nb nm. split.
  - assert (E : measure (fun _ => thin (1 / 2)) thin_blade = measure (fun _ => thin (1 / 4)) thin_blade).
    { unfold measure. cbn [sections thin_blade mapM]. rewrite !thin_thickness, !thin_camber by lra. reflexivity. }
    unfold export_ppg. rewrite E. destruct (measure (fun _ => thin (1 / 4)) thin_blade) as [tf|e]; [|reflexivity].
    destruct (if nm then Ok thin_blade else abs_to_norm (num_value D) thin_blade); reflexivity.
  - intros N. destruct (export_writes float_str fs name D H nb nm (fun _ => thin (1 / 2)) thin_blade) as (text & W & _); auto.
    + repeat split.
    + intros s _. exists 0, 0. rewrite thin_thickness, thin_camber by lra. auto.
    + eauto.
Qed.

(** The two-section blade can be exported. *)
Lemma foil3_measured : exists t f, max_thickness None foil3 = Ok t /\ max_camber (Some 500%Z) foil3 = Ok f.
Proof.
  destruct (max_thickness_ok None foil3) as (t & Ht).
  { repeat split. } { discriminate. } { left. auto. }
  destruct (max_camber_defined foil3 0 1) as (f & Hf); try reflexivity; try lra.
  { repeat split. } { apply nodup3. lra. }
  { repeat split. exists 0, 0. repeat split. lra. }
  eauto.
Qed.

Lemma normalised_nondimensional : forall D b, nondimensional D b (normalised D b).
Proof. intros. unfold nondimensional, normalised, set_lengths, same_faces. cbn. repeat split. Qed.

(** What a failing write leaves behind. *)
Lemma export_failure : forall float_str fs name D H nb st b, consistent b -> num_value D <> 0 ->
  (forall s, In s (sections b) -> exists t f, max_thickness None (st s) = Ok t /\ max_camber (Some 500%Z) (st s) = Ok f) ->
  exists text b1,
    export_ppg float_str Writable fs name D H nb false st b = (ParamsModel.put fs name text, b, Ok tt) /\
    nondimensional (num_value D) b b1 /\
    export_ppg float_str CannotOpen fs name D H nb false st b = (fs, b1, Err IOError) /\
    forall n, export_ppg float_str (FullAfter n) fs name D H nb false st b = (ParamsModel.put fs name (firstn n text), b1, Err IOError).
Proof.
  intros float_str fs name D H nb st b C N M.
  destruct (export_writes float_str fs name D H nb false st b C (fun _ => N) M) as (text & W & A & B).
  exists text, (normalised (num_value D) b). auto using normalised_nondimensional.
Qed.

(** A failing write followed by a good one. *)
Lemma export_retry : forall float_str fs name D H nb st b fs1 b1 fs2 b2 o, consistent b -> num_value D <> 0 ->
  (forall s, In s (sections b) -> exists t f, max_thickness None (st s) = Ok t /\ max_camber (Some 500%Z) (st s) = Ok f) ->
  export_ppg float_str CannotOpen fs name D H nb false st b = (fs1, b1, o) ->
  export_ppg float_str Writable fs1 name D H nb false st b1 = (fs2, b2, Ok tt) ->
  nondimensional (num_value D) b b2.
Proof.
  intros float_str fs name D H nb st b fs1 b1 fs2 b2 o C N M E1 E2.
  destruct (export_failure float_str fs name D H nb st b C N M) as (text & b' & _ & ND & E & _).
  rewrite E in E1. injection E1 as <- <- <-. apply export_restores in E2. subst. auto.
Qed.

Lemma two_blade_measurable : consistent two_blade /\ forall s, In s (sections two_blade) ->
  exists t f, max_thickness None (foil_store s) = Ok t /\ max_camber (Some 500%Z) (foil_store s) = Ok f.
Proof. split; [apply two_blade_good|]. intros s _. apply foil3_measured. Qed.
