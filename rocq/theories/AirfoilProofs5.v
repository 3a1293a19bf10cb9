(** Proofs about whole profile objects: a translated profile, and an example. *)
From Coq Require Import String Reals List ZArith Lra Lia.
From Verif Require Import Base SolveProofs ProfileModel ProfileSpec ProfileProofs ProfileProofs2 ProfileProofs4 CustomModel CustomSpec CustomProofs CustomProofs2 CustomProofs3 CustomProofs4 NacaModel AirfoilModel AirfoilSpec AirfoilProofs AirfoilProofs2 AirfoilProofs3 AirfoilProofs4.
Import ListNotations.
Open Scope R_scope.

Lemma described_ok : forall {A} (x : A), described (Ok x).
Proof. intros. split; discriminate. Qed.

Section Run.
Variable am : profile -> R -> list R -> R -> list R -> res (list R).
Variable cu : list R -> list R -> list R -> res (list R).

Lemma shift_fixed : forall c l, l <> [] -> vshift c l = l -> c = 0.
Proof. intros c [|x l] N H; [congruence|]. cbn in H. injection H as H _. lra. Qed.

Lemma stale_after_translation : forall n v a p l, coords a = Ok p -> compute_chord_line n p = Ok l -> v <> (0, 0) ->
  exists a' l', runs am cu a [ComputeChordLine n; Translate v] a' /\ coords a' = Ok (translate v p) /\ chord a' = Is l /\
    compute_chord_line n (translate v p) = Ok l' /\ l' <> l.
Proof.
  intros n v a p [xs ys] HC HL NV. destruct (chord_run n a p HC) as (e & E & _). rewrite HL in E. cbn [bind] in E.
  exists (with_coords (translate v p) (with_chord (Is (xs, ys)) (with_edges e a))), (vshift (fst v) xs, vshift (snd v) ys).
  split; [|split; [apply coords_with_coords|split; [reflexivity|split; [apply chord_translate; exact HL|]]]].
  - econstructor; [cbn [perform]; unfold quiet, step, give; rewrite E; reflexivity|apply described_ok|].
    econstructor; [|apply (described_ok Nothing)|constructor]. cbn [perform]. unfold quiet, translate_, step, look, change, give. rewrite coords_with_chord, coords_with_edges, HC. reflexivity.
  - intros H. assert (H1 : vshift (fst v) xs = xs) by congruence. assert (H2 : vshift (snd v) ys = ys) by congruence. apply NV. destruct v as [vx vy]. cbn [fst snd] in *.
    apply chord_line_points in HL as (le & te & _ & _ & _ & HL & _). destruct xs as [|x xs], ys as [|y ys]; try discriminate.
    apply shift_fixed in H1; [|discriminate]. apply shift_fixed in H2; [|discriminate]. congruence.
Qed.
End Run.

(** A profile made from parameters. *)
Definition thin : profile := mkProfile [0; 1/2; 2] [0; 1/2; 2] [0; 1/5; 1/20] [0; 0; -(1/20)].
Definition thin_foil : airfoil := fresh Custom thin nparams None.
Lemma thin_new : forall am, new_custom am (keyed_params nparams) = Ok thin_foil.
Proof.
  intros am. unfold new_custom. rewrite (coord_not_param _ (proj1 (keyed_params_call nparams))).
  rewrite (custom_params am _ _ (keyed_params_call nparams)). unfold check_parameters. cbn [nparams camber_max thickness_max camber_percentage thickness_percentage chord_percentage List.length Nat.eqb negb].
  destruct (Rlt_dec (1/10) 0); [lra|]. destruct (Rlt_dec (1/5) 0); [lra|]. cbn [bind].
  assert (E : coordinates_british nparams = Ok thin).
  { unfold coordinates_british, nparams, vscale; simpl. apply f_equal, profile_eq; simpl; repeat (f_equal; try lra). }
  rewrite E. reflexivity.
Qed.
Lemma thin_coords : coords thin_foil = Ok thin.
Proof. reflexivity. Qed.
Lemma thin_edges : update_edges thin = Ok ((0, 0), (2, 0)).
Proof.
  apply update_edges_iff. exists 0, 0, 2, 2, 0, (1/20), (-(1/20)). cbn. rewrite !Rminus_diag_eq, Rabs_R0 by reflexivity.
  repeat split; try lra. repeat f_equal. lra.
Qed.
Lemma thin_chord : compute_chord_line None thin = Ok ([0; 1/2; 2], [0; 0; 0]).
Proof.
  unfold compute_chord_line. rewrite thin_edges. cbn [bind]. unfold fdiv. destruct (Req_EM_T (2 - 0) 0); [lra|]. cbn [bind].
  rewrite resolve_n_eq by reflexivity. cbn [bind truthy]. cbn [thin xup map]. repeat f_equal; lra.
Qed.
Lemma thin_params : forall am, generate_parameters am "british" thin = Ok nparams.
Proof.
  intros am. destruct (params_round_trip am nparams nparams_normalised) as (p & E & G).
  assert (E' : coordinates_british nparams = Ok thin).
  { unfold coordinates_british, nparams, vscale; simpl. apply f_equal, profile_eq; simpl; repeat (f_equal; try lra). }
  congruence.
Qed.
