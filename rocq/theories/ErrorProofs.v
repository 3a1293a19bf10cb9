(** Refused calls: nameless options, scaling an incomplete blade, too few control points. *)
From Coq Require Import Reals String List ZArith Ascii Bool Lia Lra.
From Verif Require Import Base BladeModel BladeSpec BladeProofs5 TextModel TextSpec TextProofs TextProofs2 ParamsModel ParamsSpec
  ParamsProofs3 TextProofs3 DeformModel DeformProofs3 DeformProofs2.
Import ListNotations.

Lemma nameless_option : forall F (cd : codec F) q a d v b, d = "="%char \/ d = ":"%char -> Forall one_line (a ++ (d :: v) :: b) ->
  load F cd q (text_of (a ++ (d :: v) :: b)) = (q, Err ConfigError).
Proof.
  intros F cd q a d v b D O. apply load_refused; [exact O|]. intros st H. rewrite read_lines_app in H.
  destruct (read_lines start a) as [s1|] eqn:E1; [|discriminate]. cbn [bind read_lines] in H.
  assert (W : is_ws d = false /\ is_delim d = true /\ d <> "#"%char /\ d <> ";"%char) by (destruct D as [->| ->]; repeat split; discriminate).
  destruct W as (W & DD & N1 & N2). rewrite column0, rstrip_cons in H by auto.
  destruct (read_header s1 0 (d :: rstrip v)) as [s2|] eqn:E2; [|discriminate]. cbn [bind] in H.
  apply kept_lines in H. destruct H as (_ & _ & _ & K). apply K. unfold read_header in E2.
  assert (HO : header_of (d :: rstrip v) = None) by (destruct D as [->| ->]; reflexivity). rewrite HO in E2.
  destruct (p_sect s1) as [s|]; [|discriminate]. cbn [option_of] in E2. rewrite DD in E2.
  destruct (lookup _ _); [discriminate|]. injection E2 as <-. cbn [p_bad rstrip lstrip rev]. apply orb_true_r.
Qed.

Open Scope R_scope.
Lemma scale_without_coordinates : forall k b, coordinates b = NoCoords -> blade_scale k b = (b, Err TypeError).
Proof. intros k b E. unfold blade_scale. rewrite E. reflexivity. Qed.
Lemma scale_without_faces : forall k b up down, coordinates b = Built up down -> upper_face b = None -> k <> 0 ->
  exists b', blade_scale k b = (b', Err TypeError) /\ coords_moved (scale3 k) b b' /\ same_faces b b'.
Proof.
  intros k b up down E N K. unfold blade_scale. rewrite E. destruct (Req_EM_T k 0); [contradiction|].
  rewrite transform_faces_none by exact N. eexists. split; [reflexivity|]. split; [|repeat split]. exists up, down. auto.
Qed.

Lemma few_control_points : forall d k rbf X Y, rbf = None \/ (exists x, rbf = Some (PyFloat x) /\ x < 1) \/ (exists n, rbf = Some (PyInt n) /\ (n <= 0)%Z) ->
  radii R (param d) = Some X -> at_key (parameters R (param d)) k = Some Y -> (at_key (nbasis R (param d)) k < 2)%Z ->
  compute_control_points d (key_name k) rbf = (d, Err ValueError).
Proof.
  intros d k rbf X Y O EX EY N. rewrite (resampling_off d (key_name k) rbf O). unfold compute_control_points. rewrite check_name_key, EX, EY.
  unfold optimum_control_points, fit_data. cbn [rbf_count]. destruct (Z.ltb_spec 0 0); [lia|]. cbn [bind].
  destruct (Z.ltb_spec (at_key (nbasis R (param d)) k) 2); [reflexivity|lia].
Qed.
