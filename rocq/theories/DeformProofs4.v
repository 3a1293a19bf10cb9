(** Exporting and plotting. *)
From Coq Require Import String Reals List ZArith Ascii Bool Lra Lia.
From Verif Require Import Base ProfileProofs RbfModel RbfProofs RbfProofs2 SolveModel BsplineModel BsplineSpec BsplineProofs BsplineProofs2
  LstsqModel LstsqProofs TextModel TextProofs ParamsModel ParamsSpec ParamsProofs ParamsProofs2 ParamsProofs3 DeformModel DeformSpec DeformProofs DeformProofs2 DeformProofs3.
Import ListNotations.
Open Scope R_scope.

(** * Export *)
Definition exported_value (d : deform) (k : key) : option (list R) :=
  if forallb (fun x => if Req_EM_T x 0 then true else false) (at_key (deformations R (param d)) k)
  then at_key (parameters R (param d)) k else Some (at_key (deformed d) k).
Lemma export_loop : forall d ks q, (forall k, In k ks -> (0 <= at_key (nbasis R (param d)) k)%Z) -> NoDup ks ->
  exists q', for_each R (export_key d) ks q = (q', Ok tt) /\ radii R q' = radii R q /\
  (forall k, ~ In k ks -> at_key (parameters R q') k = at_key (parameters R q) k /\ at_key (nbasis R q') k = at_key (nbasis R q) k /\
     at_key (degree R q') k = at_key (degree R q) k /\ at_key (npoints R q') k = at_key (npoints R q) k /\ at_key (deformations R q') k = at_key (deformations R q) k) /\
  (forall k, In k ks -> at_key (parameters R q') k = exported_value d k /\ at_key (nbasis R q') k = at_key (nbasis R (param d)) k /\
     at_key (degree R q') k = at_key (nbasis R (param d)) k /\ at_key (npoints R q') k = at_key (npoints R (param d)) k /\
     at_key (deformations R q') k = zeros (Z.to_nat (at_key (nbasis R (param d)) k))).
Proof.
  intros d. induction ks as [|k ks IH]; intros q N ND; cbn [for_each].
  - exists q. split; auto. split; auto. split; auto. intros k [].
  - inversion ND; subst. unfold export_key at 1. pose proof (N k (or_introl eq_refl)) as P. destruct (Z.ltb_spec (at_key (nbasis R (param d)) k) 0); [lia|]. cbn [andthen].
    match goal with |- context [for_each R (export_key d) ks ?q1] => destruct (IH q1) as (q' & E & RQ & A & B); auto; [intros; apply N; right; auto|] end.
    exists q'. split; auto. split; auto. split.
    + intros j J. destruct (A j) as (A1 & A2 & A3 & A4 & A5); [simpl in J; tauto|]. rewrite A1, A2, A3, A4, A5. cbn. assert (j <> k) by (intros ->; apply J; left; auto).
      rewrite !at_other; auto.
    + intros j [<-|J]; [|auto]. destruct (A k) as (A1 & A2 & A3 & A4 & A5); auto. rewrite A1, A2, A3, A4, A5. cbn. rewrite !at_same. auto 10.
Qed.
Lemma zero_filled_id : forall cd (p : params R) k v, at_key (parameters R p) k = Some v -> at_key (parameters R (zero_filled cd p)) k = Some v.
Proof. intros cd p k v H. unfold zero_filled. cbn. destruct k; cbn in *; rewrite H; auto. Qed.

Lemma forallb_zero : forall l, forallb (fun x => if Req_EM_T x 0 then true else false) l = true <-> Forall (fun x => x = 0) l.
Proof. intros l. rewrite forallb_forall, Forall_forall. split; intros H x I; specialize (H x I); destruct (Req_EM_T x 0); auto; congruence. Qed.

Lemma export_ok : forall cd fs d f, sound d ->
  exists p, export_param_file cd fs d (AStr f) = (put fs f (show_params R cd p), Ok tt) /\ consistent p /\ populated p /\
    radii R p = radii R (param d) /\ forall k,
      (Forall (fun x => x = 0) (at_key (deformations R (param d)) k) -> at_key (parameters R p) k = at_key (parameters R (param d)) k) /\
      (~ Forall (fun x => x = 0) (at_key (deformations R (param d)) k) -> at_key (parameters R p) k = Some (at_key (deformed d) k)) /\
      at_key (nbasis R p) k = at_key (nbasis R (param d)) k /\ at_key (npoints R p) k = at_key (npoints R (param d)) k /\
      at_key (degree R p) k = at_key (nbasis R (param d)) k /\
      at_key (deformations R p) k = zeros (length (at_key (deformations R (param d)) k)).
Proof.
  intros cd fs d f S. destruct (sound_data d S) as (X & RX & XN & K).
  destruct (export_loop d keys (set_radii R (new_params R cd) (radii R (param d)))) as (q & E & RQ & _ & A); [|apply keys_nodup|].
  { intros k _. destruct (K k) as (Y & _ & _ & _ & P & _). lia. }
  cbn [set_radii radii] in RQ. 
  assert (VX : forall k, exists v, exported_value d k = Some v /\ length v = length X).
  { intros k. destruct (K k) as (Y & HY & LY & _ & _ & LD). unfold exported_value. destruct (forallb _ _); eauto. }
  assert (FK : forall k, fits_key (length X) q k).
  { intros k. destruct (K k) as (Y & HY & LY & NB & P & LD). destruct (A k (in_keys k)) as (A1 & A2 & A3 & A4 & A5). split.
    - intros v V. destruct (VX k) as (w & W1 & W2). congruence.
    - rewrite A2, A5, zeros_length, Z2Nat.id; auto. lia. }
  assert (RX' : radii R q = Some X) by congruence.
  pose proof (write_ok R cd fs q f X RX' FK) as W. unfold export_param_file. rewrite E, W.
  destruct (write_cases _ _ _ _ _ _ _ _ W) as [(Q & _)|[(Q & _)|(f' & _ & _ & _ & C & _)]]; try discriminate.
  exists (zero_filled cd q). split; auto. split; auto.
  assert (PK : forall k, at_key (parameters R (zero_filled cd q)) k = exported_value d k).
  { intros k. destruct (VX k) as (v & V & _). destruct (A k (in_keys k)) as (A1 & _). rewrite V in A1. rewrite (zero_filled_id _ _ _ _ A1). auto. }
  assert (FR : radii R (zero_filled cd q) = radii R q /\ nbasis R (zero_filled cd q) = nbasis R q /\ degree R (zero_filled cd q) = degree R q /\
     npoints R (zero_filled cd q) = npoints R q /\ deformations R (zero_filled cd q) = deformations R q) by (unfold zero_filled; cbn; auto).
  destruct FR as (F1 & F2 & F3 & F4 & F5). split; [|split; [congruence|]].
  - split; [rewrite F1, RX'; exact XN|]. intros k. destruct (K k) as (Y & HY & LY & NB & P & LD). destruct (A k (in_keys k)) as (_ & _ & _ & _ & A5).
    rewrite F5, A5. intros Q. apply (f_equal (@length R)) in Q. rewrite zeros_length in Q. simpl in Q. lia.
  - intros k. rewrite F2, F3, F4, F5, PK. destruct (K k) as (Y & HY & LY & NB & P & LD). destruct (A k (in_keys k)) as (A1 & A2 & A3 & A4 & A5). unfold exported_value.
    pose proof (forallb_zero (at_key (deformations R (param d)) k)) as FZ. split; [|split; [|split; [|split; [|split]]]]; auto.
    + intros Q. rewrite (proj2 FZ Q). auto.
    + intros Q. destruct (forallb _ _); auto. exfalso. apply Q, FZ. auto.
    + rewrite A5. f_equal. lia.
Qed.
Lemma export_error : forall cd fs d, sound d -> export_param_file cd fs d AOther = (fs, Err TypeError).
Proof.
  intros cd fs d S. destruct (sound_data d S) as (X & RX & XN & K).
  destruct (export_loop d keys (set_radii R (new_params R cd) (radii R (param d)))) as (q & E & _); [|apply keys_nodup|].
  { intros k _. destruct (K k) as (Y & _ & _ & _ & P & _). lia. }
  unfold export_param_file. rewrite E. auto.
Qed.
Lemma export_frame : forall cd fs d a g, a <> AStr g -> fst (export_param_file cd fs d a) g = fs g.
Proof.
  intros cd fs d a g N. unfold export_param_file. destruct (for_each R (export_key d) keys _) as [q [[]|e]]; auto.
  destruct (write_parameters R cd fs q a) as [fs' [p o]] eqn:W. cbn [fst].
  destruct (write_cases _ _ _ _ _ _ _ _ W) as [(_ & _ & -> & _)|[(_ & -> & _)|(f & _ & -> & -> & _)]]; auto.
  unfold put. rewrite eqb_str_neq; auto. congruence.
Qed.

(** Reading the exported file back. *)
Lemma export_read_back : forall cd fs d f fs' p, sound d -> export_param_file cd fs d (AStr f) = (fs', Ok tt) ->
  fs' f = Some (show_params R cd p) -> consistent p -> populated p -> all_printable cd p ->
  exists d2, new_deform cd fs' (AStr f) = (fs', Ok d2) /\ param d2 = p.
Proof.
  intros cd fs d f fs' p S E T C P PR. unfold new_deform. cbn [read_parameters]. rewrite T. rewrite (load_written R cd p _ C P PR).
  destruct (radii R p) as [r|] eqn:RR; [|destruct P as [P _]; rewrite RR in P; simpl in P; congruence]. eexists. split; eauto.
Qed.
Lemma reexport_useless : forall d name rbf, sound d -> (forall k, at_key (degree R (param d)) k = at_key (nbasis R (param d)) k) ->
  snd (compute_control_points d name rbf) <> Ok tt.
Proof.
  intros d name rbf S H E. destruct (compute_control_points d name rbf) as [d' o] eqn:E1. cbn [snd] in E. subst o.
  destruct (control_inv _ _ _ _ _ E1) as [[C _]|(k & _ & _ & _ & -> & _)]; [congruence|].
  pose proof (proj1 (control_success d k rbf S)) as Q. cbv zeta in Q. rewrite E1 in Q. destruct (Q eq_refl) as (_ & _ & L & _). rewrite H in L. lia.
Qed.

(** Number texts of the example codec. *)
Lemma up_whole : forall z, (up (IZR z) - 1)%Z = z.
Proof. intros z. assert (z + 1 = up (IZR z))%Z; [|lia]. apply tech_up; rewrite plus_IZR; lra. Qed.
Lemma whole_printable : forall z, printable whole_codec (IZR z).
Proof.
  intros z. destruct (int_printable z) as (A & B & C & D & E). unfold printable, whole_codec. cbn [c_show c_read] in *. rewrite up_whole.
  cbn [int_codec c_show c_read] in *. rewrite E. auto.
Qed.

(** * Plotting *)
Lemma check_deformed_ok : forall v, check_deformed v = Ok tt <-> Forall (fun x => x <> 0) v.
Proof.
  intros v. unfold check_deformed. destruct (existsb _ v) eqn:E; split; intros H; try discriminate; auto.
  - exfalso. apply existsb_exists in E. destruct E as (x & I & Q). rewrite Forall_forall in H. apply (H x I). destruct (Req_EM_T x 0); auto; discriminate.
  - apply Forall_forall. intros x I Q. assert (existsb (fun x => if Req_EM_T x 0 then true else false) v = true); [|congruence].
    apply existsb_exists. exists x. split; auto. destruct (Req_EM_T x 0); auto.
Qed.
Lemma check_deformed_err : forall v, check_deformed v = Ok tt \/ check_deformed v = Err ValueError.
Proof. intros v. unfold check_deformed. destruct (existsb _ v); auto. Qed.

Definition series_of (d : deform) (o : plot_options) (k : key) (s : series) : res (list pt) :=
  let p := param d in
  let X := given (radii R p) Unmodelled in
  let Y := given (at_key (parameters R p) k) Unmodelled in
  match s with
  | Original => let* X := X in let* Y := Y in points X Y
  | ControlPoints => given (at_key (control d) k) ValueError
  | Spline => given (at_key (curve d) k) ValueError
  | Rbf => let* X := X in let* Y := Y in
              let* x0 := first X in let* xn := final X in
              if (rbf_points o <? 0)%Z then Err ValueError else
              let n := Z.to_nat (rbf_points o) in
              let xx := linspace x0 xn n in
              let* yy := reconstruct_1d X Y xx (zeros n) "beckert_wendland_c2_basis"%string 2 in
              points xx yy
  | Deformed => let* _ := check_deformed (at_key (deformed d) k) in let* X := X in points X (at_key (deformed d) k)
  end.
Lemma plot_key_mapM : forall d o out k, plot_key d o out k =
  let* l := mapM (fun s => let* p := series_of d o k s in Ok (s, p)) (wanted o) in let* w := target out in Ok (l, w).
Proof.
  intros d o out k. unfold plot_key, wanted, draw.
  change (let* X := given (radii R (param d)) Unmodelled in let* Y := given (at_key (parameters R (param d)) k) Unmodelled in points X Y) with (series_of d o k Original).
  change (given (at_key (control d) k) ValueError) with (series_of d o k ControlPoints).
  change (given (at_key (curve d) k) ValueError) with (series_of d o k Spline).
  match goal with |- context [if rbf o then (let* p := ?e in _) else _] => change e with (series_of d o k Rbf) end.
  match goal with |- context [if show_deformed o then (let* p := ?e in _) else _] => change e with (series_of d o k Deformed) end.
  destruct (original o), (ctrl_points o), (spline o), (rbf o), (show_deformed o); cbn [app mapM bind];
  repeat match goal with |- context [series_of d o k ?s] => destruct (series_of d o k s); cbn [app mapM bind]; auto end; destruct out; auto.
Qed.
Lemma points_ok : forall a b, length a = length b -> points a b = Ok (combine a b).
Proof. intros a b H. unfold points. rewrite H, Nat.eqb_refl. auto. Qed.
Lemma final_ok : forall (X : list R), X <> [] -> final X = Ok (last X 0).
Proof. intros X N. destruct (exists_last N) as (l & a & ->). rewrite final_last, last_last. auto. Qed.
Lemma first_ok : forall (X : list R), X <> [] -> first X = Ok (nth 0 X 0).
Proof. destruct X; [congruence|auto]. Qed.
Lemma linspace_len : forall a b n, length (linspace a b n) = n.
Proof. intros. apply linspace_length. Qed.

Ltac same := repeat match goal with A : ?x = Some ?a, B : ?x = Some ?b |- _ => rewrite A in B; injection B as B; try subst a; try subst b end; auto.
Lemma series_depicts : forall d o k s p, sound d -> (series_of d o k s = Ok p <-> depicts d (rbf_points o) k s p).
Proof.
  intros d o k s p S. destruct (sound_data d S) as (X & RX & XN & K). destruct (K k) as (Y & HY & LY & NB & NP & LD).
  destruct s; cbn [series_of]; rewrite ?RX, ?HY; cbn [given bind].
  - rewrite points_ok by auto. split; [intros H; injection H as <-; econstructor; eauto|]. intros H. inversion H; subst. same.
  - destruct (at_key (control d) k) as [cv|] eqn:C; cbn [given].
    + split; [intros H; injection H as <-; constructor; auto|]. intros H; inversion H; subst. same.
    + split; [discriminate|]. intros H; inversion H; subst. congruence.
  - destruct (at_key (curve d) k) as [cv|] eqn:C; cbn [given].
    + split; [intros H; injection H as <-; constructor; auto|]. intros H; inversion H; subst. same.
    + split; [discriminate|]. intros H; inversion H; subst. congruence.
  - rewrite (first_ok X XN), (final_ok X XN). cbn [bind]. destruct (Z.ltb_spec (rbf_points o) 0) as [Q|Q].
    + split; [discriminate|]. intros H; inversion H; subst. lia.
    + set (xx := linspace (nth 0 X 0) (last X 0) (Z.to_nat (rbf_points o))).
      destruct (reconstruct_1d X Y xx _ _ _) as [yy|e] eqn:RC; cbn [bind].
      * assert (LL : length xx = length yy) by (symmetry; eapply reconstruct_1d_length; eauto; unfold xx; rewrite linspace_len; apply zeros_length).
        rewrite (points_ok _ _ LL). split; [intros H; injection H as <-; econstructor; eauto|]. intros H. inversion H; subst. rewrite RX in H0. rewrite HY in H1. injection H0 as <-. injection H1 as <-.
        fold xx in H3. rewrite RC in H3. injection H3 as <-. auto.
      * split; [discriminate|]. intros H. inversion H; subst. rewrite RX in H0. rewrite HY in H1. injection H0 as <-. injection H1 as <-. fold xx in H3. congruence.
  - destruct (check_deformed_err (at_key (deformed d) k)) as [E|E]; rewrite E; cbn [bind].
    + rewrite points_ok by auto. apply check_deformed_ok in E. split; [intros H; injection H as <-; constructor; auto|]. intros H. inversion H; subst. same.
    + split; [discriminate|]. intros H. inversion H; subst. apply check_deformed_ok in H1. congruence.
Qed.
Lemma mapM_tag : forall {A B} (f : A -> res B) (l : list A) r,
  mapM (fun s => let* p := f s in Ok (s, p)) l = Ok r <-> map fst r = l /\ Forall (fun q => f (fst q) = Ok (snd q)) r.
Proof.
  intros A B f. induction l as [|a l IH]; intros r; cbn [mapM].
  - split; [intros H; injection H as <-; auto|]. intros [H _]. destruct r; [auto|discriminate].
  - split.
    + intros H. apply bind_ok in H. destruct H as (x & H1 & H). apply bind_ok in H1. destruct H1 as (p & F & H1). injection H1 as <-.
      apply bind_ok in H. destruct H as (r' & H2 & H). injection H as <-. apply IH in H2. destruct H2 as [M FA]. simpl. split; [congruence|]. constructor; auto.
    + intros [M FA]. destruct r as [|[a' p] r]; [discriminate|]. simpl in M. injection M as -> M. pose proof (Forall_inv FA) as F1. apply Forall_inv_tail in FA. simpl in F1. rewrite F1. cbn [bind].
      rewrite (proj2 (IH r) (conj M FA)). auto.
Qed.
Lemma plot_spec : forall d o out k fig w, sound d ->
  (plot_parametric_curve d o out (key_name k) = Ok (fig, w) <->
   target out = Ok w /\ map fst fig = wanted o /\ Forall (fun q => depicts d (rbf_points o) k (fst q) (snd q)) fig).
Proof.
  intros d o out k fig w S. unfold plot_parametric_curve. rewrite check_name_key. cbn [bind]. rewrite plot_key_mapM. split.
  - intros H. apply bind_ok in H. destruct H as (l & M & H). apply bind_ok in H. destruct H as (w' & T & H). injection H as <- <-. split; auto.
    apply mapM_tag in M. destruct M as [M F]. split; auto. eapply Forall_impl; [|exact F]. intros q. apply series_depicts; auto.
  - intros (T & M & F). rewrite T.
    assert (E : mapM (fun s => let* p := series_of d o k s in Ok (s, p)) (wanted o) = Ok fig).
    { apply mapM_tag. split; auto. eapply Forall_impl; [|exact F]. intros q. apply series_depicts; auto. }
    rewrite E. auto.
Qed.
Lemma mapM_app_ok : forall {A B} (f : A -> res B) l l', mapM f (l ++ l') = let* a := mapM f l in let* b := mapM f l' in Ok (a ++ b).
Proof.
  intros A B f. induction l as [|x l IH]; intros l'; cbn [app mapM bind].
  - destruct (mapM f l'); auto.
  - destruct (f x); cbn [bind]; auto. rewrite IH. destruct (mapM f l); cbn [bind]; auto. destruct (mapM f l'); auto.
Qed.
Lemma plot_deformed_only : forall d o out k, sound d -> original o = false -> ctrl_points o = false -> spline o = false -> rbf o = false -> show_deformed o = true ->
  out <> NotAString ->
  ((exists x, In x (at_key (deformed d) k) /\ x = 0) <-> plot_parametric_curve d o out (key_name k) = Err ValueError).
Proof.
  intros d o out k S A B C D E N. destruct (sound_data d S) as (X & RX & XN & K). destruct (K k) as (Y & HY & LY & NB & NP & LD).
  unfold plot_parametric_curve. rewrite check_name_key. cbn [bind]. unfold plot_key. rewrite A, B, C, D, E. cbn [draw bind].
  destruct (check_deformed_err (at_key (deformed d) k)) as [Q|Q]; rewrite Q; cbn [bind]; rewrite ?RX; cbn [given bind].
  - rewrite points_ok by auto. cbn [bind app]. split; [|destruct out; congruence]. intros (x & I & Z). apply check_deformed_ok in Q. rewrite Forall_forall in Q. destruct (Q x I); auto.
  - split; auto. intros _. unfold check_deformed in Q. destruct (existsb _ _) eqn:EX; [|discriminate]. apply existsb_exists in EX. destruct EX as (x & I & Z). exists x. split; auto.
    destruct (Req_EM_T x 0); auto; discriminate.
Qed.

(** * Objects changed by hand *)
Theorem control_no_radii : forall d k rbf, radii R (param d) = None -> compute_control_points d (key_name k) rbf = (d, Err TypeError).
Proof. intros d k rbf H. unfold compute_control_points. rewrite check_name_key, H. reflexivity. Qed.

Theorem export_negative : forall cd fs d a k, (at_key (nbasis R (param d)) k < 0)%Z -> export_param_file cd fs d a = (fs, Err ValueError).
Proof.
  intros cd fs d a k H. unfold export_param_file.
  assert (Q : forall ks p, In k ks -> exists p', for_each R (export_key d) ks p = (p', Err ValueError)).
  { induction ks as [|k' ks IH]; intros p I; [destruct I|]. cbn [for_each]. unfold export_key at 1. 
    destruct (Z.ltb_spec (at_key (nbasis R (param d)) k') 0) as [L|L]; [eexists; reflexivity|].
    destruct I as [->|I]; [lia|]. cbn [andthen]. apply IH, I. }
  destruct (Q keys (set_radii R (new_params R cd) (radii R (param d)))) as (p' & ->); [destruct k; cbn; auto 10|reflexivity].
Qed.
