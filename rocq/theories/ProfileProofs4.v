(** Thickness and camber under rigid moves; what is not invariant. *)
From Coq Require Import Reals List ZArith Lia Lra Bool String.
From Verif Require Import Base ProfileModel ProfileSpec RbfModel RbfProofs RbfProofs2 SolveModel SolveProofs ProfileProofs ProfileProofs2 ProfileProofs3.
Import ListNotations.
Open Scope R_scope.

#[global] Arguments Z.to_nat : simpl never.

Lemma max_thickness_direct : forall p, xup p = xdown p -> max_thickness None p =
  (let* t := vzip (fun a b => Rabs (a - b)) (yup p) (ydown p) in vmax t).
Proof. intros p E. unfold max_thickness. rewrite resolve_n_eq by auto. reflexivity. Qed.

Lemma vzip_len_err : forall {A B C A' B'} (f : A -> B -> C) (g : A' -> B' -> C) a b a' b',
  List.length a = List.length a' -> List.length b = List.length b' ->
  map2 f a b = map2 g a' b' -> vzip f a b = vzip g a' b'.
Proof. intros. unfold vzip. rewrite H, H0, H1. auto. Qed.

Lemma max_thickness_translate : forall v p, xup p = xdown p ->
  max_thickness None (translate v p) = max_thickness None p.
Proof.
  intros v p E. rewrite !max_thickness_direct by (simpl; congruence). simpl.
  replace (vzip (fun a b => Rabs (a - b)) (vshift (snd v) (yup p)) (vshift (snd v) (ydown p)))
     with (vzip (fun a b => Rabs (a - b)) (yup p) (ydown p)); auto.
  apply vzip_len_err; rewrite ?vshift_length; auto. unfold vshift. rewrite map2_map_l, map2_map_r.
  apply map2_ext. intros. f_equal. ring.
Qed.

Lemma max_thickness_affine : forall k v p t, xup p = xdown p -> max_thickness None p = Ok t ->
  max_thickness None (affine k v p) = Ok (Rabs k * t).
Proof.
  intros k v p t E H. rewrite max_thickness_direct in H by auto.
  rewrite max_thickness_direct by (simpl; congruence). simpl.
  apply bind_ok in H. destruct H as [th [Et H]]. apply vzip_inv in Et. destruct Et as [L ->].
  rewrite vzip_ok by (rewrite !map_length; auto). simpl bind.
  rewrite map2_map_l, map2_map_r.
  rewrite (map2_ext _ (fun a b => Rabs k * Rabs (a - b)))
    by (intros; rewrite <- Rabs_mult; f_equal; ring).
  rewrite <- (map_map2 (fun x => Rabs k * x) (fun a b => Rabs (a - b))).
  apply vmax_map_scale; auto. apply Rabs_pos.
Qed.

Lemma max_thickness_scaled : forall k b p q t, xup p = xdown p -> max_thickness None p = Ok t ->
  scale k b p = Ok q -> max_thickness None q = Ok (Rabs k * t).
Proof.
  intros k b p q t E H S. destruct b.
  - destruct (reference_point p) as [ref|e] eqn:R.
    + rewrite (scale_affine _ _ _ R) in S. injection S as <-. apply max_thickness_affine; auto.
    + unfold scale in S. rewrite R in S. discriminate.
  - injection S as <-.
    replace (scale_coords k p) with (affine k (0, 0) p).
    + apply max_thickness_affine; auto.
    + apply profile_eq; simpl; unfold vscale; apply map_ext; intros; ring.
Qed.

Lemma max_thickness_reflect : forall p, xup p = xdown p ->
  max_thickness None (reflect p) = max_thickness None p.
Proof.
  intros p E. rewrite !max_thickness_direct by (simpl; congruence). simpl.
  replace (vzip (fun a b => Rabs (a - b)) (vscale (-1) (yup p)) (vscale (-1) (ydown p)))
     with (vzip (fun a b => Rabs (a - b)) (yup p) (ydown p)); auto.
  apply vzip_len_err; rewrite ?vscale_length; auto. unfold vscale. rewrite map2_map_l, map2_map_r.
  apply map2_ext. intros. rewrite Rabs_minus_sym. f_equal. ring.
Qed.

(** Horizontal translation commutes with the interpolation, hence max_camber
    and the interpolated thickness do not change. *)
Lemma cdist_shift : forall t a b, cdist [a + t] [b + t] = cdist [a] [b].
Proof. intros. rewrite !cdist_1d. f_equal. ring. Qed.

Lemma weights_shift : forall b r t X Y,
  weights_matrix b r (column (vshift t X)) (column (vshift t Y)) = weights_matrix b r (column X) (column Y).
Proof.
  intros b r t X Y. unfold weights_matrix, column, vshift. rewrite !map_map.
  induction X as [|x X IH]; auto. cbn [map mapM]. rewrite IH.
  replace (mapM (fun y => eval_basis b (cdist [x + t] y) r) (map (fun a => [a + t]) Y))
    with (mapM (fun y => eval_basis b (cdist [x] y) r) (map (fun a => [a]) Y)); auto.
  clear IH. induction Y as [|y Y IH]; auto. cbn [map mapM]. rewrite IH, cdist_shift. auto.
Qed.

Lemma rec1d_shift : forall t x y xx out name r,
  reconstruct_1d (vshift t x) y (vshift t xx) out name r = reconstruct_1d x y xx out name r.
Proof.
  intros. unfold reconstruct_1d, reconstruct_f. destruct (basis_of_name name); auto. cbn [bind].
  rewrite !weights_shift. destruct (weights_matrix _ _ (column x) _); auto. cbn [bind].
  destruct (linalg_solve _ _); auto. cbn [bind].
  destruct (weights_matrix _ _ (column xx) _); auto. cbn [bind]. destruct x; auto.
Qed.

Lemma linspace_shift : forall t a b n, linspace (a + t) (b + t) n = vshift t (linspace a b n).
Proof.
  intros. unfold linspace, vshift. rewrite map_map. apply map_ext. intros.
  replace (b + t - (a + t)) with (b - a) by ring. ring.
Qed.

Lemma interpolate_translate_x : forall num r t p a b c d,
  interpolate_coordinates num r p = Ok (a, b, c, d) ->
  interpolate_coordinates num r (translate (t, 0) p) = Ok (vshift t a, vshift t b, c, d).
Proof.
  intros num r t p a b c d H. destruct num as [z|]; [|discriminate]. unfold interpolate_coordinates in *.
  destruct (Z.leb z 0); [discriminate|]. destruct (Rle_dec r 0); [discriminate|].
  repeat match goal with H : bind _ _ = Ok _ |- _ =>
      let a := fresh "q" in let E := fresh "E" in apply bind_ok in H; destruct H as [a [E H]] end.
  injection H as <- <- <- <-. simpl. unfold vshift at 1 2. rewrite first_map, final_map, E, E0. cbn [bind].
  rewrite linspace_shift, rec1d_shift, vshift_zero, E1. cbn [bind].
  unfold vshift at 1 2. rewrite first_map, final_map, E2, E3. cbn [bind].
  rewrite linspace_shift, rec1d_shift, vshift_zero, E4. cbn [bind]. auto.
Qed.

Lemma arrays_equal_shift : forall t a b, arrays_equal (vshift t a) (vshift t b) = arrays_equal a b.
Proof.
  intros t a b. unfold arrays_equal. rewrite !vshift_length. destruct (Nat.eqb _ _); auto. f_equal.
  revert b. induction a as [|x a IH]; destruct b as [|y b]; simpl; auto.
  destruct (Req_EM_T (x + t) (y + t)), (Req_EM_T x y); auto; lra.
Qed.

Lemma resolve_translate : forall n v p, resolve_n n (translate v p) = resolve_n n p.
Proof. intros. unfold resolve_n. simpl. rewrite arrays_equal_shift. auto. Qed.

Lemma max_thickness_translate_x : forall n t p m, max_thickness n p = Ok m ->
  max_thickness n (translate (t, 0) p) = Ok m.
Proof.
  intros n t p m H. unfold max_thickness in *. rewrite resolve_translate.
  apply bind_ok in H. destruct H as [n' [En H]]. rewrite En. cbn [bind].
  destruct (truthy n') as [z|].
  - apply bind_ok in H. destruct H as [[[[a b] c] d] [Ei H]].
    rewrite (interpolate_translate_x _ _ _ _ _ _ _ _ Ei). cbn [bind]. auto.
  - simpl. rewrite !vshift_zero. auto.
Qed.

Lemma chord_translate : forall n v p xs ys, compute_chord_line n p = Ok (xs, ys) ->
  compute_chord_line n (translate v p) = Ok (vshift (fst v) xs, vshift (snd v) ys).
Proof.
  intros n v p xs ys H. unfold compute_chord_line in *.
  apply bind_ok in H. destruct H as [[[lx ly] [tx ty]] [E H]].
  rewrite (translate_edges v _ _ _ E). cbn [bind padd fst snd].
  replace (tx + fst v - (lx + fst v)) with (tx - lx) by ring.
  replace (ty + snd v - (ly + snd v)) with (ty - ly) by ring.
  apply bind_ok in H. destruct H as [k [Ek H]]. rewrite Ek. cbn [bind].
  rewrite resolve_translate. apply bind_ok in H. destruct H as [n' [En H]]. rewrite En. cbn [bind].
  assert (M : forall l, map (fun x => k * (x - (lx + fst v)) + (ly + snd v)) (vshift (fst v) l) =
     vshift (snd v) (map (fun x => k * (x - lx) + ly) l)).
  { intros l. unfold vshift. rewrite !map_map. apply map_ext. intros; ring. }
  destruct (truthy n') as [z|].
  - destruct (Z.ltb z 0); [discriminate|]. injection H as <- <-. rewrite linspace_shift, M. auto.
  - injection H as <- <-. simpl. rewrite M. auto.
Qed.

Lemma max_camber_translate_x : forall n t p m, max_camber n p = Ok m ->
  max_camber n (translate (t, 0) p) = Ok m.
Proof.
  intros n t p m H. unfold max_camber in *.
  apply bind_ok in H. destruct H as [[hx hy] [Eh H]]. rewrite (chord_translate _ _ _ _ _ Eh). cbn [bind fst snd].
  rewrite vshift_zero.
  apply bind_ok in H. destruct H as [[cx cy] [Ec H]].
  assert (Ec' : compute_camber_line n (translate (t, 0) p) = Ok (vshift t cx, cy)).
  { unfold compute_camber_line in *. rewrite resolve_translate.
    apply bind_ok in Ec. destruct Ec as [n' [En Ec]]. rewrite En. cbn [bind].
    destruct (truthy n') as [z|].
    - apply bind_ok in Ec. destruct Ec as [[[[a b] c] d] [Ei Ec]].
      rewrite (interpolate_translate_x _ _ _ _ _ _ _ _ Ei). cbn [bind].
      apply bind_ok in Ec. destruct Ec as [ys [Ey Ec]]. rewrite Ey. injection Ec as <- <-. auto.
    - simpl. rewrite !vshift_zero. apply bind_ok in Ec. destruct Ec as [ys [Ey Ec]]. rewrite Ey. cbn [bind].
      rewrite vshift_length. destruct (Nat.eqb _ _); [|discriminate]. injection Ec as <- <-. auto. }
  rewrite Ec'. cbn [bind fst snd] in *.
  apply bind_ok in H. destruct H as [dx [Ex H]].
  assert (Ex' : vzip Rminus (vshift t hx) (vshift t cx) = Ok dx).
  { rewrite <- Ex. apply vzip_len_err; rewrite ?vshift_length; auto. unfold vshift. rewrite map2_map_l, map2_map_r.
    apply map2_ext. intros; ring. }
  rewrite Ex'. cbn [bind]. exact H.
Qed.

(** Vertical translation changes max_camber: the Wendland interpolant does not
    reproduce constants.  A flat plate of chord 2, lifted by 1. *)
Definition plate : profile := mkProfile [0; 2] [0; 2] [0; 0] [0; 0].

Lemma plate_surface : forall y0 y1 xs, reconstruct_1d [0; 2] [y0; y1] xs (zeros (List.length xs)) W 1 =
  Ok (map (fun x => y0 * phi Wendland (Rabs (x - 0)) 1 + y1 * phi Wendland (Rabs (x - 2)) 1) xs).
Proof.
  intros y0 y1 xs. unfold reconstruct_1d.
  assert (P0 : phi Wendland 0 1 = 1).
  { unfold phi. destruct (Rlt_dec 0 (1 - 0 / 1)); lra. }
  assert (P2 : phi Wendland 2 1 = 0).
  { unfold phi. destruct (Rlt_dec 0 (1 - 2 / 1)); lra. }
  rewrite (reconstruct_intro W Wendland 1 (column [0;2]) [y0;y1] (column xs) (zeros (List.length xs)) [y0; y1]).
  - rewrite column_length.
    assert (Lz : List.length (zeros (List.length xs)) = List.length xs) by apply repeat_length.
    rewrite firstn_all2, skipn_all2, app_nil_r by lia. f_equal.
    unfold column at 2. rewrite map_map.
    set (g := fun x => rbf_sum Wendland 1 (column [0; 2]) [y0; y1] [x]).
    change (map2 Rplus (zeros (List.length xs)) (map g xs) =
      map (fun x => y0 * phi Wendland (Rabs (x - 0)) 1 + y1 * phi Wendland (Rabs (x - 2)) 1) xs).
    rewrite <- (map_length g xs). rewrite map2_zeros_l. apply map_ext. intros x. unfold g, rbf_sum, column. cbn [map dot].
    rewrite !cdist_1d. ring.
  - reflexivity.
  - discriminate.
  - simpl. lra.
  - unfold column. cbn [map]. rewrite !cdist_1d.
    replace (Rabs (0 - 0)) with 0 by (rewrite Rminus_0_r, Rabs_R0; auto).
    replace (Rabs (2 - 2)) with 0 by (rewrite Rminus_diag_eq, Rabs_R0; auto).
    replace (Rabs (0 - 2)) with 2 by (rewrite Rabs_left; lra).
    replace (Rabs (2 - 0)) with 2 by (rewrite Rabs_right; lra).
    rewrite P0, P2.
    destruct (linalg_solve_ok_iff [[1; 0]; [0; 1]] [y0; y1]) as [_ K].
    { repeat constructor. } { reflexivity. }
    destruct K as [w Hw].
    { intros v Lv Hv. destruct v as [|v0 [|v1 [|]]]; try discriminate. unfold zeros in *. simpl in *.
      injection Hv. intros. f_equal; [lra|f_equal; lra]. }
    rewrite Hw. f_equal. apply linalg_solve_sound in Hw. destruct Hw as [Lw Hw].
    destruct w as [|w0 [|w1 [|]]]; try discriminate. simpl in Hw. injection Hw. intros. f_equal; [lra|f_equal; lra].
  - rewrite column_length. unfold zeros. rewrite repeat_length. auto.
Qed.

Lemma plate_interp : forall y z, (0 < z)%Z -> let p := mkProfile [0; 2] [0; 2] [y; y] [y; y] in
  let s := fun x => y * phi Wendland (Rabs (x - 0)) 1 + y * phi Wendland (Rabs (x - 2)) 1 in
  let xx := linspace 0 2 (Z.to_nat z) in
  interpolate_coordinates (PyInt z) 1 p = Ok (xx, xx, map s xx, map s xx).
Proof.
  intros y z Hz p s xx.
  assert (S : surface_ok 1 [0; 2] [y; y] (Z.to_nat z) xx (map s xx)).
  { exists 0, 2, s. repeat split; auto.
    - unfold s. cbn [map]. unfold phi.
      rewrite !Rminus_0_r, (Rminus_diag_eq 2 2), Rabs_R0, (Rabs_right 2) by lra.
      replace (Rabs (0 - 2)) with 2 by (rewrite Rabs_left; lra).
      destruct (Rlt_dec 0 (1 - 0 / 1)); [|lra]. destruct (Rlt_dec 0 (1 - 2 / 1)); [lra|].
      f_equal; [lra|f_equal; lra].
    - intros xs. apply plate_surface. }
  apply interpolate_intro; auto; lra.
Qed.

Lemma plate_max_camber : forall y, exists m, max_camber (Some 500%Z) (mkProfile [0; 2] [0; 2] [y; y] [y; y]) = Ok m /\
  (m = 0 <-> y = 0).
Proof.
  intros y. set (p := mkProfile [0; 2] [0; 2] [y; y] [y; y]).
  assert (Hz : (0 < 500)%Z) by lia. pose proof (plate_interp y 500 Hz) as Ei. cbv zeta in Ei. fold p in Ei.
  set (s := fun x => y * phi Wendland (Rabs (x - 0)) 1 + y * phi Wendland (Rabs (x - 2)) 1) in *.
  assert (Hn : exists n, n = Z.to_nat 500) by eauto. destruct Hn as [n Hn]. rewrite <- Hn in Ei. set (xx := linspace 0 2 n) in *.
  assert (Lx : List.length xx = n) by apply linspace_length.
  assert (Ec : compute_chord_line (Some 500%Z) p = Ok (xx, map (fun _ => y) xx)).
  { unfold compute_chord_line, update_edges, p. simpl. rewrite Rminus_diag_eq, Rabs_R0 by auto.
    unfold edge_tol. destruct (Rlt_dec (1 / 10000) 0); [lra|]. simpl.
    rewrite (Rminus_diag_eq 2 2), Rabs_R0 by auto. destruct (Rlt_dec (1 / 10000) 0); [lra|]. simpl.
    rewrite te_mid. unfold fdiv. destruct (Req_EM_T (2 - 0) 0); [lra|]. simpl.
    rewrite resolve_n_eq by auto. cbn [bind truthy]. change (500 =? 0)%Z with false. cbv iota.
    change (500 <? 0)%Z with false. cbv iota. rewrite <- Hn. fold xx. do 2 f_equal.
    apply map_ext. intros x. replace ((y + y) / 2 - y) with 0 by field. unfold Rdiv. ring. }
  assert (Em : compute_camber_line (Some 500%Z) p = Ok (xx, map s xx)).
  { rewrite (camber_line_interp 500 p _ _ _ _ Hz eq_refl Ei). do 2 f_equal. unfold mean.
    clear. induction xx as [|x l IH]; simpl; auto. f_equal; auto. field. }
  rewrite (max_camber_peak _ _ _ _ _ Ec Em) by (rewrite ?map_length; auto).
  set (dev := map2 Rminus (map s xx) (map (fun _ => y) xx)).
  assert (Ed : dev = map (fun x => s x - y) xx).
  { unfold dev. clear. induction xx as [|x l IH]; simpl; auto. f_equal; auto. }
  destruct (peak_ok dev) as [m Hm].
  { rewrite Ed. intros C. apply map_eq_nil in C. rewrite C in Lx. simpl in Lx. lia. }
  exists m. split; auto. destruct (peak_value _ _ Hm) as [I M]. split.
  - intros ->. rewrite Rabs_R0 in M.
    assert (H1 : In (s (0 + INR 1 * ((2 - 0) / INR (n - 1))) - y) dev).
    { rewrite Ed. apply (in_map (fun x => s x - y)). eapply nth_error_In. apply linspace_nth. lia. }
    apply M in H1.
    replace (INR (n - 1)) with 499 in H1.
    + replace (0 + INR 1 * ((2 - 0) / 499)) with (2 / 499) in H1 by (simpl; field).
      unfold s in H1. unfold phi in H1. rewrite Rminus_0_r in H1. rewrite (Rabs_right (2/499)) in H1 by lra.
      replace (Rabs (2 / 499 - 2)) with (996/499) in H1 by (rewrite Rabs_left; lra).
      destruct (Rlt_dec 0 (1 - 2 / 499 / 1)); [|lra]. destruct (Rlt_dec 0 (1 - 996/499/1)); [lra|].
      match type of H1 with Rabs ?t <= 0 => assert (H2 : t = 0) end.
      { pose proof (Rabs_pos (y * ((1 - 2 / 499 / 1) ^ 4 * (4 * (2 / 499 / 1) + 1)) + y * (0 * (4 * (996 / 499 / 1) + 1)) - y)).
        destruct (Req_dec (y * ((1 - 2 / 499 / 1) ^ 4 * (4 * (2 / 499 / 1) + 1)) + y * (0 * (4 * (996 / 499 / 1) + 1)) - y) 0); auto.
        apply Rabs_pos_lt in H0. lra. }
      lra.
    + rewrite INR_IZR_INZ. f_equal. lia.
  - intros ->. rewrite Ed in I. apply in_map_iff in I. destruct I as (x & <- & _). unfold s. ring.
Qed.

Lemma max_camber_translate_refuted : exists p v m, max_camber (Some 500%Z) p = Ok 0 /\
  max_camber (Some 500%Z) (translate v p) = Ok m /\ m <> 0.
Proof.
  exists plate, (0, 1).
  destruct (plate_max_camber 0) as (m0 & H0 & E0). destruct (plate_max_camber 1) as (m1 & H1 & E1).
  exists m1. unfold plate. replace m0 with 0 in H0 by (symmetry; tauto). split; auto. split; [|lra].
  rewrite <- H1. f_equal. apply profile_eq; simpl; unfold vshift; simpl; repeat f_equal; ring.
Qed.

(** ** Packaged statements *)
Lemma interpolate_result : forall z r p, (0 < z)%Z -> 0 < r -> paired p -> xup p <> [] -> xdown p <> [] ->
  NoDup (xup p) -> NoDup (xdown p) ->
  exists su sd x0 xn x0' xn',
    first (xup p) = Ok x0 /\ final (xup p) = Ok xn /\ first (xdown p) = Ok x0' /\ final (xdown p) = Ok xn' /\
    map su (xup p) = yup p /\ map sd (xdown p) = ydown p /\
    let xs := map (fun i => x0 + INR i * ((xn - x0) / INR (Z.to_nat z - 1))) (seq 0 (Z.to_nat z)) in
    let xs' := map (fun i => x0' + INR i * ((xn' - x0') / INR (Z.to_nat z - 1))) (seq 0 (Z.to_nat z)) in
    interpolate_coordinates (PyInt z) r p = Ok (xs, xs', map su xs, map sd xs').
Proof.
  intros z r p Hz Hr P N1 N2 D1 D2.
  destruct (interpolate_ok z r p Hz Hr P N1 N2 D1 D2) as (a & b & c & d & Ei).
  destruct (interpolate_inv _ _ _ _ _ _ _ Ei) as (_ & _ & (x0 & xn & s & F & L & E & S1 & S2 & S3) & (x0' & xn' & s' & F' & L' & E' & S1' & S2' & S3')).
  exists s, s', x0, xn, x0', xn'. repeat split; auto. simpl. rewrite Ei, S2, S2', E, E'. auto.
Qed.

Lemma interpolate_not_distinct : forall z r p, (0 < z)%Z -> 0 < r -> uniform p -> xup p <> [] ->
  ((exists q, interpolate_coordinates (PyInt z) r p = Ok q) <-> NoDup (xup p) /\ NoDup (xdown p)) /\
  (~ (NoDup (xup p) /\ NoDup (xdown p)) -> interpolate_coordinates (PyInt z) r p = Err LinAlgError).
Proof.
  intros z r p Hz Hr (L1 & L2 & L3) N.
  assert (N2 : xdown p <> []) by (intros C; rewrite C in L3; destruct (xup p); simpl in *; [congruence|lia]).
  destruct (first_ok _ N) as [x0 F]. destruct (final_ok _ N) as [xn L].
  destruct (first_ok _ N2) as [x0' F']. destruct (final_ok _ N2) as [xn' L'].
  unfold interpolate_coordinates. destruct (Z.leb_spec z 0); [lia|]. destruct (Rle_dec r 0); [lra|].
  rewrite F, L, F', L'. cbn [bind].
  set (xx := linspace x0 xn (Z.to_nat z)). set (xx' := linspace x0' xn' (Z.to_nat z)).
  assert (Lz : forall a b, List.length (zeros (Z.to_nat z)) = List.length (linspace a b (Z.to_nat z)))
    by (intros; unfold zeros; rewrite repeat_length, linspace_length; auto).
  destruct (wendland_iff r (xup p) (yup p) xx (zeros (Z.to_nat z)) Hr (eq_sym L1) (Lz _ _)) as [I1 J1].
  destruct (wendland_iff r (xdown p) (ydown p) xx' (zeros (Z.to_nat z)) Hr (eq_sym L2) (Lz _ _)) as [I2 J2].
  destruct (ListDec.NoDup_dec Req_EM_T (xup p)) as [D|D].
  - destruct (proj2 I1 D) as [o1 H1]. rewrite H1. cbn [bind].
    destruct (ListDec.NoDup_dec Req_EM_T (xdown p)) as [D'|D'].
    + destruct (proj2 I2 D') as [o2 H2]. rewrite H2. cbn [bind]. split; [split; eauto|]. tauto.
    + rewrite (J2 D'). cbn [bind]. split; auto. split; [intros [q Q]; discriminate|tauto].
  - rewrite (J1 D). cbn [bind]. split; auto. split; [intros [q Q]; discriminate|tauto].
Qed.

(** A cambered example profile, closed, on the x axis; the second abscissa is
    one of the 500 uniform samples. *)
Definition foil : profile := mkProfile [0; 1; 499] [0; 1; 499] [0; 2; 0] [0; -1; 0].

Lemma foil_ok : uniform foil /\ xup foil = xdown foil /\ NoDup (xup foil) /\ ref_position foil /\
  exists old, max_camber (Some 500%Z) foil = Ok old /\ old <> 0.
Proof.
  assert (U : uniform foil) by (repeat split).
  assert (ND : NoDup (xup foil)) by (simpl; repeat constructor; simpl; intuition lra).
  assert (P : ref_position foil).
  { split; [reflexivity|]. split; [reflexivity|]. exists 0, 0. simpl. repeat split; lra. }
  split; auto. split; [reflexivity|]. split; auto. split; auto.
  destruct (max_camber_ref 500 foil 0 499) as (xx & s & Sm & Hm); auto; try lia; try lra.
  destruct (surface_samples _ _ _ _ _ _ Sm) as (_ & L & Hx & Hn).
  destruct (peak_ok s) as [old Ho].
  { intros C. rewrite C in L. simpl in L. lia. }
  exists old. rewrite Hm. split; auto. intros ->.
  destruct (peak_value _ _ Ho) as [I M].
  assert (X1 : nth_error xx 1 = Some 1).
  { rewrite (Hx 0 499 eq_refl eq_refl) by lia. f_equal.
    replace (INR (Z.to_nat 500 - 1)) with 499 by (rewrite INR_IZR_INZ; f_equal; lia). simpl. field. }
  pose proof (Hn 1%nat 1%nat 1 ((2 + -1) / 2) eq_refl eq_refl X1) as S1.
  apply nth_error_In in S1. apply M in S1. rewrite Rabs_R0, Rabs_right in S1; lra.
Qed.
