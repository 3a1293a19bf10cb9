From Coq Require Import Reals List String Ascii Bool ZArith Lia Lra.
From Coq Require Import List.
From Verif Require Import Base ProfileProofs BladeSpec ShaftModel ShaftSpec.
Import ListNotations.

(** ** Text *)
Lemma rfind_from_none : forall c l i f, ~ In c l -> rfind_from c l i f = f.
Proof.
  intros c l. induction l as [|a l IH]; intros i f N; [reflexivity|]. cbn [rfind_from]. destruct (Ascii.eqb a c) eqn:E.
  - apply Ascii.eqb_eq in E. exfalso. apply N. left. exact E.
  - apply IH. intros I. apply N. right. exact I.
Qed.
Lemma rfind_from_some : forall c u v i f, ~ In c v -> rfind_from c (u ++ c :: v) i f = (i + Z.of_nat (List.length u))%Z.
Proof.
  intros c u v. induction u as [|a u IH]; intros i f N; cbn [app rfind_from List.length].
  - rewrite Ascii.eqb_refl, rfind_from_none by exact N. lia.
  - rewrite IH by exact N. lia.
Qed.
Lemma rfind_none : forall c l, ~ In c l -> rfind c l = (-1)%Z.
Proof. intros. apply rfind_from_none. assumption. Qed.
Lemma rfind_some : forall c u v, ~ In c v -> rfind c (u ++ c :: v) = Z.of_nat (List.length u).
Proof. intros. unfold rfind. rewrite rfind_from_some by assumption. lia. Qed.
Lemma last_occurrence : forall (c : ascii) l, In c l -> exists u v, l = u ++ c :: v /\ ~ In c v.
Proof.
  intros c l. induction l as [|a l IH]; [intros []|]. intros I. destruct (in_dec ascii_dec c l) as [I'|N].
  - destruct (IH I') as (u & v & -> & N). exists (a :: u), v. auto.
  - destruct I as [->|I]; [|contradiction]. exists [], l. auto.
Qed.
Lemma non_dot_spec : forall stem dir rest,
  non_dot (dir ++ stem ++ rest) (List.length dir) (List.length stem) = existsb (fun c => negb (Ascii.eqb c ".")) stem.
Proof.
  induction stem as [|c stem IH]; intros dir rest; [reflexivity|]. cbn [List.length non_dot existsb app].
  rewrite nth_error_app2 by lia. rewrite Nat.sub_diag. cbn [nth_error].
  destruct (negb (Ascii.eqb c ".")); [reflexivity|]. cbn [orb]. specialize (IH (dir ++ [c]) rest).
  rewrite app_length in IH. cbn [List.length] in IH. rewrite Nat.add_1_r, <- app_assoc in IH. exact IH.
Qed.
(** The directory part: empty or ended by a slash. *)
Definition is_dir (dir : list ascii) : Prop := dir = [] \/ exists d, dir = d ++ ["/"%char].
Lemma sep_of : forall dir base, is_dir dir -> ~ In "/"%char base -> (rfind "/" (dir ++ base) + 1)%Z = Z.of_nat (List.length dir).
Proof.
  intros dir base [->|(d & ->)] N.
  - cbn [app]. rewrite rfind_none by exact N. reflexivity.
  - rewrite <- app_assoc. cbn [app]. rewrite rfind_some by exact N. rewrite app_length. cbn [List.length]. lia.
Qed.
Lemma split_dir : forall p, exists dir base, p = dir ++ base /\ is_dir dir /\ ~ In "/"%char base.
Proof.
  intros p. destruct (in_dec ascii_dec "/"%char p) as [I|N].
  - destruct (last_occurrence _ _ I) as (u & v & -> & N). exists (u ++ ["/"%char]), v. split; [rewrite <- app_assoc; reflexivity|]. split; [right; eauto|exact N].
  - exists [], p. repeat split; [left; reflexivity|exact N].
Qed.
Lemma splitext_ext : forall dir stem ext, is_dir dir -> ~ In "/"%char stem -> ~ In "/"%char ext -> ~ In "."%char ext ->
  splitext (dir ++ stem ++ "."%char :: ext) =
    if existsb (fun c => negb (Ascii.eqb c ".")) stem then (dir ++ stem, "."%char :: ext) else (dir ++ stem ++ "."%char :: ext, []).
Proof.
  intros dir stem ext D N1 N2 N3. unfold splitext.
  assert (NB : ~ In "/"%char (stem ++ "."%char :: ext)).
  { intros I. apply in_app_or in I as [I|[I|I]]; [contradiction|discriminate|contradiction]. }
  pose proof (sep_of dir _ D NB) as S.
  assert (DT : rfind "." (dir ++ stem ++ "."%char :: ext) = Z.of_nat (List.length (dir ++ stem))) by (rewrite app_assoc; apply rfind_some; exact N3).
  rewrite DT, app_length. destruct (Z.ltb_spec (rfind "/" (dir ++ stem ++ "."%char :: ext)) (Z.of_nat (List.length dir + List.length stem))) as [L|L]; [|lia].
  rewrite S, !Nat2Z.id. replace (List.length dir + List.length stem - List.length dir)%nat with (List.length stem) by lia.
  rewrite non_dot_spec. destruct (existsb _ stem); [|reflexivity].
  rewrite app_assoc, <- app_length, firstn_app, firstn_all, Nat.sub_diag, firstn_O, app_nil_r, skipn_app, skipn_all, Nat.sub_diag. reflexivity.
Qed.
Lemma splitext_none : forall dir base, is_dir dir -> ~ In "/"%char base -> ~ In "."%char base -> splitext (dir ++ base) = (dir ++ base, []).
Proof.
  intros dir base D N1 N2. unfold splitext. pose proof (sep_of dir base D N1) as SP.
  assert (L : (rfind "." (dir ++ base) <= rfind "/" (dir ++ base))%Z).
  { destruct (in_dec ascii_dec "."%char dir) as [I|N].
    - destruct (last_occurrence _ _ I) as (u & v & E & N). rewrite E, <- app_assoc. cbn [app]. rewrite rfind_some.
      + rewrite E in SP. rewrite <- app_assoc in SP. cbn [app] in SP.
        assert (LD : (S (List.length u) <= List.length dir)%nat) by (rewrite E, app_length; cbn; lia).
        destruct D as [->|(d & ED)]; [destruct u; discriminate|].
        assert (v <> []). { intros ->. rewrite ED in E. apply app_inj_tail in E as (_ & E). discriminate. }
        assert (2 <= List.length (("."%char) :: v))%nat by (destruct v; [contradiction|cbn; lia]).
        rewrite app_length in SP. cbn [List.length] in *. lia.
      + intros I'. apply in_app_or in I' as [I'|I']; contradiction.
    - rewrite (rfind_none "."). lia. intros I'. apply in_app_or in I' as [I'|I']; contradiction. }
  destruct (Z.ltb_spec (rfind "/" (dir ++ base)) (rfind "." (dir ++ base))); [lia|reflexivity].
Qed.
Definition lext (p ext : list ascii) : Prop :=
  exists dir stem, p = dir ++ stem ++ "."%char :: ext /\ is_dir dir /\ ~ In "/"%char stem /\ ~ In "/"%char ext /\ ~ In "."%char ext /\
    exists c, In c stem /\ c <> "."%char.
Lemma lext_split : forall p ext, lext p ext -> snd (splitext p) = "."%char :: ext.
Proof.
  intros p ext (dir & stem & -> & D & N1 & N2 & N3 & c & I & NC). rewrite splitext_ext by assumption.
  replace (existsb (fun c => negb (Ascii.eqb c ".")) stem) with true; [reflexivity|]. symmetry. apply existsb_exists. exists c. split; [exact I|].
  apply negb_true_iff. destruct (Ascii.eqb_spec c "."); [contradiction|reflexivity].
Qed.
Lemma split_lext : forall p e, e <> [] -> skipn 1 (snd (splitext p)) = e -> lext p e.
Proof.
  intros p e NE H. destruct (split_dir p) as (dir & base & -> & D & NB). destruct (in_dec ascii_dec "."%char base) as [I|N].
  - destruct (last_occurrence _ _ I) as (stem & ext & -> & NX).
    assert (N1 : ~ In "/"%char stem) by (intros J; apply NB, in_or_app; left; exact J).
    assert (N2 : ~ In "/"%char ext) by (intros J; apply NB, in_or_app; right; right; exact J).
    rewrite splitext_ext in H by assumption. destruct (existsb _ stem) eqn:E.
    + cbn [snd skipn] in H. subst e. apply existsb_exists in E as (c & IC & EC). exists dir, stem. repeat split; auto. exists c. split; [exact IC|].
      intros ->. discriminate.
    + cbn in H. subst e. contradiction.
  - rewrite splitext_none in H by assumption. cbn in H. subst e. contradiction.
Qed.
Lemma ascii_app : forall a b, list_ascii_of_string (a ++ b) = list_ascii_of_string a ++ list_ascii_of_string b.
Proof. induction a as [|c a IH]; intros b; [reflexivity|]. cbn [String.append list_ascii_of_string app]. rewrite IH. reflexivity. Qed.
Lemma ascii_inj : forall a b, list_ascii_of_string a = list_ascii_of_string b -> a = b.
Proof. intros a b H. rewrite <- (string_of_list_ascii_of_string a), H. apply string_of_list_ascii_of_string. Qed.
Lemma lext_iff : forall p ext, has_extension p ext <-> lext (list_ascii_of_string p) (list_ascii_of_string ext).
Proof.
  intros p ext. unfold has_extension, lext, contains, is_dir. split.
  - intros (dir & stem & -> & D & N1 & N2 & N3 & c & I & NC). exists (list_ascii_of_string dir), (list_ascii_of_string stem).
    rewrite !ascii_app. split; [reflexivity|]. split; [|eauto 10]. destruct D as [->|(d & ->)]; [left; reflexivity|right; exists (list_ascii_of_string d); apply ascii_app].
  - intros (dir & stem & E & D & N1 & N2 & N3 & c & I & NC). exists (string_of_list_ascii dir), (string_of_list_ascii stem).
    rewrite !list_ascii_of_string_of_list_ascii. split; [apply ascii_inj; rewrite !ascii_app, !list_ascii_of_string_of_list_ascii; exact E|]. split; [|eauto 10].
    destruct D as [->|(d & ->)]; [left; reflexivity|right; exists (string_of_list_ascii d)]. apply ascii_inj. rewrite ascii_app, !list_ascii_of_string_of_list_ascii. reflexivity.
Qed.
Lemma extension_found : forall f e, e <> ""%string ->
  (skipn 1 (snd (splitext (list_ascii_of_string f))) = list_ascii_of_string e <-> has_extension f e).
Proof.
  intros f e NE. rewrite lext_iff. split.
  - apply split_lext. destruct e; [contradiction|discriminate].
  - intros H. rewrite (lext_split _ _ H). reflexivity.
Qed.
Lemma extension_unique : forall f e e', has_extension f e -> has_extension f e' -> e = e'.
Proof.
  intros f e e' H H'. apply lext_iff, lext_split in H. apply lext_iff, lext_split in H'. rewrite H in H'. injection H' as H'. apply ascii_inj. exact H'.
Qed.
(** The two parts. *)
Lemma splitext_parts : forall f, let (root, ext) := splitext (list_ascii_of_string f) in
  (root ++ ext)%list = list_ascii_of_string f /\ (ext = [] \/ exists e, ext = "."%char :: list_ascii_of_string e /\ has_extension f e).
Proof.
  intros f. destruct (split_dir (list_ascii_of_string f)) as (dir & base & E & D & NB). rewrite E. destruct (in_dec ascii_dec "."%char base) as [I|N].
  - destruct (last_occurrence _ _ I) as (stem & ext & -> & NX).
    assert (N1 : ~ In "/"%char stem) by (intros J; apply NB, in_or_app; left; exact J).
    assert (N2 : ~ In "/"%char ext) by (intros J; apply NB, in_or_app; right; right; exact J).
    rewrite splitext_ext by assumption. destruct (existsb _ stem) eqn:EX; [|rewrite app_nil_r; auto].
    rewrite app_assoc. split; [reflexivity|]. right. exists (string_of_list_ascii ext). rewrite list_ascii_of_string_of_list_ascii. split; [reflexivity|].
    apply lext_iff. rewrite list_ascii_of_string_of_list_ascii, E. apply existsb_exists in EX as (c & IC & EC). exists dir, stem. repeat split; auto.
    exists c. split; [exact IC|]. intros ->. discriminate.
  - rewrite splitext_none by assumption. rewrite app_nil_r. auto.
Qed.

(** ** Shaft *)
Lemma shaft_stl : forall status shape solid (k : kernel status shape solid) f, has_extension f "stl" ->
  (forall x, read_stl k f = Err x -> shaft_solid k f = ([Stl f], Err x)) /\
  (forall s, read_stl k f = Ok s -> fst (shaft_solid k f) = [Stl f; Sewn] /\
     forall v, snd (shaft_solid k f) = Ok v <-> exists sh, sew k (1 / 100)%R s = Ok sh /\ make_solid k sh = Ok (Some v)).
Proof.
  intros status shape solid k f H. apply extension_found in H; [|discriminate]. unfold shaft_solid. rewrite H.
  destruct (list_eq_dec ascii_dec (list_ascii_of_string "stl") (list_ascii_of_string "stl")) as [_|N]; [|contradiction]. split.
  - intros x ->. reflexivity.
  - intros s ->. split; [reflexivity|]. intros v. cbn [snd]. destruct (sew k _ s) as [sh|e]; cbn [bind].
    + destruct (make_solid k sh) as [[w|]|e] eqn:E; cbn [bind]; split; intros Q.
      * injection Q as ->. eauto.
      * destruct Q as (sh' & [= <-] & Q). rewrite E in Q. injection Q as ->. reflexivity.
      * discriminate.
      * destruct Q as (sh' & [= <-] & Q). rewrite E in Q. discriminate.
      * discriminate.
      * destruct Q as (sh' & [= <-] & Q). rewrite E in Q. discriminate.
    + split; [discriminate|]. intros (sh' & Q & _). discriminate.
Qed.
Lemma shaft_iges : forall status shape solid (k : kernel status shape solid) f, has_extension f "iges" ->
  (forall x, snd (read_iges k f) = Err x -> shaft_solid k f = ([Iges f], Err x)) /\
  (forall s, snd (read_iges k f) = Ok s -> fst (shaft_solid k f) = [Iges f; Sewn] /\
     forall v, snd (shaft_solid k f) = Ok v <-> exists sh, sew k (1 / 100)%R s = Ok sh /\ make_solid k sh = Ok (Some v)).
Proof.
  intros status shape solid k f H. apply extension_found in H; [|discriminate]. unfold shaft_solid. rewrite H.
  destruct (list_eq_dec ascii_dec (list_ascii_of_string "iges") (list_ascii_of_string "stl")) as [N|_]; [discriminate|].
  destruct (list_eq_dec ascii_dec (list_ascii_of_string "iges") (list_ascii_of_string "iges")) as [_|N]; [|contradiction]. split.
  - intros x ->. reflexivity.
  - intros s ->. split; [reflexivity|]. intros v. cbn [snd]. destruct (sew k _ s) as [sh|e]; cbn [bind].
    + destruct (make_solid k sh) as [[w|]|e] eqn:E; cbn [bind]; split; intros Q.
      * injection Q as ->. eauto.
      * destruct Q as (sh' & [= <-] & Q). rewrite E in Q. injection Q as ->. reflexivity.
      * discriminate.
      * destruct Q as (sh' & [= <-] & Q). rewrite E in Q. discriminate.
      * discriminate.
      * destruct Q as (sh' & [= <-] & Q). rewrite E in Q. discriminate.
    + split; [discriminate|]. intros (sh' & Q & _). discriminate.
Qed.
Lemma shaft_other : forall status shape solid (k : kernel status shape solid) f, ~ has_extension f "stl" -> ~ has_extension f "iges" ->
  shaft_solid k f = ([], Err OtherException).
Proof.
  intros status shape solid k f H1 H2. unfold shaft_solid.
  destruct (list_eq_dec ascii_dec _ (list_ascii_of_string "stl")) as [E|_]; [exfalso; apply H1, extension_found; [discriminate|exact E]|].
  destruct (list_eq_dec ascii_dec _ (list_ascii_of_string "iges")) as [E|_]; [exfalso; apply H2, extension_found; [discriminate|exact E]|]. reflexivity.
Qed.
Lemma shaft_not_done : forall status shape solid (k : kernel status shape solid) f s sh,
  (has_extension f "stl" /\ read_stl k f = Ok s) \/ (has_extension f "iges" /\ snd (read_iges k f) = Ok s) ->
  sew k (1 / 100)%R s = Ok sh -> make_solid k sh = Ok None -> snd (shaft_solid k f) = Err RuntimeError.
Proof.
  intros status shape solid k f s sh H E1 E2. unfold shaft_solid. destruct H as [(H & R)|(H & R)]; apply extension_found in H; try discriminate; rewrite H.
  - destruct (list_eq_dec ascii_dec (list_ascii_of_string "stl") (list_ascii_of_string "stl")) as [_|N]; [|contradiction].
    rewrite R. cbn [snd]. rewrite E1. cbn [bind]. rewrite E2. reflexivity.
  - destruct (list_eq_dec ascii_dec (list_ascii_of_string "iges") (list_ascii_of_string "stl")) as [N|_]; [discriminate|].
    destruct (list_eq_dec ascii_dec (list_ascii_of_string "iges") (list_ascii_of_string "iges")) as [_|N]; [|contradiction].
    rewrite R. cbn [snd]. rewrite E1. cbn [bind]. rewrite E2. reflexivity.
Qed.
(** The status of the reader is never looked at. *)
Lemma shaft_status : forall status shape solid (k k' : kernel status shape solid) f,
  (forall g, read_stl k g = read_stl k' g) -> (forall g, snd (read_iges k g) = snd (read_iges k' g)) ->
  (forall t s, sew k t s = sew k' t s) -> (forall s, make_solid k s = make_solid k' s) -> shaft_solid k f = shaft_solid k' f.
Proof.
  intros status shape solid k k' f E1 E2 E3 E4. unfold shaft_solid. rewrite E1, E2.
  assert (F : forall e r, match r with Ok s => ([e; Sewn], let* sh := sew k (1 / 100)%R s in let* m := make_solid k sh in match m with Some v => Ok v | None => Err RuntimeError end) | Err x => ([e], Err x) end =
    match r with Ok s => ([e; Sewn], let* sh := sew k' (1 / 100)%R s in let* m := make_solid k' sh in match m with Some v => Ok v | None => Err RuntimeError end) | Err x => ([e], Err x) end).
  { intros e [s|x]; [|reflexivity]. rewrite E3. destruct (sew k' _ s) as [sh|x]; [|reflexivity]. cbn [bind]. rewrite E4. reflexivity. }
  rewrite !F. reflexivity.
Qed.

(** ** Cylinder *)
Open Scope R_scope.
Lemma cylinder_points : forall x y z d1 d2 d3 n r h p, n * n = d1 * d1 + d2 * d2 + d3 * d3 -> 0 < n -> 0 <= r ->
  (make_cylinder (x, y, z) (d1 / n, d2 / n, d3 / n) r h p <-> in_cylinder (x, y, z) (d1, d2, d3) r h p).
Proof.
  intros x y z d1 d2 d3 n r h [[a b] c] HN HP HR. unfold make_cylinder, in_cylinder, sub3, dot3, along, diff3, perpendicular, length3.
  assert (SN : sqrt (d1 * d1 + d2 * d2 + d3 * d3) = n) by (rewrite <- HN; apply sqrt_square; lra). rewrite SN.
  set (u := a - x). set (v := b - y). set (w := c - z).
  assert (HD : u * (d1 / n) + v * (d2 / n) + w * (d3 / n) = (u * d1 + v * d2 + w * d3) / n) by (field; lra). rewrite HD.
  set (s := u * d1 + v * d2 + w * d3).
  assert (KEY : forall t, (a - (x + t * d1)) * d1 + (b - (y + t * d2)) * d2 + (c - (z + t * d3)) * d3 = s - t * (n * n)) by (intros t; rewrite HN; unfold s, u, v, w; ring).
  assert (DIST : forall t, t * n = s / n -> (a - (x + t * d1)) * (a - (x + t * d1)) + (b - (y + t * d2)) * (b - (y + t * d2)) + (c - (z + t * d3)) * (c - (z + t * d3)) =
     u * u + v * v + w * w - s / n * (s / n)).
  { intros t E. assert (Es : s = t * (n * n)) by (replace (t * (n * n)) with (t * n * n) by ring; rewrite E; field; lra).
    transitivity (u * u + v * v + w * w - 2 * t * s + t * t * (n * n)); [rewrite HN; unfold s, u, v, w; ring|]. rewrite <- E. rewrite Es. ring. }
  split.
  - intros (H1 & H2). exists (s / n / n). assert (E : s / n / n * n = s / n) by (field; lra). rewrite E. split; [exact H1|]. split.
    + rewrite KEY. field. lra.
    + rewrite (DIST _ E). apply Rsqr_incr_0_var; [|exact HR]. unfold Rsqr. destruct (Rle_dec 0 (u * u + v * v + w * w - s / n * (s / n))) as [G|G].
      * rewrite sqrt_sqrt by exact G. exact H2.
      * rewrite sqrt_neg_0 by lra. nra.
  - intros (t & H1 & H2 & H3). rewrite KEY in H2. assert (E : t * n = s / n).
    { apply Rmult_eq_reg_r with n; [|lra]. replace (s / n * n) with s by (field; lra). lra. }
    rewrite E in H1. split; [exact H1|]. rewrite (DIST _ E) in H3.
    set (q := u * u + v * v + w * w - s / n * (s / n)) in *.
    assert (Q : 0 <= q). { rewrite <- (DIST _ E). assert (P : forall k, 0 <= k * k) by (intros; nra). repeat apply Rplus_le_le_0_compat; apply P. }
    change (q <= r * r). rewrite <- (sqrt_sqrt q Q). apply Rmult_le_compat; auto using sqrt_pos.
Qed.
Lemma cylinder_spec : forall rd ht ox oy oz d1 d2 d3, 0 < rd -> 0 < ht -> (d1, d2, d3) <> (0, 0, 0) ->
  exists S, cylinder_solid (new_cylinder (Some rd) (Some ht) (Some [d1; d2; d3]) (Some [ox; oy; oz])) = Ok S /\
    forall p, S p <-> in_cylinder (ox, oy, oz) (d1, d2, d3) rd ht p.
Proof.
  intros rd ht ox oy oz d1 d2 d3 HR HH ND. unfold cylinder_solid, new_cylinder. cbn [cy_origin cy_orientation cy_radius cy_height gp_pnt gp_dir bind].
  assert (PS : 0 < d1 * d1 + d2 * d2 + d3 * d3).
  { destruct (Rle_lt_dec (d1 * d1 + d2 * d2 + d3 * d3) 0) as [L|L]; [|exact L]. exfalso. apply ND.
    assert (d1 = 0) by nra. assert (d2 = 0) by nra. assert (d3 = 0) by nra. congruence. }
  pose proof (sqrt_lt_R0 _ PS) as PN. destruct (Req_EM_T (sqrt (d1 * d1 + d2 * d2 + d3 * d3)) 0) as [E|_]; [lra|]. cbn [bind].
  destruct (Rlt_dec 0 rd); [|contradiction]. destruct (Rlt_dec 0 ht); [|contradiction]. eexists. split; [reflexivity|].
  intros p. apply cylinder_points; [apply sqrt_sqrt; lra|exact PN|lra].
Qed.
Lemma cylinder_default : exists S, cylinder_solid (new_cylinder None None None None) = Ok S /\
  forall x y z, S (x, y, z) <-> 0 <= x <= 1 /\ y * y + z * z <= 1.
Proof.
  destruct (cylinder_spec 1 1 0 0 0 1 0 0 ltac:(lra) ltac:(lra)) as (S & E & HS); [intros Q; injection Q; intros; lra|].
  exists S. split; [exact E|]. intros x y z. rewrite HS. unfold in_cylinder, along, perpendicular, diff3, length3.
  replace (1 * 1 + 0 * 0 + 0 * 0) with 1 by ring. rewrite sqrt_1. split.
  - intros (t & H1 & H2 & H3). assert (t = x) as -> by lra. split; [lra|].
    replace ((x - (0 + x * 1)) * (x - (0 + x * 1)) + (y - (0 + x * 0)) * (y - (0 + x * 0)) + (z - (0 + x * 0)) * (z - (0 + x * 0))) with (y * y + z * z) in H3 by ring.
    assert (Q : 0 <= y * y + z * z) by nra. rewrite <- (sqrt_sqrt _ Q). pose proof (sqrt_pos (y * y + z * z)). nra.
  - intros (H1 & H2). exists x. split; [lra|]. split; [ring|].
    replace ((x - (0 + x * 1)) * (x - (0 + x * 1)) + (y - (0 + x * 0)) * (y - (0 + x * 0)) + (z - (0 + x * 0)) * (z - (0 + x * 0))) with (y * y + z * z) by ring.
    apply Rle_trans with (sqrt 1); [apply sqrt_le_1_alt; exact H2|rewrite sqrt_1; lra].
Qed.
Lemma cylinder_scale : forall o v k r h p, 0 < k -> let '(x, y, z) := v in
  in_cylinder o (k * x, k * y, k * z) r h p <-> in_cylinder o v r h p.
Proof.
  intros [[a b] c] [[x y] z] k r h [[p1 p2] p3] HK. unfold in_cylinder, along, perpendicular, diff3, length3.
  assert (SQ : sqrt (k * x * (k * x) + k * y * (k * y) + k * z * (k * z)) = k * sqrt (x * x + y * y + z * z)).
  { replace (k * x * (k * x) + k * y * (k * y) + k * z * (k * z)) with ((k * k) * (x * x + y * y + z * z)) by ring.
    rewrite sqrt_mult_alt by nra. rewrite sqrt_square by lra. reflexivity. }
  rewrite SQ. split.
  - intros (t & H1 & H2 & H3). exists (t * k).
    replace (a + t * k * x) with (a + t * (k * x)) by ring. replace (b + t * k * y) with (b + t * (k * y)) by ring. replace (c + t * k * z) with (c + t * (k * z)) by ring.
    split; [rewrite Rmult_assoc; exact H1|]. split; [|exact H3]. apply Rmult_eq_reg_l with k; [|lra]. rewrite Rmult_0_r, <- H2. ring.
  - intros (t & H1 & H2 & H3). exists (t / k).
    replace (a + t / k * (k * x)) with (a + t * x) by (field; lra). replace (b + t / k * (k * y)) with (b + t * y) by (field; lra). replace (c + t / k * (k * z)) with (c + t * z) by (field; lra).
    split; [replace (t / k * (k * sqrt (x * x + y * y + z * z))) with (t * sqrt (x * x + y * y + z * z)) by (field; lra); exact H1|]. split; [|exact H3].
    transitivity (k * ((p1 - (a + t * x)) * x + (p2 - (b + t * y)) * y + (p3 - (c + t * z)) * z)); [ring|]. rewrite H2. ring.
Qed.
(** The other direction: the mirrored cylinder, shifted by the height. *)
Lemma cylinder_opposite : forall o x y z r h p, let n := sqrt (x * x + y * y + z * z) in 0 < n ->
  in_cylinder o (- x, - y, - z) r h p <-> in_cylinder (along o (x, y, z) (- (h / n))) (x, y, z) r h p.
Proof.
  intros [[a b] c] x y z r h [[p1 p2] p3] n HN. unfold in_cylinder, along, perpendicular, diff3, length3.
  replace (- x * - x + - y * - y + - z * - z) with (x * x + y * y + z * z) by ring. fold n. split.
  - intros (t & H1 & H2 & H3). exists (h / n - t).
    replace (a + - (h / n) * x + (h / n - t) * x) with (a + t * - x) by ring. replace (b + - (h / n) * y + (h / n - t) * y) with (b + t * - y) by ring.
    replace (c + - (h / n) * z + (h / n - t) * z) with (c + t * - z) by ring.
    split; [replace ((h / n - t) * n) with (h - t * n) by (field; lra); lra|]. split; [lra|exact H3].
  - intros (t & H1 & H2 & H3). exists (h / n - t).
    replace (a + (h / n - t) * - x) with (a + - (h / n) * x + t * x) by ring. replace (b + (h / n - t) * - y) with (b + - (h / n) * y + t * y) by ring.
    replace (c + (h / n - t) * - z) with (c + - (h / n) * z + t * z) by ring.
    split; [replace ((h / n - t) * n) with (h - t * n) by (field; lra); lra|]. split; [lra|exact H3].
Qed.
(** A shaft along the x axis looks the same after any turn about it. *)
Lemma cylinder_turn : forall x0 d r h t p, d <> 0 ->
  in_cylinder (x0, 0, 0) (d, 0, 0) r h (turn "x" t p) <-> in_cylinder (x0, 0, 0) (d, 0, 0) r h p.
Proof.
  intros x0 d r h t [[x y] z] ND. unfold in_cylinder, along, perpendicular, diff3, length3, turn. cbn [String.eqb Ascii.eqb Bool.eqb].
  pose proof (sin2_cos2 t) as SC. unfold Rsqr in SC.
  assert (E : forall k, (cos t * y - sin t * z - (0 + k * 0)) * (cos t * y - sin t * z - (0 + k * 0)) + (sin t * y + cos t * z - (0 + k * 0)) * (sin t * y + cos t * z - (0 + k * 0)) =
     (y - (0 + k * 0)) * (y - (0 + k * 0)) + (z - (0 + k * 0)) * (z - (0 + k * 0))).
  { intros k. transitivity ((sin t * sin t + cos t * cos t) * (y * y + z * z)); [ring|]. rewrite SC. ring. }
  split; intros (k & H1 & H2 & H3); exists k; (split; [exact H1|]); (split; [lra|]).
  - rewrite !Rplus_assoc in *. rewrite E in H3. exact H3.
  - rewrite !Rplus_assoc in *. rewrite E. exact H3.
Qed.
Lemma cylinder_bad : forall rd ht o d,
  (List.length d = 3%nat -> Forall (fun x => x = 0) d -> List.length o = 3%nat -> cylinder_solid (new_cylinder rd ht (Some d) (Some o)) = Err RuntimeError) /\
  (o <> [] -> List.length o <> 3%nat -> cylinder_solid (new_cylinder rd ht (Some d) (Some o)) = Err TypeError) /\
  (List.length o = 3%nat -> d <> [] -> List.length d <> 3%nat -> cylinder_solid (new_cylinder rd ht (Some d) (Some o)) = Err TypeError).
Proof.
  intros rd ht o d. unfold cylinder_solid, new_cylinder. cbn [cy_origin cy_orientation].
  split; [|split].
  - intros L F Lo. destruct d as [|x [|y [|z [|? ?]]]]; try discriminate. destruct o as [|x' [|y' [|z' [|? ?]]]]; try discriminate. cbn [gp_pnt bind gp_dir].
    inversion F as [|? ? E1 F1]; subst. inversion F1 as [|? ? E2 F2]; subst. inversion F2 as [|? ? E3 F3]; subst.
    replace (0 * 0 + 0 * 0 + 0 * 0) with 0 by ring. rewrite sqrt_0. destruct (Req_EM_T 0 0); [reflexivity|contradiction].
  - intros N L. destruct o as [|x [|y [|z [|? ?]]]]; [contradiction|reflexivity|reflexivity|exfalso; apply L; reflexivity|reflexivity].
  - intros Lo N L. destruct o as [|x' [|y' [|z' [|? ?]]]]; try discriminate. cbn [gp_pnt bind].
    destruct d as [|x [|y [|z [|? ?]]]]; [contradiction|reflexivity|reflexivity|exfalso; apply L; reflexivity|reflexivity].
Qed.

(** ** Faces *)
Lemma nth_map_seq : forall {A B} (f : A -> B) (d : A) l, map (fun k => f (nth k l d)) (seq 0 (List.length l)) = map f l.
Proof.
  intros A B f d l. induction l as [|a l IH]; [reflexivity|]. cbn [List.length seq map nth]. f_equal. rewrite <- seq_shift, map_map. exact IH.
Qed.
Lemma coords_eta : forall p, (coordinate 0 p, coordinate 1 p, coordinate 2 p) = p.
Proof. intros [[x y] z]. reflexivity. Qed.
Lemma mapM_map_ext : forall {A B C} (f : B -> res C) (g : A -> B) l, mapM (fun x => f (g x)) l = mapM f (map g l).
Proof. intros A B C f g l. induction l as [|a l IH]; [reflexivity|]. cbn [mapM map]. rewrite IH. reflexivity. Qed.
Section Face.
Variables edge face : Type.
Variable curve : R -> list pt3 -> res edge.
Variable through : R -> nat -> list edge -> res (edge -> res face).
Definition face_through (deg : nat) (tol : R) (rows : list (list pt3)) : res face :=
  let* edges := mapM (curve tol) rows in
  let* made := through tol deg edges in
  match edges with [] => Err NameError | e :: _ => made e end.
Lemma columns_blocks : forall n rows i, (i < List.length rows)%nat -> same_length n rows -> columns (blocks n rows) i n = nth i rows [].
Proof.
  intros n rows i L S. unfold columns, blocks. cbn [at_].
  transitivity (map (fun p : pt3 => p) (nth i rows [])); [|apply map_id]. rewrite <- (nth_map_seq (fun p : pt3 => p) (0, 0, 0)).
  assert (E : List.length (nth i rows []) = n). { unfold same_length in S. rewrite Forall_forall in S. apply S, nth_In. exact L. }
  rewrite E. apply map_ext. intros k. apply coords_eta.
Qed.
Lemma face_blocks : forall n rows deg tol, same_length n rows ->
  interpolated_face edge face curve through (blocks n rows) deg tol = ([List.length rows; 3%nat; n], face_through deg tol rows).
Proof.
  intros n rows deg tol S. unfold interpolated_face. apply f_equal2; [reflexivity|]. cbn [shape_of blocks List.length Nat.eqb orb negb]. unfold face_through.
  replace (mapM (fun i => curve tol (columns (blocks n rows) i n)) (seq 0 (List.length rows))) with (mapM (curve tol) rows); [reflexivity|].
  rewrite (mapM_map_ext (curve tol) (fun i => columns (blocks n rows) i n)). f_equal.
  transitivity (map (fun i => nth i rows []) (seq 0 (List.length rows))); [rewrite (nth_map_seq (fun r : list pt3 => r)); symmetry; apply map_id|].
  apply map_ext_in. intros i I. apply in_seq in I. symmetry. apply columns_blocks; [lia|exact S].
Qed.
Lemma face_block : forall row deg tol,
  interpolated_face edge face curve through (block row) deg tol = ([3%nat; List.length row], face_through deg tol [row]).
Proof.
  intros row deg tol. unfold interpolated_face. apply f_equal2; [reflexivity|]. cbn [shape_of block new_axis List.length Nat.eqb orb negb seq mapM]. unfold face_through. cbn [mapM].
  replace (columns (new_axis (block row)) 0 (List.length row)) with row; [reflexivity|].
  unfold columns. cbn [new_axis at_ block tl]. transitivity (map (fun p : pt3 => p) row); [symmetry; apply map_id|]. rewrite <- (nth_map_seq (fun p : pt3 => p) (0, 0, 0)). apply map_ext. intros k. symmetry. apply coords_eta.
Qed.
Lemma face_rejected : forall pts deg tol,
  (forall n, shape_of pts <> [3%nat; n]) -> (forall m n, shape_of pts <> [m; 3%nat; n]) ->
  interpolated_face edge face curve through pts deg tol = (shape_of pts, Err ValueError).
Proof.
  intros pts deg tol N2 N3. unfold interpolated_face. apply f_equal2; [reflexivity|]. destruct pts as [sh g]. cbn [shape_of] in *.
  destruct sh as [|a [|b [|c [|d sh]]]]; cbn [List.length Nat.eqb orb negb]; try reflexivity.
  - cbn [new_axis shape_of]. destruct (Nat.eqb_spec a 3) as [->|_]; [|reflexivity]. exfalso. apply (N2 b). reflexivity.
  - cbn [shape_of]. destruct (Nat.eqb_spec b 3) as [->|_]; [|reflexivity]. exfalso. apply (N3 a c). reflexivity.
Qed.
Lemma face_rows_rejected : forall row deg tol, List.length row <> 3%nat ->
  interpolated_face edge face curve through (by_rows row) deg tol = ([List.length row; 3%nat], Err ValueError).
Proof.
  intros row deg tol N. rewrite face_rejected; [reflexivity| |]; cbn [by_rows shape_of]; congruence.
Qed.
(** Three points as rows: the coordinates are taken for the points. *)
Lemma face_transposed : forall p q r deg tol,
  snd (interpolated_face edge face curve through (by_rows [p; q; r]) deg tol) =
  face_through deg tol [[(coordinate 0 p, coordinate 0 q, coordinate 0 r); (coordinate 1 p, coordinate 1 q, coordinate 1 r); (coordinate 2 p, coordinate 2 q, coordinate 2 r)]].
Proof. intros p q r deg tol. reflexivity. Qed.
Lemma face_empty : forall n deg tol, exists e, snd (interpolated_face edge face curve through (blocks n []) deg tol) = Err e.
Proof.
  intros n deg tol. rewrite face_blocks by constructor. unfold face_through. cbn [mapM snd bind]. destruct (through tol deg []); cbn [bind]; eauto.
Qed.
End Face.
Lemma through_lofted : forall edge face curve through deg tol rows f,
  face_through edge face curve through deg tol rows = Ok f <-> lofted curve through deg tol rows f.
Proof.
  intros edge face curve through deg tol rows f. unfold face_through, lofted. split.
  - intros H. apply bind_ok in H as (es & E & H). apply bind_ok in H as (made & EM & H). destruct es as [|e es]; [discriminate|].
    exists e, es, made. split; [|auto]. clear - E. revert E. generalize (e :: es) as l. induction rows as [|r rows IH]; intros l E; cbn [mapM] in E.
    + injection E as <-. constructor.
    + apply bind_ok in E as (x & Ex & E). apply bind_ok in E as (xs & Exs & E). injection E as <-. constructor; auto.
  - intros (e & es & made & F & EM & H). assert (E : mapM (curve tol) rows = Ok (e :: es)).
    { clear - F. induction F as [|r c rows l E F IH]; [reflexivity|]. cbn [mapM]. rewrite E, IH. reflexivity. }
    rewrite E. cbn [bind]. rewrite EM. exact H.
Qed.
Lemma face_sections : forall edge face curve through n rows deg tol, same_length n rows ->
  fst (interpolated_face edge face curve through (blocks n rows) deg tol) = [List.length rows; 3%nat; n] /\
  forall f, snd (interpolated_face edge face curve through (blocks n rows) deg tol) = Ok f <-> lofted curve through deg tol rows f.
Proof.
  intros edge face curve through n rows deg tol S. split; [reflexivity|]. intros f. rewrite face_blocks by exact S. apply through_lofted.
Qed.
Lemma face_single : forall edge face curve through row deg tol f,
  snd (interpolated_face edge face curve through (block row) deg tol) = Ok f <-> lofted curve through deg tol [row] f.
Proof. intros edge face curve through row deg tol f. rewrite face_block. apply through_lofted. Qed.
Lemma face_by_rows : forall edge face curve through p q r deg tol f,
  snd (interpolated_face edge face curve through (by_rows [p; q; r]) deg tol) = Ok f <->
  lofted curve through deg tol [[(coordinate 0 p, coordinate 0 q, coordinate 0 r); (coordinate 1 p, coordinate 1 q, coordinate 1 r); (coordinate 2 p, coordinate 2 q, coordinate 2 r)]] f.
Proof. intros edge face curve through p q r deg tol f. rewrite face_transposed. apply through_lofted. Qed.
Lemma face_no_sections : forall edge face curve through n deg tol, (exists made, through tol deg [] = Ok made) ->
  snd (interpolated_face edge face curve through (blocks n []) deg tol) = Err NameError.
Proof. intros edge face curve through n deg tol (made & E). rewrite face_blocks by constructor. unfold face_through. cbn [mapM bind snd]. rewrite E. reflexivity. Qed.
(** The array built from two rows of the blade and kernels that record the points. *)
Lemma face_example : exists f,
  snd (interpolated_face (list pt3) (list pt3 * list (list pt3)) (fun _ l => Ok l) (fun _ _ l => Ok (fun e => Ok (e, l)))
    (blocks 2 [[(0, 1, 2); (3, 4, 5)]; [(6, 7, 8); (9, 10, 11)]]) 1 (1 / 1000000)) = Ok f /\
  f = ([(0, 1, 2); (3, 4, 5)], [[(0, 1, 2); (3, 4, 5)]; [(6, 7, 8); (9, 10, 11)]]).
Proof. eexists. split; reflexivity. Qed.

(** ** Example file names *)
Lemma names_example : has_extension "hub.stl" "stl" /\ has_extension "a.b/hub.v2.iges" "iges" /\ has_extension "a/..x.stl" "stl" /\
  ~ has_extension ".stl" "stl" /\ ~ has_extension "a/..stl" "stl" /\ ~ has_extension "hub.STL" "stl" /\ ~ has_extension "hub.stl/x" "stl" /\ ~ has_extension "hub.igs" "iges".
Proof.
  repeat split.
  1-3: apply extension_found; [discriminate|reflexivity].
  all: intros H; apply extension_found in H; discriminate.
Qed.
Lemma shaft_example : shaft_solid (mkKernel (status := unit) (fun f => Ok f) (fun f => (tt, Err IOError)) (fun _ s => Ok s) (fun s => Ok (Some s))) "a.b/hub.v2.stl"
    = ([Stl "a.b/hub.v2.stl"; Sewn], Ok "a.b/hub.v2.stl"%string) /\
  shaft_solid (mkKernel (status := unit) (solid := string) (fun f => Ok f) (fun f => (tt, Err IOError)) (fun _ s => Ok s) (fun s => Ok (Some s))) "a/hub.iges"
    = ([Iges "a/hub.iges"], Err IOError) /\
  shaft_solid (mkKernel (status := unit) (solid := string) (fun f => Ok f) (fun f => (tt, Err IOError)) (fun _ s => Ok s) (fun s => Ok None)) "hub.stl"
    = ([Stl "hub.stl"; Sewn], Err RuntimeError).
Proof. repeat split. Qed.
Lemma cylinder_spec_scale : forall o x y z k r h p, 0 < k -> in_cylinder o (k * x, k * y, k * z) r h p <-> in_cylinder o (x, y, z) r h p.
Proof. intros o x y z k r h p HK. exact (cylinder_scale o (x, y, z) k r h p HK). Qed.
(** A cylinder of radius 1/2 and height 3 along (0, 4, 3) from (1, 0, 0). *)
Lemma cylinder_example : in_cylinder (1, 0, 0) (0, 4, 3) (1 / 2) 3 (1 + 1 / 2, 8 / 5, 6 / 5) /\ ~ in_cylinder (1, 0, 0) (0, 4, 3) (1 / 2) 3 (1, 4, 3).
Proof.
  unfold in_cylinder, along, perpendicular, diff3, length3. replace (0 * 0 + 4 * 4 + 3 * 3) with (5 * 5) by ring. rewrite sqrt_square by lra. split.
  - exists (2 / 5). split; [lra|]. split; [lra|].
    match goal with |- sqrt ?e <= _ => replace e with ((1 / 2) * (1 / 2)) by lra end. rewrite sqrt_square; lra.
  - intros (t & H1 & H2 & _). lra.
Qed.
