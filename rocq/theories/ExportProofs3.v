(** Proofs: the exported files, the error file and the plot. *)
From Coq Require Import String Ascii Reals List ZArith Lra Lia Bool.
From Verif Require Import Base TextModel ProfileModel ProfileSpec ProfileProofs BladeModel BladeSpec BladeProofs BladeProofs2 BladeProofs3 BladeProofs4 BladeProofs5 BladeProofs6 PpgModel ExportModel ExportSpec ExportProofs ExportProofs2.
From Verif Require ParamsModel.
Import ListNotations.
Open Scope R_scope.

Section Files.
Context {edge : Type}.
Implicit Types (t : tools edge) (x : cad_blade edge).

Lemma exported_all : forall t b fu fl ft fr, upper_face b = Some fu -> lower_face b = Some fl -> tip_face b = Some ft -> root_face b = Some fr ->
  exported_faces t b = Ok [fu; fl; fr; ft].
Proof. intros t b fu fl ft fr A B C D. unfold exported_faces. rewrite A, B, C, D. reflexivity. Qed.

Lemma exported_missing : forall t b, ~ has_faces b -> exported_faces t b = Err (null t).
Proof.
  intros t b H. unfold exported_faces, has_faces in *.
  destruct (upper_face b) as [fu|]; [|reflexivity]. destruct (lower_face b) as [fl|]; [|reflexivity].
  destruct (root_face b) as [fr|]; [|reflexivity]. destruct (tip_face b) as [ft|]; [|reflexivity].
  exfalso. apply H. repeat split; discriminate.
Qed.

(** Generated and moved blade: one file with the four faces. *)
Lemma pipeline : forall t surface refl st b st' b0 ms b' name d u l, equivariant surface ->
  build surface refl st b = (st', b0, Ok tt) -> Forall agreeing ms -> do_motions ms b0 = (b', Ok tt) ->
  writable t name = true ->
  exists up down fu fl fr ft gu gl, coordinates b' = Built up down /\
    blade_export_iges t name false st' (mkCad b' u l) = (mkCad b' u l, [(name, IgesFile [fu; fl; fr; ft] [])], Ok tt) /\
    blade_export_stl t name d (mkCad b' u l) = ([(name, StlFile (1 / 100) [fu; fl; fr; ft] d)], Ok tt) /\
    upper_face b' = Some fu /\ lower_face b' = Some fl /\ root_face b' = Some fr /\ tip_face b' = Some ft /\
    surface (map (map (scale3 1000)) up) = Ok gu /\ face_eq fu gu /\
    surface (map (map (scale3 1000)) down) = Ok gl /\ face_eq fl gl.
Proof.
  intros t surface refl st b st' b0 ms b' name d u l EQ HB F E W.
  destruct (build_motions surface refl st b st' b0 ms EQ HB F) as (b1 & E1 & A). rewrite E in E1. injection E1 as <-.
  destruct A as (up & down & fu & fl & ft & fr & lu & ld & su & sd & gu & gl & gt & gr &
     HC & U1 & U2 & U3 & U4 & _ & _ & _ & _ & S1 & S2 & _ & _ & Q1 & Q2 & _ & _).
  exists up, down, fu, fl, fr, ft, gu, gl. split; auto.
  unfold blade_export_iges, blade_export_stl, write_file. cbn [the_blade].
  rewrite (exported_all t b' fu fl ft fr), W by auto. auto 12.
Qed.

(** Faces of the file: those built, moved by one similarity. *)
Lemma exported_faces_moved : forall t surface refl st b st' b0 ms b' name u l, 
  build surface refl st b = (st', b0, Ok tt) -> Forall agreeing ms -> do_motions ms b0 = (b', Ok tt) -> writable t name = true ->
  exists T fs0 fs, similarity (ratios ms) T /\
    blade_export_iges t name false st' (mkCad b0 u l) = (mkCad b0 u l, [(name, IgesFile fs0 [])], Ok tt) /\
    blade_export_iges t name false st' (mkCad b' u l) = (mkCad b' u l, [(name, IgesFile fs [])], Ok tt) /\
    List.length fs0 = 4%nat /\ Forall2 (fun f g => face_eq (image T f) g) fs0 fs.
Proof.
  intros t surface refl st b st' b0 ms b' name u l HB F E W. destruct (build_agrees _ _ _ _ _ _ HB) as (_ & G & _).
  destruct (do_motions_ok ms b0 G F) as (b1 & T & E1 & S & _ & (F1 & F2 & F3 & F4) & G'). rewrite E in E1. injection E1 as <-.
  destruct G as (_ & A1 & A2 & A3 & A4). destruct G' as (_ & B1 & B2 & B3 & B4).
  unfold blade_export_iges, write_file, exported_faces. cbn [the_blade]. rewrite W.
  destruct (upper_face b0) as [f1|]; [|contradiction]. destruct (lower_face b0) as [f2|]; [|contradiction].
  destruct (tip_face b0) as [f3|]; [|contradiction]. destruct (root_face b0) as [f4|]; [|contradiction].
  destruct (upper_face b') as [g1|]; [|contradiction]. destruct (lower_face b') as [g2|]; [|contradiction].
  destruct (tip_face b') as [g3|]; [|contradiction]. destruct (root_face b') as [g4|]; [|contradiction].
  cbn [option_map oface_eq] in F1, F2, F3, F4.
  exists T, [f1; f2; f4; f3], [g1; g2; g4; g3]. cbn. split; auto. split; auto. split; auto. split; auto.
Qed.

(** With the curves. *)
Lemma export_with_curves : forall t name st b u0 l0 ps u l, generated b -> writable t name = true ->
  le_points st b = Ok ps -> curve t (map fst ps) = Ok u -> curve t (map snd ps) = Ok l ->
  exists fs, blade_export_iges t name false st (mkCad b u0 l0) = (mkCad b u0 l0, [(name, IgesFile fs [])], Ok tt) /\
    blade_export_iges t name true st (mkCad b u0 l0) = (mkCad b (Some u) (Some l), [(name, IgesFile fs [u; l])], Ok tt).
Proof.
  intros t name st b u0 l0 ps u l (_ & A1 & A2 & A3 & A4) W H Hu Hl.
  unfold blade_export_iges, leading_edge_curves, write_file, exported_faces. cbn [the_blade]. rewrite H. cbn [bind]. rewrite Hu, Hl. cbn [bind the_blade].
  destruct (upper_face b) as [f1|]; [|contradiction]. destruct (lower_face b) as [f2|]; [|contradiction].
  destruct (tip_face b) as [f3|]; [|contradiction]. destruct (root_face b) as [f4|]; [|contradiction].
  rewrite W. cbn. eexists. split; reflexivity.
Qed.

(** Failures. *)
Lemma export_failure : forall t name inc st x x' fs e, blade_export_iges t name inc st x = (x', fs, Err e) ->
  fs = [] /\ the_blade x' = the_blade x.
Proof.
  intros t name inc st x x' fs e H. unfold blade_export_iges in H.
  assert (K : forall x1 r, (if inc then leading_edge_curves t st x else (x, Ok tt)) = (x1, r) -> the_blade x1 = the_blade x).
  { intros x1 r E. destruct inc; [|injection E as <- _; auto]. unfold leading_edge_curves in E.
    destruct (let* ps := le_points st (the_blade x) in _) as [[u l]|]; injection E as <- _; reflexivity. }
  destruct (if inc then leading_edge_curves t st x else (x, Ok tt)) as [x1 [|e1]] eqn:E; specialize (K _ _ eq_refl).
  - destruct (exported_faces t (the_blade x1)); [|injection H as <- <- _; auto].
    destruct inc; [|discriminate]. destruct (upper_le_edge x1), (lower_le_edge x1); try discriminate;
      injection H as <- <- _; auto.
  - injection H as <- <- _. auto.
Qed.

Lemma export_not_generated : forall t name inc st x d, ~ has_faces (the_blade x) ->
  (exists x' e, blade_export_iges t name inc st x = (x', [], Err e)) /\
  blade_export_iges t name false st x = (x, [], Err (null t)) /\
  blade_export_stl t name d x = ([], Err (null t)).
Proof.
  intros t name inc st x d H. split; [|split].
  - destruct (blade_export_iges t name inc st x) as [[x' fs] [v|e]] eqn:E.
    + exfalso. unfold blade_export_iges in E.
      assert (K : forall x1 r, (if inc then leading_edge_curves t st x else (x, Ok tt)) = (x1, r) -> the_blade x1 = the_blade x).
      { intros x1 r E1. destruct inc; [|injection E1 as <- _; auto]. unfold leading_edge_curves in E1.
        destruct (let* ps := le_points st (the_blade x) in _) as [[u l]|]; injection E1 as <- _; reflexivity. }
      destruct (if inc then leading_edge_curves t st x else (x, Ok tt)) as [x1 [|e1]]; [|discriminate].
      rewrite (K _ _ eq_refl), exported_missing in E by auto. discriminate.
    + destruct (export_failure _ _ _ _ _ _ _ _ E) as (-> & _). eauto.
  - unfold blade_export_iges. rewrite exported_missing; auto.
  - unfold blade_export_stl. rewrite exported_missing; auto.
Qed.

Lemma export_silent : forall t name st x d, has_faces (the_blade x) -> writable t name = false ->
  blade_export_iges t name false st x = (x, [], Ok tt) /\ blade_export_stl t name d x = ([], Ok tt).
Proof.
  intros t name st x d (A1 & A2 & A3 & A4) W. unfold blade_export_iges, blade_export_stl, write_file, exported_faces.
  destruct (upper_face (the_blade x)) as [f1|]; [|contradiction]. destruct (lower_face (the_blade x)) as [f2|]; [|contradiction].
  destruct (tip_face (the_blade x)) as [f3|]; [|contradiction]. destruct (root_face (the_blade x)) as [f4|]; [|contradiction].
  rewrite W. auto.
Qed.

(** Blades of sections with equally many points can be exported with curves. *)
Lemma curves_succeed : forall t surface refl st b m name u0 l0, (forall g, exists f, surface g = Ok f) ->
  (forall ps, exists e, curve t ps = Ok e) -> (0 < m)%nat ->
  consistent b -> sections b <> [] -> NoDup (sections b) ->
  Forall (fun r => r <> 0) (radii b) -> thickness b = None -> camber b = None ->
  (forall s, In s (sections b) -> uniform (st s) /\ List.length (xup (st s)) = m /\
     exists ref, reference_point (st s) = Ok ref) -> writable t name = true ->
  exists st' b' ps u l fs, build surface refl st b = (st', b', Ok tt) /\ le_points st' b' = Ok ps /\
    curve t (map fst ps) = Ok u /\ curve t (map snd ps) = Ok l /\
    blade_export_iges t name true st' (mkCad b' u0 l0) = (mkCad b' (Some u) (Some l), [(name, IgesFile fs [u; l])], Ok tt).
Proof.
  intros t surface refl st b m name u0 l0 TS TC Hm C NE ND F T K U W.
  destruct (build_succeeds surface refl st b m TS C NE ND F T K U) as (st' & b' & HB). exists st', b'.
  destruct (build_agrees _ _ _ _ _ _ HB) as (_ & G & SP & _). pose proof HB as HB0.
  apply build_inv in HB as (b1 & up & down & HA & Hc & HM).
  assert (Hc2 : coordinates b' = Built up down).
  { apply make_faces_inv in HM as (fu & fl & ft & fr & lu & ld & su & sd & -> & _). exact Hc. }
  destruct (apply_sections _ _ _ _ _ C HA) as (_ & _ & up' & down' & Hc' & L1 & L2 & Wr).
  rewrite Hc in Hc'. injection Hc' as <- <-.
  destruct (apply_places _ _ _ _ _ C ND F T K (fun s H => proj1 (U s H)) HA) as (P & _).
  assert (LEN : forall i s r c Pi k sk, station b i s r c Pi k sk -> uniform (st' s) /\ List.length (xup (st' s)) = m).
  { intros i s r c Pi k sk S. destruct (P _ _ _ _ _ _ _ S) as (ref & _ & M).
    destruct (U s (nth_error_In _ _ (st_section _ _ _ _ _ _ _ _ S))) as (Us & Um & _). split; [apply M|].
    rewrite (moved_length _ _ _ Us M). auto. }
  destruct (le_points_total st' b' up down m Hc2 Hm) as (ps & Hps); try (rewrite <- SP; auto).
  { intros s Hs. apply In_nth_error in Hs as (i & Hi).
    destruct (consistent_station b i C) as (s' & r & c & Pi & k & sk & S); [apply nth_error_Some; congruence|].
    pose proof (st_section _ _ _ _ _ _ _ _ S) as Q. assert (s' = s) by congruence. subst s'.
    destruct (LEN _ _ _ _ _ _ _ S) as ((_ & _ & E) & E'). lia. }
  { intros row Hr. apply in_app_or in Hr.
    assert (R : forall g, (g = up \/ g = down) -> In row g -> List.length row = m).
    { intros g Hg Hin. apply In_nth_error in Hin as (j & Hj).
      assert (Lj : (j < List.length (sections b))%nat).
      { assert (j < List.length g)%nat by (apply nth_error_Some; congruence). destruct Hg; subst g; lia. }
      destruct (consistent_station b (List.length (sections b) - 1 - j) C ltac:(lia)) as (s & r & c & Pi & k & sk & S).
      destruct (Wr _ _ _ _ _ _ _ S) as (W1 & W2). destruct (LEN _ _ _ _ _ _ _ S) as ((E1 & E2 & E3) & E4).
      replace (List.length (sections b) - 1 - (List.length (sections b) - 1 - j))%nat with j in W1, W2 by lia.
      destruct Hg; subst g.
      - assert (Q : row = map (wrap r) (upper (st' s))) by congruence. rewrite Q, map_length. unfold upper, pt. rewrite combine_length. lia.
      - assert (Q : row = map (wrap r) (lower (st' s))) by congruence. rewrite Q, map_length. unfold lower, pt. rewrite combine_length. lia. }
    destruct Hr as [Hr|Hr]; [apply (R up)|apply (R down)]; auto. }
  destruct (TC (map fst ps)) as (u & Hu). destruct (TC (map snd ps)) as (l & Hl).
  destruct (export_with_curves t name st' b' u0 l0 ps u l G W Hps Hu Hl) as (fs & _ & E).
  exists ps, u, l, fs. auto.
Qed.
End Files.

(** ** Plot *)
Lemma plot_not_built : forall o b, coordinates b = NoCoords -> blade_plot o b = Err ValueError.
Proof. intros o b H. unfold blade_plot. rewrite H. reflexivity. Qed.

Lemma concat_pairs_nth : forall {A} (l : list (list A)) (u d : list A), 
  List.length u = List.length l -> List.length d = List.length l ->
  (forall i, (i < List.length l)%nat -> exists a b, nth_error u i = Some a /\ nth_error d i = Some b /\ nth_error l i = Some [a; b]) ->
  List.length (List.concat l) = (2 * List.length l)%nat /\
  forall i, (i < List.length l)%nat -> nth_error (List.concat l) (2 * i) = nth_error u i /\ nth_error (List.concat l) (2 * i + 1) = nth_error d i.
Proof.
  induction l as [|x l IH]; intros u d Lu Ld H; [split; [reflexivity|simpl; lia]|].
  destruct u as [|u0 u]; [discriminate|]. destruct d as [|d0 d]; [discriminate|].
  destruct (H 0%nat) as (a & b & N1 & N2 & E); [simpl; lia|]. cbn in N1, N2, E. injection N1 as <-. injection N2 as <-. injection E as ->.
  destruct (IH u d) as (L & N); [simpl in *; lia|simpl in *; lia| |].
  { intros i Hi. apply (H (S i)). simpl; lia. }
  split; [simpl; lia|]. intros [|i] Hi; [split; reflexivity|].
  replace (2 * S i)%nat with (S (S (2 * i))) by lia. cbn [List.concat app nth_error]. apply N. simpl in Hi; lia.
Qed.

Lemma plot_curves : forall o b up down, coordinates b = Built up down -> sections b <> [] ->
  List.length up = List.length (sections b) -> List.length down = List.length (sections b) ->
  exists cs, blade_plot o b = Ok (cs, if truthy_str o then o else None) /\
    List.length cs = (2 * List.length (sections b))%nat /\
    forall i, (i < List.length (sections b))%nat ->
      nth_error cs (2 * i) = nth_error up i /\ nth_error cs (2 * i + 1) = nth_error down i.
Proof.
  intros o b up down Hc NE L1 L2. unfold blade_plot. rewrite Hc.
  destruct (sections b) as [|s0 ss] eqn:Es; [contradiction|]. rewrite <- Es in *.
  destruct up as [|u0 up']; [rewrite Es in L1; discriminate|]. set (up := u0 :: up') in *. clearbody up.
  destruct (mapM_total (fun i => let* u := item up i in let* d := item down i in Ok [u; d]) (seq 0 (List.length (sections b)))) as (l & El).
  { intros i Hi. apply in_seq in Hi. unfold item.
    destruct (nth_error up i) eqn:E1; [|apply nth_error_None in E1; lia].
    destruct (nth_error down i) eqn:E2; [|apply nth_error_None in E2; lia]. cbn [bind]. eauto. }
  rewrite El. cbn [bind]. exists (List.concat l). split; [reflexivity|].
  destruct (mapM_nth _ _ _ El) as (Ll & N & _). rewrite seq_length in Ll.
  rewrite <- Ll in *. apply concat_pairs_nth; auto.
  intros i Hi. destruct (N i i) as (y & Y & E).
  { rewrite nth_error_nth' with (d := 0%nat) by (rewrite seq_length; lia). rewrite seq_nth; auto. }
  apply bind_ok in E as (u & A & E). apply bind_ok in E as (d & B & E). injection E as <-.
  apply item_ok in A, B. eauto.
Qed.

Lemma plot_applied : forall refl st b st' b' o, consistent b -> apply_transformations refl st b = (st', b', Ok tt) ->
  exists cs, blade_plot o b' = Ok (cs, if truthy_str o then o else None) /\
    List.length cs = (2 * List.length (sections b))%nat /\
    forall i s r c P k sk, station b i s r c P k sk ->
      nth_error cs (2 * (List.length (sections b) - 1 - i)) = Some (map (wrap r) (upper (st' s))) /\
      nth_error cs (2 * (List.length (sections b) - 1 - i) + 1) = Some (map (wrap r) (lower (st' s))).
Proof.
  intros refl st b st' b' o C HA. destruct (apply_sections _ _ _ _ _ C HA) as ((SP & _) & _ & up & down & Hc & L1 & L2 & W).
  destruct (apply_inv _ _ _ _ _ HA) as (u0 & d0 & _ & HC & _). apply cylinder_coords_inv in HC as (_ & _ & N & _); auto.
  destruct (plot_curves o b' up down Hc) as (cs & E & L & K); try (rewrite <- SP; auto).
  { intros Q. rewrite Q in N. simpl in N. lia. }
  rewrite <- SP in L, K. exists cs. split; auto. split; auto. intros i s r c P k sk S.
  destruct (W _ _ _ _ _ _ _ S) as (A & B).
  assert (i < List.length (sections b))%nat by (apply nth_error_Some; rewrite (st_section _ _ _ _ _ _ _ _ S); discriminate).
  destruct (K (List.length (sections b) - 1 - i)%nat) as (-> & ->); [lia|]. auto.
Qed.

(** ** The error file *)
Section Errors.
Variables (float_str : R -> str) (distance : face -> pt3 -> res R).

Lemma block_fails : forall title n grid row p, (0 < n)%nat -> nth_error grid 0 = Some row -> nth_error row 0 = Some p ->
  error_block float_str distance title None n grid = Err AttributeError.
Proof.
  intros title n grid row p Hn Hg Hr. unfold error_block. destruct n as [|n]; [lia|]. cbn [seq mapM].
  unfold item at 1. rewrite Hg. cbn [bind]. destruct row as [|p0 row]; [discriminate|]. cbn [List.length seq combine mapM error_line bind]. reflexivity.
Qed.

Lemma errors_fail : forall d fs upper lower errors b up down ru rd pu pd, d <> CannotOpen ->
  check_errors upper lower = Ok tt ->
  sections b <> [] -> coordinates b = Built up down -> nth_error up 0 = Some ru -> nth_error down 0 = Some rd ->
  nth_error ru 0 = Some pu -> nth_error rd 0 = Some pd ->
  write_blade_errors float_str distance d fs upper lower errors None None b =
    (ParamsModel.put fs (errors ++ L ".txt") [], Err AttributeError).
Proof.
  intros d fs upper lower errors b up down ru rd pu pd Hd HE NE Hc U0 D0 U1 D1. unfold write_blade_errors.
  assert (N : (0 < List.length (sections b))%nat) by (destruct (sections b); [contradiction|simpl; lia]).
  rewrite Hc, (block_fails _ _ _ _ _ N U0 U1), (block_fails _ _ _ _ _ N D0 D1).
  unfold check_errors in HE. destruct (truthy_str upper); [destruct d; [|contradiction|]; reflexivity|].
  destruct (truthy_str lower); [|discriminate]. cbn [bind]. destruct d; [|contradiction|]; reflexivity.
Qed.
Lemma mapM_Forall2 : forall {A B} (f : A -> res B) l l', mapM f l = Ok l' -> Forall2 (fun a b => f a = Ok b) l l'.
Proof.
  induction l as [|a l IH]; cbn [mapM]; intros l' H; [injection H as <-; constructor|].
  apply bind_ok in H as (b & E & H). apply bind_ok in H as (bs & E' & H). injection H as <-. constructor; auto.
Qed.

Lemma Forall2_weaken : forall {A B} (P Q : A -> B -> Prop) l l', (forall a b, P a b -> Q a b) -> Forall2 P l l' -> Forall2 Q l l'.
Proof. intros A B P Q l l' H F. induction F; constructor; auto. Qed.

Lemma section_rows : forall fc i row, (forall p, exists d, distance fc p = Ok d) ->
  exists ls, mapM (fun jp => error_line float_str distance (Some fc) i (fst jp) (snd jp)) (combine (seq 0 (List.length row)) row) = Ok ls /\
    Forall2 (fun q l => exists d, distance fc (scale3 1000 (snd q)) = Ok d /\ l = report_row float_str i (fst q) (snd q) d) (numbered row) ls.
Proof.
  intros fc i row T.
  destruct (mapM_total (fun jp => error_line float_str distance (Some fc) i (fst jp) (snd jp)) (combine (seq 0 (List.length row)) row)) as (ls & E).
  { intros [j p] _. unfold error_line. cbn [fst snd]. destruct (scale3 1000 p) as [[x y] z]. destruct (T (x, y, z)) as (d & ->). cbn [bind]. eauto. }
  exists ls. split; [exact E|]. apply mapM_Forall2 in E. eapply Forall2_weaken; [|exact E]. intros [j [[x y] z]] l. unfold error_line. cbn [fst snd scale3].
  destruct (distance fc (1000 * x, 1000 * y, 1000 * z)) as [d|] eqn:ED; cbn [bind]; [|discriminate]. intros H. injection H as <-.
  exists d. split; auto.
Qed.

Lemma block_reports : forall title fc grid, (forall p, exists d, distance fc p = Ok d) ->
  exists text, error_block float_str distance title (Some fc) (List.length grid) grid = Ok text /\
    reports float_str distance title fc grid text.
Proof.
  intros title fc grid T. unfold error_block.
  assert (K : forall pre rest, exists rows,
    mapM (fun i => let* row := item (pre ++ rest) i in
      let* ls := mapM (fun jp => error_line float_str distance (Some fc) i (fst jp) (snd jp)) (combine (seq 0 (List.length row)) row) in
      Ok (List.concat ls)) (seq (List.length pre) (List.length rest)) = Ok (map (@List.concat ascii) rows) /\
    Forall2 (fun r ls => Forall2 (fun q l => exists d, distance fc (scale3 1000 (snd q)) = Ok d /\
                                              l = report_row float_str (fst r) (fst q) (snd q) d) (numbered (snd r)) ls)
            (combine (seq (List.length pre) (List.length rest)) rest) rows).
  { intros pre rest. revert pre. induction rest as [|row rest IH]; intros pre; [exists []; split; [reflexivity|constructor]|].
    cbn [List.length seq mapM combine]. unfold item at 1. rewrite nth_error_app2 by lia. rewrite Nat.sub_diag. cbn [nth_error bind].
    destruct (section_rows fc (List.length pre) row T) as (ls & -> & Q). cbn [bind].
    destruct (IH (pre ++ [row])) as (rows & E & F). rewrite <- app_assoc in E. cbn [app] in E. rewrite app_length in E, F. cbn [List.length] in E, F.
    rewrite Nat.add_1_r in E, F. rewrite E. cbn [bind]. exists (ls :: rows). split; [reflexivity|]. constructor; auto. }
  destruct (K [] grid) as (rows & E & F). cbn [app List.length] in E, F. rewrite E. cbn [bind]. eexists. split; [reflexivity|]. exists rows.
  split; [exact F|]. cut (List.concat (map (@List.concat ascii) rows) = List.concat (List.concat rows)).
  { intros ->. repeat (rewrite <- ?app_assoc; cbn [L list_ascii_of_string app tab3]). reflexivity. }
  clear. induction rows; cbn; auto. rewrite concat_app. congruence.
Qed.

Lemma errors_report : forall fs upper lower errors fu fl b up down, coordinates b = Built up down ->
  List.length up = List.length (sections b) -> List.length down = List.length (sections b) ->
  (forall f p, exists d, distance f p = Ok d) ->
  exists tu tl, write_blade_errors float_str distance Writable fs upper lower errors (Some fu) (Some fl) b =
      (ParamsModel.put fs (errors ++ L ".txt") (nl :: tu ++ tl), Ok tt) /\
    (forall a s, upper = Some (a :: s) -> reports float_str distance "UPPER FACE" fu up tu) /\
    (forall a s, lower = Some (a :: s) -> reports float_str distance "LOWER FACE" fl down tl) /\
    (upper = None \/ upper = Some [] -> tu = []) /\ (lower = None \/ lower = Some [] -> tl = []).
Proof.
  intros fs upper lower errors fu fl b up down Hc LU LD T. unfold write_blade_errors. rewrite Hc.
  destruct (block_reports "UPPER FACE" fu up (T fu)) as (tu & EU & RU). destruct (block_reports "LOWER FACE" fl down (T fl)) as (tl & EL & RL).
  rewrite LU in EU. rewrite LD in EL. rewrite EU, EL.
  exists (if truthy_str upper then tu else []), (if truthy_str lower then tl else []).
  split. { destruct (truthy_str upper), (truthy_str lower); reflexivity. }
  split; [intros a s ->; exact RU|]. split; [intros a s ->; exact RL|]. split; intros [-> | ->]; reflexivity.
Qed.
End Errors.

Lemma errors_disk : forall fl di d fs upper lower errors gu gl b,
  (d = CannotOpen -> write_blade_errors fl di d fs upper lower errors gu gl b = (fs, Err IOError)) /\
  (forall g, g <> errors ++ L ".txt" -> fst (write_blade_errors fl di d fs upper lower errors gu gl b) g = fs g) /\
  (forall n text, write_blade_errors fl di Writable fs upper lower errors gu gl b = (ParamsModel.put fs (errors ++ L ".txt") text, Ok tt) ->
     write_blade_errors fl di (FullAfter n) fs upper lower errors gu gl b = (ParamsModel.put fs (errors ++ L ".txt") (firstn n text), Err IOError)).
Proof.
  intros fl di d fs upper lower errors gu gl b. split; [intros ->; reflexivity|]. split.
  - intros g G. assert (P : forall x, ParamsModel.put fs (errors ++ L ".txt") x g = fs g) by (intros x; unfold ParamsModel.put, eqb_str; destruct (list_eq_dec _ _ _); congruence).
    unfold write_blade_errors. destruct d; try reflexivity; destruct (coordinates b); cbn [fst]; auto;
      match goal with |- context [match ?x with Ok _ => _ | Err _ => _ end] => destruct x end; cbn [fst]; auto.
  - intros n text. unfold write_blade_errors. destruct (coordinates b); [| |];
      try match goal with |- context [match ?x with Ok _ => _ | Err _ => _ end] => destruct x end; intros H; try discriminate.
    all: apply (f_equal fst) in H; cbn [fst] in H; apply (f_equal (fun f => f (errors ++ L ".txt"))) in H; unfold ParamsModel.put, eqb_str in H;
      destruct (list_eq_dec _ _ _); [injection H as ->; reflexivity|congruence].
Qed.

Lemma checks : forall upper lower, (check_errors upper lower = Ok tt <-> exists s, s <> [] /\ (upper = Some s \/ lower = Some s)) /\
  (check_errors upper lower <> Ok tt -> check_errors upper lower = Err ValueError).
Proof.
  intros upper lower. unfold check_errors. split.
  - split.
    + intros H. destruct (truthy_str upper) eqn:E; [|destruct (truthy_str lower) eqn:E'; [|discriminate]].
      * destruct upper as [[|a s]|]; try discriminate. exists (a :: s). split; [discriminate|auto].
      * destruct lower as [[|a s]|]; try discriminate. exists (a :: s). split; [discriminate|auto].
    + intros (s & Hs & [-> | ->]); (destruct s as [|a s]; [contradiction|]); cbn; [reflexivity|]. rewrite orb_true_r. reflexivity.
  - destruct (truthy_str upper || truthy_str lower); cbn; congruence.
Qed.

Lemma string_check : forall a, (check_string a = Ok tt <-> exists s, a = ParamsModel.AStr s) /\
  (check_string a <> Ok tt -> check_string a = Err TypeError).
Proof.
  intros [s|]; cbn [check_string]; (split; [split|]).
  - eauto.
  - reflexivity.
  - intros H. destruct H. reflexivity.
  - discriminate.
  - intros (s & E). discriminate.
  - reflexivity.
Qed.
