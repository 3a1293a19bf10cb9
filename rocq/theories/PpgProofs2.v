(** Effects and content of export_ppg. *)
From Coq Require Import Reals List ZArith Ascii String Lra Lia.
From Verif Require Import Base TextModel TextProofs FormatModel FormatSpec FormatProofs ProfileModel ProfileProofs
  RbfProofs BladeModel BladeSpec BladeProofs BladeProofs2 PpgModel PpgSpec PpgProofs.
From Verif Require ParamsModel.
Import ListNotations.
Open Scope R_scope.

Lemma mapM_fdiv : forall (g : R -> R) D l l', mapM (fun x => fdiv (g x) D) l = Ok l' ->
  (l = [] \/ D <> 0) /\ l' = map (fun x => g x / D) l.
Proof.
  induction l as [|x l IH]; intros l' H; cbn in H.
  - injection H as <-. auto.
  - unfold fdiv at 1 in H. destruct (Req_EM_T D 0) as [|N]; [discriminate|]. cbn in H.
    destruct (mapM _ l) as [r|] eqn:E; [|discriminate]. injection H as <-. destruct (IH r eq_refl) as [_ ->]. auto.
Qed.
Lemma mapM_fdiv_ok : forall (g : R -> R) D l, D <> 0 -> mapM (fun x => fdiv (g x) D) l = Ok (map (fun x => g x / D) l).
Proof.
  intros g D l N. induction l as [|x l IH]; [reflexivity|]. cbn. unfold fdiv at 1. destruct (Req_EM_T D 0); [congruence|].
  cbn. rewrite IH. reflexivity.
Qed.

Definition normalised (D : R) (b : blade) : blade :=
  set_lengths (map (fun r => r / (D / 2)) (radii b)) (map (fun c => c / D) (chords b))
              (map (fun p => p / D) (pitch b)) (map (fun k => k / D) (rake b)) b.
Definition nonempty_lengths (b : blade) : Prop := radii b <> [] \/ chords b <> [] \/ pitch b <> [] \/ rake b <> [].

Lemma abs_to_norm_inv : forall D b b1, abs_to_norm D b = Ok b1 ->
  b1 = normalised D b /\ (nonempty_lengths b -> D <> 0).
Proof.
  intros D b b1 H. unfold abs_to_norm in H.
  destruct (mapM _ (radii b)) as [rs|] eqn:E1; [|discriminate]. cbn [bind] in H.
  destruct (mapM _ (chords b)) as [cs|] eqn:E2; [|discriminate]. cbn [bind] in H.
  destruct (mapM _ (pitch b)) as [ps|] eqn:E3; [|discriminate]. cbn [bind] in H.
  destruct (mapM _ (rake b)) as [ks|] eqn:E4; [|discriminate]. cbn [bind] in H. injection H as <-.
  apply (mapM_fdiv (fun r => r * 2)) in E1. apply (mapM_fdiv (fun r => r)) in E2. apply (mapM_fdiv (fun r => r)) in E3. apply (mapM_fdiv (fun r => r)) in E4.
  destruct E1 as [D1 ->], E2 as [D2 ->], E3 as [D3 ->], E4 as [D4 ->]. split.
  - unfold normalised. destruct D1 as [D1|D1]; [rewrite D1; reflexivity|].
    f_equal. apply map_ext. intros. field. auto.
  - intros [N|[N|[N|N]]]; intuition congruence.
Qed.
Lemma abs_to_norm_ok : forall D b, D <> 0 -> abs_to_norm D b = Ok (normalised D b).
Proof.
  intros D b N. unfold abs_to_norm. rewrite (mapM_fdiv_ok (fun r => r * 2)) by auto. cbn [bind].
  rewrite !(mapM_fdiv_ok (fun r => r)) by auto. cbn [bind]. unfold normalised. do 2 f_equal. apply map_ext. intros. field. auto.
Qed.
Lemma map_id_if : forall (f : R -> R) l, (forall x, In x l -> f x = x) -> map f l = l.
Proof. induction l; intros H; cbn; [reflexivity|f_equal; [apply H; left; auto|apply IHl; intros; apply H; right; auto]]. Qed.
Lemma restored : forall D b b1, abs_to_norm D b = Ok b1 -> norm_to_abs D b1 = b.
Proof.
  intros D b b1 H. destruct (abs_to_norm_inv D b b1 H) as [-> N]. unfold norm_to_abs, normalised, set_lengths, vscale. cbn. rewrite !map_map.
  assert (E : forall (l : list R) (f : R -> R), (l <> [] -> D <> 0) -> (forall x, D <> 0 -> f x = x) -> map f l = l).
  { intros l f A B. apply map_id_if. intros x I. apply B, A. destruct l; [destruct I|discriminate]. }
  destruct b as [ss rs cs ps ks sk th ca co u l t r]. unfold nonempty_lengths in N. cbn in *.
  rewrite !E; try reflexivity; try (intros; field; auto); auto.
Qed.

Section Export.
Variable float_str : R -> str.

Lemma export_restores : forall d fs name D H nb nm st b fs' b',
  export_ppg float_str d fs name D H nb nm st b = (fs', b', Ok tt) -> b' = b.
Proof.
  intros d fs name D H nb nm st b fs' b' E. unfold export_ppg in E.
  destruct (measure st b) as [tf|]; [|discriminate].
  destruct nm.
  - destruct (ppg_text _ _ _ _ _ _ _) as [text|]; [|discriminate]. destruct d; try discriminate. injection E as _ <-. reflexivity.
  - destruct (abs_to_norm (num_value D) b) as [b1|] eqn:N; [|discriminate].
    destruct (ppg_text _ _ _ _ _ _ _) as [text|]; [|discriminate]. destruct d; try discriminate. injection E as _ <-.
    apply restored; auto.
Qed.
Lemma export_normalized : forall d fs name D H nb st b fs' b' o,
  export_ppg float_str d fs name D H nb true st b = (fs', b', o) -> b' = b.
Proof.
  intros d fs name D H nb st b fs' b' o E. unfold export_ppg in E.
  destruct (measure st b) as [tf|]; [|injection E; auto].
  destruct (ppg_text _ _ _ _ _ _ _) as [text|]; [|injection E; auto]. destruct d; injection E; auto.
Qed.
(** Failures before the file is touched. *)
Lemma export_unmeasurable : forall d fs name D H nb nm st b e, measure st b = Err e ->
  export_ppg float_str d fs name D H nb nm st b = (fs, b, Err e).
Proof. intros. unfold export_ppg. rewrite H0. reflexivity. Qed.

(** ** Success *)
Lemma ppg_text_ok : forall D H nb st b tf, consistent b -> List.length tf = List.length (sections b) ->
  exists text, ppg_text float_str D H nb st b tf = Ok text.
Proof.
  intros D H nb st b tf (C1 & C2 & C3 & C4 & C5) LT. unfold ppg_text.
  assert (G : forall {A} (l : list A) i, (i < List.length l)%nat -> exists x, nth_error l i = Some x).
  { intros A l i Hi. destruct (nth_error l i) eqn:E; eauto. apply nth_error_None in E. lia. }
  destruct (mapM_total (ppg_row b tf) (seq 0 (List.length (sections b)))) as (rows & ->).
  { intros i I. apply in_seq in I. unfold ppg_row, item.
    destruct (G _ (radii b) i) as (? & ->); [lia|]. destruct (G _ (chords b) i) as (? & ->); [lia|].
    destruct (G _ (skew b) i) as (? & ->); [lia|]. destruct (G _ (rake b) i) as (? & ->); [lia|].
    destruct (G _ (pitch b) i) as (? & ->); [lia|]. destruct (G _ tf i) as (? & ->); [lia|]. cbn. eauto. }
  destruct (mapM_total (ppg_profile st b) (seq 0 (List.length (sections b)))) as (profs & ->).
  { intros i I. apply in_seq in I. unfold ppg_profile, item.
    destruct (G _ (radii b) i) as (? & ->); [lia|]. destruct (G _ (sections b) i) as (? & ->); [lia|]. cbn. eauto. }
  cbn [bind]. eauto.
Qed.
Lemma normalised_consistent : forall D b, consistent b -> consistent (normalised D b).
Proof. intros D b (C1 & C2 & C3 & C4 & C5). unfold consistent, normalised, set_lengths. cbn. rewrite !map_length. auto. Qed.
Lemma measure_ok : forall st b, (forall s, In s (sections b) -> exists t f, max_thickness None (st s) = Ok t /\ max_camber (Some 500%Z) (st s) = Ok f) ->
  exists tf, measure st b = Ok tf /\ List.length tf = List.length (sections b).
Proof.
  intros st b M. unfold measure.
  destruct (mapM_total (fun s => let* t := max_thickness None (st s) in let* f := max_camber (Some 500%Z) (st s) in Ok (t, f)) (sections b)) as (tf & E).
  { intros s I. destruct (M s I) as (t & f & -> & ->). cbn. eauto. }
  exists tf. split; auto. apply mapM_ok_length in E. auto.
Qed.

Lemma export_writes : forall fs name D H nb nm st b, consistent b -> (nm = false -> num_value D <> 0) ->
  (forall s, In s (sections b) -> exists t f, max_thickness None (st s) = Ok t /\ max_camber (Some 500%Z) (st s) = Ok f) ->
  exists text,
    export_ppg float_str Writable fs name D H nb nm st b = (ParamsModel.put fs name text, b, Ok tt) /\
    let b1 := if nm then b else normalised (num_value D) b in
    export_ppg float_str CannotOpen fs name D H nb nm st b = (fs, b1, Err IOError) /\
    forall n, export_ppg float_str (FullAfter n) fs name D H nb nm st b = (ParamsModel.put fs name (firstn n text), b1, Err IOError).
Proof.
  intros fs name D H nb nm st b C N M. destruct (measure_ok st b M) as (tf & E & LT).
  set (b1 := if nm then b else normalised (num_value D) b).
  assert (C1 : consistent b1) by (unfold b1; destruct nm; auto using normalised_consistent).
  assert (S1 : sections b1 = sections b) by (unfold b1; destruct nm; reflexivity).
  destruct (ppg_text_ok D H nb st b1 tf C1) as (text & T); [congruence|].
  assert (A : (if nm then Ok b else abs_to_norm (num_value D) b) = Ok b1).
  { unfold b1. destruct nm; auto. apply abs_to_norm_ok; auto. }
  assert (W : export_ppg float_str Writable fs name D H nb nm st b =
     (ParamsModel.put fs name text, if nm then b1 else norm_to_abs (num_value D) b1, Ok tt)).
  { unfold export_ppg. rewrite E, A, T. reflexivity. }
  exists text. split.
  - rewrite W. do 2 f_equal. assert (R := export_restores _ _ _ _ _ _ _ _ _ _ _ W). rewrite R. reflexivity.
  - unfold export_ppg. rewrite E, A, T. auto.
Qed.
End Export.

(** ** Content *)
Section Content.
Variable float_str : R -> str.
Hypothesis float_str_line : forall x, ~ In nl (float_str x).

Lemma forall2_nth : forall {A B} (P : A -> B -> Prop) l l' i a, Forall2 P l l' -> nth_error l i = Some a ->
  exists b, nth_error l' i = Some b /\ P a b.
Proof.
  intros A B P l l' i a F. revert i. induction F as [|x y l l' Hxy F IH]; intros [|i] H; try discriminate; cbn in *.
  - injection H as <-. eauto.
  - apply IH; auto.
Qed.
Lemma nth_seq : forall n i, (i < n)%nat -> nth_error (seq 0 n) i = Some i.
Proof.
  intros n i H. rewrite (nth_error_nth' _ 0%nat) by (rewrite seq_length; auto). rewrite seq_nth by auto. reflexivity.
Qed.

Lemma export_content : forall fs name D H nb nm st b fs' b',
  export_ppg float_str Writable fs name D H nb nm st b = (fs', b', Ok tt) ->
  exists text doc, fs' name = Some text /\ (forall other, other <> name -> fs' other = fs other) /\
    read_ppg text = Some doc /\
    List.length (d_rows doc) = List.length (sections b) /\ List.length (d_profiles doc) = List.length (sections b) /\
    (forall i s r c P k sk, station b i s r c P k sk -> exists t f row q,
       max_thickness None (st s) = Ok t /\ max_camber (Some 500%Z) (st s) = Ok f /\
       nth_error (d_rows doc) i = Some row /\
       Forall2 nine_digits [in_radii nm (num_value D) r; in_diameters nm (num_value D) c; sk; in_diameters nm (num_value D) k;
                            in_diameters nm (num_value D) P; t; f] row /\
       nth_error (d_profiles doc) i = Some q /\ nine_digits (in_radii nm (num_value D) r) (p_radius q) /\
       p_count q = Z.of_nat (List.length (xup (st s))) /\
       Forall2 nine_digits (xup (st s)) (p_x q) /\ Forall2 nine_digits (yup (st s)) (p_up q) /\
       Forall2 nine_digits (ydown (st s)) (p_down q)) /\
    firstn 10 (split_nl text) = header_lines float_str D H nb (List.length (sections b)) /\
    Forall2 (fun o l => Forall2 nine_digits [fst o; snd o] l) hub_offsets (d_hub doc).
Proof.
  intros fs name D H nb nm st b fs' b' E. unfold export_ppg in E.
  destruct (measure st b) as [tf|] eqn:M; [|discriminate].
  destruct (if nm then Ok b else abs_to_norm (num_value D) b) as [b1|] eqn:N; [|discriminate].
  destruct (ppg_text float_str D H nb st b1 tf) as [text|] eqn:T; [|discriminate].
  injection E as <- _.
  assert (B : b1 = if nm then b else normalised (num_value D) b).
  { destruct nm; [congruence|]. apply abs_to_norm_inv in N. apply N. }
  destruct (ppg_text_lines _ _ _ _ _ _ _ _ T) as (rows & profs & FR & FP & ->).
  assert (LS : sections b1 = sections b) by (rewrite B; destruct nm; reflexivity). rewrite LS in *.
  assert (LR := forall2_length _ _ _ FR). assert (LP := forall2_length _ _ _ FP). rewrite seq_length in LR, LP.
  destruct (read_lines_ok _ float_str_line D H nb rows profs) as (doc & RD & R1 & R2 & R3); [congruence|].
  exists (join_nl (all_lines float_str D H nb rows profs)), doc.
  split. { unfold ParamsModel.put, eqb_str. destruct (list_eq_dec ascii_dec name name); [reflexivity|congruence]. }
  split. { intros o NE. unfold ParamsModel.put, eqb_str. destruct (list_eq_dec ascii_dec o name); [congruence|reflexivity]. }
  split; auto. assert (L1 := forall2_length _ _ _ R1). assert (L2 := forall2_length _ _ _ R2). assert (L3 := forall2_length _ _ _ R3).
  split; [congruence|]. split; [congruence|]. split; [|split; [rewrite split_join; [unfold all_lines; replace (List.length rows) with (List.length (sections b)) by congruence; reflexivity|discriminate|apply all_lines_no_nl, float_str_line]|exact R3]].
  intros i s r c P k sk [S1 S2 S3 S4 S5 S6].
  assert (I : (i < List.length (sections b))%nat) by (apply nth_error_Some; congruence).
  destruct (forall2_nth _ _ _ i i FR (nth_seq _ _ I)) as (rv & NR & (r1 & c1 & k1 & p1 & sk1 & m & A1 & A2 & A3 & A4 & A5 & A6 & ->)).
  destruct (forall2_nth _ _ _ i i FP (nth_seq _ _ I)) as ([r2 p2] & NP & (s2 & Q1 & Q2 & Q3)). cbn [fst snd] in *. rewrite LS in Q2.
  assert (s2 = s) by congruence. subst s2 p2.
  assert (V : r1 = in_radii nm (num_value D) r /\ c1 = in_diameters nm (num_value D) c /\ sk1 = sk /\
    k1 = in_diameters nm (num_value D) k /\ p1 = in_diameters nm (num_value D) P /\ r2 = r1).
  { rewrite B in *. unfold in_radii, in_diameters. destruct nm.
    - repeat split; congruence.
    - unfold normalised, set_lengths in *. cbn [radii chords skew rake pitch] in *.
      rewrite (map_nth_error _ _ _ S2) in *. rewrite (map_nth_error _ _ _ S3) in *. rewrite (map_nth_error _ _ _ S4) in *.
      rewrite (map_nth_error _ _ _ S5) in *. repeat split; congruence. }
  destruct V as (-> & -> & -> & -> & -> & ->).
  unfold measure in M. apply mapM_forall2 in M. destruct (forall2_nth _ _ _ i s M S1) as (m' & Nm & Em).
  assert (m' = m) by congruence. subst m'.
  destruct (max_thickness None (st s)) as [t|] eqn:Et; [|discriminate]. cbn [bind] in Em.
  destruct (max_camber (Some 500%Z) (st s)) as [f|] eqn:Ef; [|discriminate]. cbn [bind] in Em. injection Em as <-.
  destruct (forall2_nth _ _ _ i _ R1 NR) as (row & Nrow & Frow).
  destruct (forall2_nth _ _ _ i _ R2 NP) as (q & Nq & (Z1 & Z2 & Z3 & Z4 & Z5)). cbn [fst snd] in *.
  exists t, f, row, q. auto 15.
Qed.

(** The text in words of its reader. *)
Lemma header_shown : forall D H nb n, header_of float_str D H nb n (header_lines float_str D H nb n).
Proof.
  intros D H nb n. exists (num_str float_str D), (num_str float_str H), (num_str float_str nb), (show_int (Z.of_nat n)), (show_int (Z.of_nat n)), (show_int (Z.of_nat n)).
  split; [reflexivity|]. assert (S : forall x, shows float_str x (num_str float_str x)) by (intros [z|r]; cbn; [apply parse_show_int|reflexivity]).
  repeat split; auto; apply parse_show_int.
Qed.
Lemma hub_table : hub_offsets = map (fun o => (IZR (fst o) / 10000, IZR (snd o) / 10000)) stock_hub.
Proof. unfold hub_offsets, stock_hub. cbn [map fst snd]. repeat (apply f_equal2; [apply f_equal2; lra|]). reflexivity. Qed.
Lemma hub_shown : forall l, Forall2 (fun o l => Forall2 nine_digits [fst o; snd o] l) hub_offsets l ->
  Forall2 (fun o l => Forall2 nine_digits [IZR (fst o) / 10000; IZR (snd o) / 10000] l) stock_hub l.
Proof.
  intros l. rewrite hub_table. generalize stock_hub. intros h. revert l. induction h as [|o h IH]; intros l H; inversion H; subst; constructor; auto.
Qed.
Lemma export_file : forall fs name D H nb nm st b fs' b',
  export_ppg float_str Writable fs name D H nb nm st b = (fs', b', Ok tt) ->
  exists text doc, fs' name = Some text /\ (forall other, other <> name -> fs' other = fs other) /\
    read_ppg text = Some doc /\
    List.length (d_rows doc) = List.length (sections b) /\ List.length (d_profiles doc) = List.length (sections b) /\
    (forall i s r c P k sk, station b i s r c P k sk -> exists t f row q,
       max_thickness None (st s) = Ok t /\ max_camber (Some 500%Z) (st s) = Ok f /\
       nth_error (d_rows doc) i = Some row /\
       Forall2 nine_digits [in_radii nm (num_value D) r; in_diameters nm (num_value D) c; sk; in_diameters nm (num_value D) k;
                            in_diameters nm (num_value D) P; t; f] row /\
       nth_error (d_profiles doc) i = Some q /\ nine_digits (in_radii nm (num_value D) r) (p_radius q) /\
       p_count q = Z.of_nat (List.length (xup (st s))) /\
       Forall2 nine_digits (xup (st s)) (p_x q) /\ Forall2 nine_digits (yup (st s)) (p_up q) /\
       Forall2 nine_digits (ydown (st s)) (p_down q)) /\
    header_of float_str D H nb (List.length (sections b)) (firstn 10 (split_nl text)) /\
    Forall2 (fun o l => Forall2 nine_digits [IZR (fst o) / 10000; IZR (snd o) / 10000] l) stock_hub (d_hub doc).
Proof.
  intros fs name D H nb nm st b fs' b' E. destruct (export_content _ _ _ _ _ _ _ _ _ _ E) as (text & doc & K1 & K2 & K3 & K4 & K5 & K6 & K7 & K8).
  exists text, doc. rewrite K7. repeat (split; [solve [auto]|]). split; [apply header_shown|apply hub_shown; exact K8].
Qed.
End Content.
