(** Proofs: construction, pitch, section placement (C42 - C49). *)
From Coq Require Import Reals List ZArith String Lra Lia Bool.
From Verif Require Import Base ProfileModel ProfileSpec ProfileProofs ProfileProofs2 ProfileProofs3 BladeModel BladeSpec.
Import ListNotations.
Open Scope R_scope.

(** ** Construction *)
Lemma new_blade_ok : forall ss rs cs ps ks sk th ca,
  let same := List.length rs = List.length ss /\ List.length cs = List.length ss /\
     List.length ps = List.length ss /\ List.length ks = List.length ss /\ List.length sk = List.length ss in
  (same -> exists b, new_blade ss rs cs ps ks sk th ca = Ok b /\
     sections b = ss /\ radii b = rs /\ chords b = cs /\ pitch b = ps /\ rake b = ks /\ skew b = sk /\
     thickness b = th /\ camber b = ca /\ coordinates b = NoCoords /\
     upper_face b = None /\ lower_face b = None /\ tip_face b = None /\ root_face b = None) /\
  (~ same -> new_blade ss rs cs ps ks sk th ca = Err ValueError).
Proof.
  intros ss rs cs ps ks sk th ca same.
  assert (K : check_params (mkBlade ss rs cs ps ks sk th ca NoCoords None None None None) = true <-> same).
  { unfold check_params, same. cbn [sections radii chords pitch rake skew].
    rewrite !andb_true_iff, !Nat.eqb_eq. intuition congruence. }
  unfold new_blade. split; intros H.
  - apply K in H. rewrite H. eexists; split; [reflexivity|]. repeat split.
  - destruct (check_params _); [exfalso; apply H, K; reflexivity|reflexivity].
Qed.

Lemma consistent_station : forall b i, consistent b -> (i < List.length (sections b))%nat ->
  exists s r c P k sk, station b i s r c P k sk.
Proof.
  intros b i (A & B & C & D & E) H.
  assert (N : forall {X} (l : list X), List.length l = List.length (sections b) -> exists x, nth_error l i = Some x).
  { intros X l Hl. destruct (nth_error l i) eqn:Q; [eauto|]. apply nth_error_None in Q. lia. }
  destruct (N _ (sections b) eq_refl) as [s Hs].
  destruct (N _ _ A) as [r Hr], (N _ _ B) as [c Hc], (N _ _ C) as [P HP], (N _ _ D) as [k Hk], (N _ _ E) as [sk Hsk].
  exists s, r, c, P, k, sk. constructor; auto.
Qed.

(** ** Pitch and induced rake *)
Lemma pitch_angle_at_ok : forall b i s r c P k sk, station b i s r c P k sk -> r <> 0 ->
  pitch_angle_at b i = Ok (atan (P / (2 * PI * r))).
Proof.
  intros b i s r c P k sk [H1 H2 H3 H4 H5 H6] Hr. unfold pitch_angle_at, item. rewrite H4, H2. cbn [bind].
  unfold fdiv. destruct (Req_EM_T (2 * PI * r) 0) as [E|E]; [|reflexivity].
  exfalso. pose proof PI_RGT_0. apply Rmult_integral in E as [E|E]; lra.
Qed.

Lemma induced_rake_at_ok : forall b i s r c P k sk, station b i s r c P k sk -> r <> 0 ->
  induced_rake_at b i = Ok (sk * (PI / 180) * P / (2 * PI)).
Proof.
  intros b i s r c P k sk H Hr. unfold induced_rake_at.
  rewrite (pitch_angle_at_ok _ _ _ _ _ _ _ _ H Hr). destruct H as [H1 H2 H3 H4 H5 H6]. unfold item. rewrite H2, H6. cbn [bind].
  f_equal. rewrite tan_atan. unfold radians. pose proof PI_RGT_0. field. split; lra.
Qed.

Lemma mapM_seq : forall {A} (f : nat -> res A) n k,
  (forall i, (k <= i < k + n)%nat -> exists a, f i = Ok a) ->
  exists l, mapM f (seq k n) = Ok l /\ List.length l = n /\
    forall i, (i < n)%nat -> exists a, nth_error l i = Some a /\ f (k + i)%nat = Ok a.
Proof.
  intros A f n. induction n as [|n IH]; intros k H; cbn [seq mapM].
  - exists []. repeat split. intros i Hi. lia.
  - destruct (H k ltac:(lia)) as [a Ha]. rewrite Ha. cbn [bind].
    destruct (IH (S k)) as (l & E & L & N); [intros i Hi; apply H; lia|].
    rewrite E. cbn [bind]. exists (a :: l). split; [reflexivity|]. split; [simpl; lia|].
    intros [|i] Hi; cbn [nth_error].
    + exists a. split; auto. rewrite Nat.add_0_r. auto.
    + destruct (N i ltac:(lia)) as (x & X & Y). exists x. split; auto.
      replace (k + S i)%nat with (S k + i)%nat by lia. exact Y.
Qed.

Lemma pitch_angles_ok : forall b, consistent b -> Forall (fun r => r <> 0) (radii b) ->
  exists l, pitch_angles b = Ok l /\ List.length l = List.length (sections b) /\
    forall i s r c P k sk, station b i s r c P k sk ->
      exists a, nth_error l i = Some a /\ - (PI / 2) < a < PI / 2 /\ tan a = P / (2 * PI * r).
Proof.
  intros b C F. unfold pitch_angles.
  assert (R0 : forall i s r c P k sk, station b i s r c P k sk -> r <> 0).
  { intros i s r c P k sk S. rewrite Forall_forall in F. apply F. eapply nth_error_In. apply (st_radius _ _ _ _ _ _ _ _ S). }
  assert (LP : List.length (pitch b) = List.length (sections b)) by apply C.
  rewrite LP.
  destruct (mapM_seq (pitch_angle_at b) (List.length (sections b)) 0) as (l & E & L & N).
  { intros i Hi. destruct (consistent_station b i C ltac:(lia)) as (s & r & c & P & k & sk & S).
    eexists. eapply pitch_angle_at_ok; eauto. }
  exists l. split; auto. split; auto. intros i s r c P k sk S.
  assert (Hi : (i < List.length (sections b))%nat) by (apply nth_error_Some; rewrite (st_section _ _ _ _ _ _ _ _ S); discriminate).
  destruct (N i Hi) as (a & Ha & Fa). exists a. split; auto.
  cbn in Fa. rewrite (pitch_angle_at_ok _ _ _ _ _ _ _ _ S (R0 _ _ _ _ _ _ _ S)) in Fa. injection Fa as <-.
  split; [pose proof (atan_bound (P / (2 * PI * r))); lra|apply tan_atan].
Qed.

Lemma induced_rake_ok : forall b, consistent b -> Forall (fun r => r <> 0) (radii b) ->
  exists l, induced_rake b = Ok l /\ List.length l = List.length (sections b) /\
    forall i s r c P k sk, station b i s r c P k sk ->
      nth_error l i = Some (sk * (PI / 180) * (P / (2 * PI))).
Proof.
  intros b C F. unfold induced_rake.
  assert (R0 : forall i s r c P k sk, station b i s r c P k sk -> r <> 0).
  { intros i s r c P k sk S. rewrite Forall_forall in F. apply F. eapply nth_error_In. apply (st_radius _ _ _ _ _ _ _ _ S). }
  assert (LP : List.length (radii b) = List.length (sections b)) by apply C.
  rewrite LP.
  destruct (mapM_seq (induced_rake_at b) (List.length (sections b)) 0) as (l & E & L & N).
  { intros i Hi. destruct (consistent_station b i C ltac:(lia)) as (s & r & c & P & k & sk & S).
    eexists. eapply induced_rake_at_ok; eauto. }
  exists l. split; auto. split; auto. intros i s r c P k sk S.
  assert (Hi : (i < List.length (sections b))%nat) by (apply nth_error_Some; rewrite (st_section _ _ _ _ _ _ _ _ S); discriminate).
  destruct (N i Hi) as (a & Ha & Fa). cbn in Fa.
  rewrite (induced_rake_at_ok _ _ _ _ _ _ _ _ S (R0 _ _ _ _ _ _ _ S)) in Fa. injection Fa as <-.
  rewrite Ha. f_equal. unfold Rdiv. ring.
Qed.

(** ** One section *)
Lemma run_steps_app : forall l1 l2 p, run_steps (l1 ++ l2) p =
  match run_steps l1 p with (q, Ok _) => run_steps l2 q | (q, Err e) => (q, Err e) end.
Proof.
  induction l1 as [|f l1 IH]; intros l2 p; cbn [app run_steps]; [reflexivity|].
  destruct (f p); [apply IH|reflexivity].
Qed.

Lemma moved_uniform_eq : forall f p q1 q2, moved f p q1 -> moved f p q2 -> q1 = q2.
Proof.
  intros f p q1 q2 (U1 & A1 & B1) (U2 & A2 & B2). apply uniform_points_eq; auto; congruence.
Qed.

Lemma moved_compose : forall f g p q r, moved f p q -> moved g q r -> moved (fun a => g (f a)) p r.
Proof.
  intros f g p q r (U1 & A1 & B1) (U2 & A2 & B2). split; auto. split.
  - rewrite A2, A1, map_map. reflexivity.
  - rewrite B2, B1, map_map. reflexivity.
Qed.

Lemma moved_ext : forall f g p q, (forall a, f a = g a) -> moved f p q -> moved g p q.
Proof.
  intros f g p q E (U & A & B). split; auto. rewrite A, B. split; apply map_ext; auto.
Qed.

Lemma moved_id : forall p, uniform p -> moved (fun a => a) p p.
Proof. intros p U. split; auto. rewrite !map_id. auto. Qed.

Lemma translate_moved : forall v p, uniform p -> moved (padd v) p (translate v p).
Proof. intros v p U. split; [apply translate_uniform; auto|apply translate_points]. Qed.

Lemma reflect_moved : forall p, uniform p -> moved pneg p (reflect p).
Proof. intros p U. split; [apply reflect_uniform; auto|apply reflect_points]. Qed.

Lemma rotate_moved : forall t p, uniform p -> exists q, rotate (Some t) None p = Ok q /\ moved (prot t) p q.
Proof. intros t p U. destruct (rotate_full t p U) as (q & E & Uq & A & B). exists q. split; auto. split; auto. Qed.

Lemma scale_coords_uniform : forall k p, uniform p -> uniform (scale_coords k p).
Proof. intros k p (A & B & C). unfold uniform, scale_coords, vscale; cbn. rewrite !map_length. auto. Qed.

Lemma scale_moved : forall k p q, uniform p -> scale k true p = Ok q ->
  exists ref, reference_point p = Ok ref /\ moved (fun a => padd ref (pscale k (psub a ref))) p q.
Proof.
  intros k p q U E.
  assert (E0 := E). unfold scale in E. apply bind_ok in E as (ref & R & E). exists ref. split; auto.
  injection E as <-. split.
  - apply translate_uniform, scale_coords_uniform, translate_uniform, U.
  - destruct (scale_points k p ref R) as (q' & E' & A & B). rewrite E0 in E'. injection E' as <-. auto.
Qed.

(** Resized profile: reference point in the origin, chord scaled. *)
Lemma size_steps : forall c p q, uniform p ->
  run_steps [ (fun p => let* ref := reference_point p in Ok (translate (- fst ref, - snd ref) p));
              (fun p => scale c true p) ] p = (q, Ok tt) ->
  exists ref, reference_point p = Ok ref /\ moved (sized c ref) p q.
Proof.
  intros c p q U. cbn [run_steps]. destruct (reference_point p) as [ref|e] eqn:R; cbn [bind]; [|discriminate].
  destruct (scale c true _) as [q'|e] eqn:S; [|discriminate]. intros E. injection E as <-.
  exists ref. split; auto.
  assert (T : uniform (translate (- fst ref, - snd ref) p)) by (apply translate_uniform; auto).
  destruct (scale_moved _ _ _ T S) as (ref' & R' & M).
  pose proof (translate_reference (- fst ref, - snd ref) p ref R) as R''. rewrite R' in R''. injection R'' as ->.
  eapply moved_ext; [|eapply moved_compose; [apply translate_moved; auto|exact M]].
  intros [x y]. destruct ref as [u v]. unfold sized, padd, pscale, psub; cbn [fst snd]. f_equal; ring.
Qed.

Lemma size_steps_ok : forall c p ref, uniform p -> reference_point p = Ok ref ->
  exists q, run_steps [ (fun p => let* ref := reference_point p in Ok (translate (- fst ref, - snd ref) p));
              (fun p => scale c true p) ] p = (q, Ok tt) /\ moved (sized c ref) p q.
Proof.
  intros c p ref U R. cbn [run_steps]. rewrite R. cbn [bind].
  pose proof (translate_reference (- fst ref, - snd ref) p ref R) as R'.
  destruct (scale_points c _ _ R') as (q & E & _). rewrite E. exists q. split; auto.
  destruct (size_steps c p q U) as (ref2 & R2 & M).
  - cbn [run_steps]. rewrite R. cbn [bind]. rewrite E. reflexivity.
  - rewrite R in R2. injection R2 as <-. exact M.
Qed.

Lemma seat_steps : forall b i s r c P k sk (refl : bool) p, station b i s r c P k sk -> r <> 0 -> uniform p ->
  exists q, run_steps ((if refl then [ fun p => Ok (reflect p) ] else [])
     ++ [ (fun p => let* a := pitch_angle_at b i in rotate (Some (PI / 2 - a)) None p);
       (fun p => let* r := item (radii b) i in let* s := item (skew b) i in
                 Ok (translate (0, - r * radians s) p));
       (fun p => let* k := item (rake b) i in let* ir := induced_rake_at b i in
                 Ok (translate (- (k + ir), 0) p)) ]) p = (q, Ok tt) /\
     moved (seat r P k sk refl) p q.
Proof.
  intros b i s r c P k sk refl p S Hr U.
  assert (Q : exists p1, run_steps (if refl then [ fun p => Ok (reflect p) ] else []) p = (p1, Ok tt) /\
            moved (fun a => if refl then pneg a else a) p p1).
  { destruct refl; cbn [run_steps]; eexists; (split; [reflexivity|]); [apply reflect_moved|apply moved_id]; auto. }
  destruct Q as (p1 & E1 & M1). rewrite run_steps_app, E1. cbn [run_steps].
  rewrite (pitch_angle_at_ok _ _ _ _ _ _ _ _ S Hr), (induced_rake_at_ok _ _ _ _ _ _ _ _ S Hr).
  unfold item. rewrite (st_radius _ _ _ _ _ _ _ _ S), (st_skew _ _ _ _ _ _ _ _ S), (st_rake _ _ _ _ _ _ _ _ S). cbn [bind].
  assert (U1 : uniform p1) by apply M1.
  destruct (rotate_moved (PI / 2 - atan (P / (2 * PI * r))) p1 U1) as (p2 & E2 & M2). rewrite E2.
  eexists. split; [reflexivity|].
  pose proof (proj1 M2) as U2.
  set (v := (0, - r * radians sk)). set (w := (- (k + sk * (PI / 180) * P / (2 * PI)), 0)).
  pose proof (translate_moved v p2 U2) as M3. pose proof (proj1 M3) as U3.
  pose proof (translate_moved w _ U3) as M4.
  eapply moved_ext; [|exact (moved_compose _ _ _ _ _ (moved_compose _ _ _ _ _ (moved_compose _ _ _ _ _ M1 M2) M3) M4)].
  intros a. unfold seat, v, w, padd, radians; cbn [fst snd]. f_equal; ring.
Qed.

Lemma section_steps_split : forall b (refl : bool) i s r c P k sk, station b i s r c P k sk ->
  forall p, run_steps (section_steps b refl i) p =
  match run_steps [ (fun p => let* ref := reference_point p in Ok (translate (- fst ref, - snd ref) p));
              (fun p => scale c true p) ] p with
  | (p1, Err e) => (p1, Err e)
  | (p1, Ok _) =>
    match run_steps (match thickness b with None => []
       | Some ts => [ fun p => let* t := item ts i in set_thickness_max t p ] end) p1 with
    | (p2, Err e) => (p2, Err e)
    | (p2, Ok _) =>
      match run_steps (match camber b with None => []
         | Some cs => if Nat.ltb i (List.length (sections b) - 1)
             then [ fun p => let* c := item cs i in set_camber_line_max c p ] else [] end) p2 with
      | (p3, Err e) => (p3, Err e)
      | (p3, Ok _) => run_steps ((if refl then [ fun p => Ok (reflect p) ] else [])
     ++ [ (fun p => let* a := pitch_angle_at b i in rotate (Some (PI / 2 - a)) None p);
       (fun p => let* r := item (radii b) i in let* s := item (skew b) i in
                 Ok (translate (0, - r * radians s) p));
       (fun p => let* k := item (rake b) i in let* ir := induced_rake_at b i in
                 Ok (translate (- (k + ir), 0) p)) ]) p3
      end
    end
  end.
Proof.
  intros b refl i s r c P k sk S p. unfold section_steps.
  rewrite run_steps_app. cbn [run_steps]. unfold item at 1. rewrite (st_chord _ _ _ _ _ _ _ _ S). cbn [bind].
  destruct (reference_point p); cbn [bind]; [|reflexivity].
  destruct (scale c true _); [|reflexivity].
  rewrite run_steps_app. destruct (run_steps _ _) as [p2 [[]|]]; [|reflexivity].
  rewrite run_steps_app. destruct (run_steps _ _) as [p3 [[]|]]; reflexivity.
Qed.

(** Everything about one station in one statement. *)
Lemma section_inv : forall b refl i s r c P k sk p q, station b i s r c P k sk -> r <> 0 -> uniform p ->
  run_steps (section_steps b refl i) p = (q, Ok tt) ->
  exists ref p1 p2 p3, reference_point p = Ok ref /\ moved (sized c ref) p p1 /\
    (match thickness b with None => p2 = p1
       | Some ts => exists t, nth_error ts i = Some t /\ set_thickness_max t p1 = Ok p2 end) /\
    (match camber b with None => p3 = p2
       | Some cs => if Nat.ltb i (List.length (sections b) - 1)
           then exists c, nth_error cs i = Some c /\ set_camber_line_max c p2 = Ok p3 else p3 = p2 end) /\
    (uniform p3 -> moved (seat r P k sk refl) p3 q).
Proof.
  intros b refl i s r c P k sk p q S Hr U H.
  rewrite (section_steps_split _ _ _ _ _ _ _ _ _ S) in H.
  destruct (run_steps [_; _] p) as [p1 [[]|]] eqn:E1; [|discriminate].
  destruct (size_steps c p p1 U E1) as (ref & R & M1).
  destruct (run_steps _ p1) as [p2 [[]|]] eqn:E2; [|discriminate].
  destruct (run_steps _ p2) as [p3 [[]|]] eqn:E3; [|discriminate].
  exists ref, p1, p2, p3. split; auto. split; auto. split; [|split].
  - destruct (thickness b) as [ts|]; cbn [run_steps] in E2; [|injection E2 as ->; reflexivity].
    unfold item in E2. destruct (nth_error ts i) as [t|] eqn:T; cbn [bind] in E2; [|discriminate].
    destruct (set_thickness_max t p1) eqn:Q; [|discriminate]. injection E2 as ->. eauto.
  - destruct (camber b) as [cs|]; cbn [run_steps] in E3; [|injection E3 as ->; reflexivity].
    destruct (Nat.ltb _ _); cbn [run_steps] in E3; [|injection E3 as ->; reflexivity].
    unfold item in E3. destruct (nth_error cs i) as [t|] eqn:T; cbn [bind] in E3; [|discriminate].
    destruct (set_camber_line_max t p2) eqn:Q; [|discriminate]. injection E3 as ->. eauto.
  - intros U3. destruct (seat_steps b i s r c P k sk refl p3 S Hr U3) as (q' & E' & M). rewrite E' in H. injection H as ->. exact M.
Qed.

Lemma section_plain : forall b refl i s r c P k sk p ref, station b i s r c P k sk -> r <> 0 -> uniform p ->
  thickness b = None -> camber b = None -> reference_point p = Ok ref ->
  exists q, run_steps (section_steps b refl i) p = (q, Ok tt) /\
    moved (fun a => seat r P k sk refl (sized c ref a)) p q.
Proof.
  intros b refl i s r c P k sk p ref S Hr U T C R.
  rewrite (section_steps_split _ _ _ _ _ _ _ _ _ S), T, C. cbn [run_steps].
  destruct (size_steps_ok c p ref U R) as (p1 & E1 & M1). cbn [run_steps] in E1. rewrite E1.
  destruct (seat_steps b i s r c P k sk refl p1 S Hr (proj1 M1)) as (q & E & M).
  exists q. split; auto. eapply moved_compose; eauto.
Qed.
