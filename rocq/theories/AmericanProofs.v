(** Proofs about the American thickness convention. *)
From Coq Require Import Reals List ZArith String Bool Lra Lia.
From Verif Require Import Base ProfileModel ProfileSpec ProfileProofs ProfileProofs2 CustomModel CustomSpec CustomProofs2 CustomProofs3 BladeProofs2 RbfProofs AmericanModel AmericanSpec.
Import ListNotations.
Open Scope R_scope.

(** ** Masks *)
Lemma compress_len : forall {A} mask (l r : list A), compress mask l = Ok r -> List.length mask = List.length l.
Proof.
  intros A. induction mask as [|b mask IH]; intros [|x l] r H; cbn [compress] in H; try discriminate; auto.
  apply bind_ok in H. destruct H as (r' & H & _). cbn [List.length]. f_equal. eauto.
Qed.
Lemma compress_at : forall mask i, nth_error mask i = Some true -> exists k, forall A (l r : list A),
  compress mask l = Ok r -> nth_error r k = nth_error l i.
Proof.
  induction mask as [|b mask IH]; intros [|i] H; cbn [nth_error] in H; try discriminate.
  - injection H as ->. exists 0%nat. intros A [|x l] r E; cbn [compress] in E; [discriminate|].
    apply bind_ok in E. destruct E as (r' & _ & E). injection E as <-. reflexivity.
  - destruct (IH i H) as (k & K). exists (if b then S k else k). intros A [|x l] r E; cbn [compress] in E; [discriminate|].
    apply bind_ok in E. destruct E as (r' & E & E'). injection E' as <-. destruct b; cbn [nth_error]; eauto.
Qed.
Lemma scatter_spec : forall {A} mask (l v r : list A), scatter mask l v = Ok r ->
  List.length r = List.length l /\ List.length mask = List.length l /\ compress mask r = Ok v /\
  (forall i, nth_error mask i = Some false -> nth_error r i = nth_error l i).
Proof.
  intros A. induction mask as [|b mask IH]; intros [|x l] v r H; cbn [scatter] in H; try (destruct b); try discriminate.
  - destruct v; [|discriminate]. injection H as <-. repeat split; auto.
  - destruct v as [|y v]; [discriminate|]. apply bind_ok in H. destruct H as (r' & H & E). injection E as <-.
    destruct (IH _ _ _ H) as (L1 & L2 & C & N). cbn [List.length compress]. rewrite C. cbn [bind]. repeat split; try lia.
    intros [|i]; cbn [nth_error]; [discriminate|auto].
  - apply bind_ok in H. destruct H as (r' & H & E). injection E as <-.
    destruct (IH _ _ _ H) as (L1 & L2 & C & N). cbn [List.length compress]. rewrite C. cbn [bind]. repeat split; try lia.
    intros [|i]; cbn [nth_error]; auto.
Qed.

(** ** Angles *)
Lemma atan_slope : forall m, sin (atan m) = m * cos (atan m) /\ 0 < cos (atan m).
Proof.
  intros m. assert (C : 0 < cos (atan m)) by (apply cos_gt_0; pose proof (atan_bound m); lra). split; auto.
  pose proof (tan_atan m) as T. unfold tan in T. rewrite <- T at 2. field. lra.
Qed.
Lemma horizontal_iff : forall m, sin (atan m) = 0 <-> m = 0.
Proof.
  intros m. destruct (atan_slope m) as [S C]. split; intros H.
  - rewrite S in H. apply Rmult_integral in H. destruct H; lra.
  - rewrite S, H. ring.
Qed.
Lemma cotangent : forall m, m <> 0 -> cos (atan m) / sin (atan m) = 1 / m.
Proof. intros m H. destruct (atan_slope m) as [S C]. rewrite S. field. split; lra. Qed.

Lemma nth_of : forall (l : list R) i x, nth_error l i = Some x -> nth i l 0 = x.
Proof. intros l i x H. apply nth_error_nth with (d := 0) in H. auto. Qed.
Lemma nth_of_lt : forall (l : list R) i, (i < List.length l)%nat -> nth_error l i = Some (nth i l 0).
Proof. intros. apply nth_error_nth'. auto. Qed.

Section P.
Variable curve : list R -> list R -> list R -> res (list R).
Variable newton : (list R -> res (list R)) -> list R -> res (list R).
Hypothesis FR : finds_roots newton.

(** The parameters stored before the thickness is computed. *)
Lemma slopes_spec : forall n chord cperc cmax camperc m, camber_slopes n chord cperc cmax camperc = Ok m -> (0 < n)%nat -> chord <> 0 ->
  List.length m = n /\ nth 0 m 0 = 0 /\ forall i, (S i < n)%nat ->
    nth (S i) cperc 0 - nth i cperc 0 <> 0 /\
    nth (S i) m 0 * ((nth (S i) cperc 0 - nth i cperc 0) * chord) = (nth (S i) camperc 0 - nth i camperc 0) * cmax.
Proof.
  intros n chord cperc cmax camperc m H N C. unfold camber_slopes in H. apply bind_ok in H. destruct H as (ms & H & E). injection E as <-.
  pose proof (RbfProofs.mapM_ok_length _ _ _ H) as L. rewrite seq_length in L. split; [cbn [List.length]; lia|]. split; [reflexivity|].
  intros i I. cbn [nth]. assert (Q : nth_error (seq 1 (n - 1)) i = Some (S i)).
  { rewrite nth_error_nth' with (d := 0%nat) by (rewrite seq_length; lia). rewrite seq_nth by lia. f_equal. }
  destruct (BladeProofs2.mapM_nth _ _ _ H) as (_ & NTH & _). destruct (NTH i _ Q) as (y & Y & F). cbn [Nat.sub] in F. rewrite Nat.sub_0_r in F.
  apply bind_ok in F. destruct F as (c1 & C1 & F). apply bind_ok in F. destruct F as (c0 & C0 & F).
  apply bind_ok in F. destruct F as (x1 & X1 & F). apply bind_ok in F. destruct F as (x0 & X0 & F).
  apply bind_ok in F. destruct F as (a & A & F).
  apply item_nth in C1, C0, X1, X0. destruct C1 as [_ C1], C0 as [_ C0], X1 as [_ X1], X0 as [_ X0].
  unfold fdiv in A, F. destruct (Req_EM_T (x1 - x0) 0) as [|D]; [discriminate|]. injection A as <-. destruct (Req_EM_T chord 0); [contradiction|].
  injection F as <-. rewrite C1, C0, X1, X0. split; [lra|]. rewrite (nth_of _ _ _ Y). field. split; auto.
Qed.

Lemma compress_length_le : forall {A} mask (l r : list A), compress mask l = Ok r -> (List.length r <= List.length mask)%nat.
Proof.
  intros A. induction mask as [|b mask IH]; intros [|x l] r H; cbn [compress] in H; try discriminate.
  - injection H as <-. auto.
  - apply bind_ok in H. destruct H as (r' & H & E). injection E as <-. specialize (IH _ _ H). destruct b; cbn [List.length]; lia.
Qed.

Lemma vzip_at : forall {A B C} (f : A -> B -> C) l1 l2 r i x y, vzip f l1 l2 = Ok r ->
  nth_error l1 i = Some x -> nth_error l2 i = Some y -> nth_error r i = Some (f x y).
Proof.
  intros A B C f l1 l2 r i x y H X Y. apply vzip_inv in H. destruct H as [_ ->]. revert l2 i X Y.
  induction l1 as [|a l1 IH]; intros [|b l2] [|i] X Y; cbn [nth_error map2] in *; try discriminate; try congruence; auto.
Qed.
Lemma vzip_len : forall {A B C} (f : A -> B -> C) l1 l2 r, vzip f l1 l2 = Ok r -> List.length l1 = List.length l2 /\ List.length r = List.length l1.
Proof.
  intros A B C f l1 l2 r H. apply vzip_inv in H. destruct H as [L ->]. split; auto. revert l2 L.
  induction l1 as [|a l1 IH]; intros [|b l2] L; cbn [List.length map2] in *; try lia. f_equal. apply IH. lia.
Qed.
Lemma combine_at : forall {A B} (l1 : list A) (l2 : list B) i x y, nth_error l1 i = Some x -> nth_error l2 i = Some y -> nth_error (combine l1 l2) i = Some (x, y).
Proof.
  intros A B. induction l1 as [|a l1 IH]; intros [|b l2] [|i] x y X Y; cbn [nth_error combine] in *; try discriminate; try congruence; auto.
Qed.
Lemma set1_len : forall v l, List.length (set1 v l) = List.length l.
Proof. intros v [|a [|b l]]; reflexivity. Qed.
Lemma set1_at : forall v l i, (i < List.length l)%nat -> nth i (set1 v l) 0 = if Nat.eq_dec i 1 then v else nth i l 0.
Proof. intros v [|a [|b l]] [|[|i]] H; cbn [List.length] in H; try lia; reflexivity. Qed.

(** ** The construction *)
Lemma thickness_inv : forall f p q r,
  graph_of curve (xdown p) (ydown p) f -> uniform p -> chord_length q <> 0 ->
  camber_max q <> 0 ->
  thickness_american curve newton p (chord_length q) (chord_percentage q) (camber_max q) (camber_percentage q) = Ok r ->
  exists xs, List.length xs = List.length (xup p) /\
    (forall j, (j < List.length (xup p))%nat -> lower_abscissa q p f j (nth j xs 0)) /\
    List.length r = List.length (xup p) /\
    (forall i, (i < List.length (xup p))%nat -> (station_used q p xs i < List.length (xup p))%nat /\
       let j := station_used q p xs i in
       nth i r 0 = 2 * pdist (nth j xs 0, f (nth j xs 0)) (camber_point q j)).
Proof.
  intros f p q r G U CL CM H. unfold thickness_american in H.
  destruct (xup p) as [|xu0 xu'] eqn:EX; [discriminate|]. rewrite <- EX in H. rewrite <- EX.
  set (n := List.length (xup p)) in *.
  assert (N : (0 < n)%nat) by (unfold n; rewrite EX; cbn [List.length]; lia).
  apply bind_ok in H. destruct H as (m & Em & H). cbv zeta in H.
  destruct (slopes_spec _ _ _ _ _ _ Em N CL) as (Lm & M0 & Ms).
  set (mask := map (fun a => if Req_EM_T (sin a) 0 then false else true) (map atan m)) in *.
  apply bind_ok in H. destruct H as (kx & Ekx & H). apply bind_ok in H. destruct H as (ky & Eky & H).
  apply bind_ok in H. destruct H as (ka & Eka & H). apply bind_ok in H. destruct H as (x0 & Ex0 & H).
  apply bind_ok in H. destruct H as (roots & Er & H). apply bind_ok in H. destruct H as (xd & Exd & H).
  apply bind_ok in H. destruct H as (xu & Exu & H). apply bind_ok in H. destruct H as (yd & Eyd & H).
  apply bind_ok in H. destruct H as (yu & Eyu & H). apply bind_ok in H. destruct H as (xu1 & Exu1 & H).
  apply bind_ok in H. destruct H as ([[[xu2 xd2] yu2] yd2] & Epatch & H).
  apply bind_ok in H. destruct H as (dx & Edx & H). apply bind_ok in H. destruct H as (dy & Edy & H).
  rewrite G in Eyd. injection Eyd as <-.
  assert (Lmask : List.length mask = n) by (unfold mask; rewrite !map_length; auto).
  destruct (scatter_spec _ _ _ _ Exd) as (Lxd & Lmd & Croots & Fixed).
  assert (Ld : List.length (xdown p) = n) by (unfold n; destruct U as (_ & _ & U); auto).
  pose proof (compress_len _ _ _ Ekx) as Lcp. unfold vscale in Lcp. rewrite map_length in Lcp.
  pose proof (compress_len _ _ _ Eky) as Lcam. rewrite map_length in Lcam.
  exists xd. split; [lia|]. split.
  { (* every lower abscissa *)
    intros j J.
    assert (MJ : nth_error m j = Some (nth j m 0)) by (apply nth_of_lt; lia).
    assert (KJ : nth_error mask j = Some (if Req_EM_T (sin (atan (nth j m 0))) 0 then false else true)).
    { unfold mask. rewrite map_map. erewrite map_nth_error by exact MJ. reflexivity. }
    assert (LEV : level q j <-> nth j m 0 = 0).
    { destruct j as [|j]; [split; auto; intros; left; auto|]. destruct (Ms j J) as [D SL]. unfold level, camber_point. cbn [snd pred]. split.
      - intros [X|X]; [discriminate|]. assert (Z : nth (S j) m 0 * ((nth (S j) (chord_percentage q) 0 - nth j (chord_percentage q) 0) * chord_length q) = 0) by lra.
        apply Rmult_integral in Z. destruct Z as [Z|Z]; auto. apply Rmult_integral in Z. destruct Z; contradiction.
      - intros X. right. rewrite X in SL. lra. }
    split.
    - intros L. apply LEV in L. rewrite L in KJ. destruct (Req_EM_T (sin (atan 0)) 0) as [|X]; [|exfalso; exact (X (proj2 (horizontal_iff 0) eq_refl))].
      specialize (Fixed j KJ). rewrite (nth_of_lt (xdown p) j) in Fixed by lia. apply nth_of. auto.
    - intros L. assert (NZ : nth j m 0 <> 0) by tauto. clear LEV.
      destruct (Req_EM_T (sin (atan (nth j m 0))) 0) as [X|X]; [exfalso; exact (NZ (proj1 (horizontal_iff _) X))|].
      destruct (compress_at mask j KJ) as (k & K).
      assert (Kx : nth_error kx k = Some (chord_length q * nth j (chord_percentage q) 0)).
      { rewrite (K _ _ _ Ekx). unfold vscale. erewrite map_nth_error by (apply nth_of_lt; lia). f_equal. ring. }
      assert (Ky : nth_error ky k = Some (camber_max q * nth j (camber_percentage q) 0)).
      { rewrite (K _ _ _ Eky). erewrite map_nth_error by (apply nth_of_lt; lia). reflexivity. }
      assert (Ka : nth_error ka k = Some (atan (nth j m 0))).
      { rewrite (K _ _ _ Eka). erewrite map_nth_error by exact MJ. reflexivity. }
      assert (Kr : nth_error roots k = Some (nth j xd 0)).
      { rewrite (K _ _ _ Croots). apply nth_of_lt. lia. }
      destruct (FR _ _ _ Er) as (z & Fz & Z). unfold eq_to_solve in Fz. rewrite G in Fz. cbn [bind] in Fz.
      apply bind_ok in Fz. destruct Fz as (l & El & Fz).
      assert (Lk : nth_error l k = Some (camber_max q * nth j (camber_percentage q) 0 + cos (atan (nth j m 0)) / sin (atan (nth j m 0)) * (chord_length q * nth j (chord_percentage q) 0 - nth j xd 0))).
      { exact (vzip_at _ _ _ _ k (chord_length q * nth j (chord_percentage q) 0, camber_max q * nth j (camber_percentage q) 0, atan (nth j m 0)) _ El
          (combine_at _ _ _ _ _ (combine_at _ _ _ _ _ Kx Ky) Ka) Kr). }
      assert (Zk : nth_error z k = Some (f (nth j xd 0) - (camber_max q * nth j (camber_percentage q) 0 + cos (atan (nth j m 0)) / sin (atan (nth j m 0)) * (chord_length q * nth j (chord_percentage q) 0 - nth j xd 0)))).
      { eapply vzip_at; eauto. apply map_nth_error. auto. }
      rewrite Forall_forall in Z. apply nth_error_In in Zk. apply Z in Zk. rewrite cotangent in Zk by auto.
      destruct j as [|j]; [exfalso; apply NZ; auto|]. destruct (Ms j J) as [D SL].
      unfold pdot, psub, camber_point. cbn [fst snd pred].
      set (mm := nth (S j) m 0) in *. set (c1 := nth (S j) (chord_percentage q) 0) in *. set (c0 := nth j (chord_percentage q) 0) in *.
      set (k1 := nth (S j) (camber_percentage q) 0) in *. set (k0 := nth j (camber_percentage q) 0) in *. set (x := nth (S j) xd 0) in *.
      assert (E : mm * (f x - camber_max q * k1) = chord_length q * c1 - x).
      { assert (Q : f x - camber_max q * k1 = 1 / mm * (chord_length q * c1 - x)) by lra. rewrite Q. field. auto. }
      replace (k1 * camber_max q - k0 * camber_max q) with (mm * ((c1 - c0) * chord_length q)) by lra.
      replace ((f x - k1 * camber_max q) * (mm * ((c1 - c0) * chord_length q))) with (mm * (f x - camber_max q * k1) * ((c1 - c0) * chord_length q)) by ring.
      rewrite E. ring. }
  (* the distances *)
  assert (Lxu : List.length xu = n) by (apply vzip_len in Exu; lia).
  assert (Lyu : List.length yu = n) by (apply vzip_len in Eyu; destruct Eyu as [? E2]; rewrite E2; lia).
  assert (Vxu : forall i, (i < n)%nat -> nth i xu 0 = 2 * fst (camber_point q i) - nth i xd 0).
  { intros i I. apply nth_of. erewrite (vzip_at _ _ _ _ i) by (eauto; apply nth_of_lt; lia). f_equal. unfold camber_point. cbn [fst]. ring. }
  assert (Vyu : forall i, (i < n)%nat -> nth i yu 0 = 2 * snd (camber_point q i) - f (nth i xd 0)).
  { intros i I. apply nth_of. erewrite (vzip_at _ _ _ _ i); [|eauto|apply nth_of_lt; lia|apply map_nth_error, nth_of_lt; lia].
    f_equal. unfold camber_point. cbn [snd]. ring. }
  apply item_nth in Exu1. destruct Exu1 as [N1 Vxu1]. rewrite Lxu in N1. rewrite Vxu in Vxu1 by auto.
  assert (HD : hd 0 (xup p) = xu0) by (rewrite EX; auto).
  assert (P : List.length xu2 = n /\ List.length xd2 = n /\ List.length yu2 = n /\ List.length yd2 = n /\
    forall i, (i < n)%nat -> let j := station_used q p xd i in (j < n)%nat /\
      nth i xu2 0 = nth j xu 0 /\ nth i xd2 0 = nth j xd 0 /\ nth i yu2 0 = nth j yu 0 /\ nth i yd2 0 = f (nth j xd 0)).
  { assert (YD : forall i, (i < n)%nat -> nth i (map f xd) 0 = f (nth i xd 0)) by (intros i I; apply nth_of, map_nth_error, nth_of_lt; lia).
    unfold station_used. rewrite HD. rewrite <- Vxu1 in Epatch. destruct (Rlt_dec (2 * fst (camber_point q 1) - nth 1 xd 0) xu0) as [LT|GE].
    - apply bind_ok in Epatch. destruct Epatch as (a & Ea & E). apply bind_ok in E. destruct E as (b & Eb & E).
      apply bind_ok in E. destruct E as (c & Ec & E). apply bind_ok in E. destruct E as (d & Ed & E). injection E as <- <- <- <-.
      rewrite !set1_len, map_length. split; [auto|]. split; [lia|]. split; [auto|]. split; [lia|].
      apply item_nth in Ea, Eb, Ec, Ed. destruct Ea as [La <-], Eb as [Lb <-], Ec as [Lc <-], Ed as [Ld2 <-]. 
      intros i I. cbv zeta. rewrite !set1_at by (rewrite ?map_length; lia). destruct (Nat.eq_dec i 1) as [->|NE].
      + split; [lia|]. repeat split; auto. apply YD. lia.
      + split; [lia|]. repeat split; auto.
    - injection Epatch as <- <- <- <-. rewrite map_length. split; [auto|]. split; [lia|]. split; [auto|]. split; [lia|].
      intros i I. cbv zeta. destruct (Nat.eq_dec i 1) as [->|NE]; (split; [lia|]); repeat split; auto. }
  destruct P as (L1 & L2 & L3 & L4 & P).
  split. { apply vzip_len in H. destruct H as [_ ->]. apply vzip_len in Edx. lia. }
  intros i I. specialize (P i I). cbv zeta in *. set (j := station_used q p xd i) in *. destruct P as (J & P1 & P2 & P3 & P4).
  split; [auto|]. apply nth_of.
  erewrite (vzip_at _ _ _ _ i); [|eauto|eapply vzip_at; eauto; apply nth_of_lt; lia|eapply vzip_at; eauto; apply nth_of_lt; lia].
  f_equal. rewrite P1, P2, P3, P4, Vxu, Vyu by auto. unfold pdist, pnorm, psub. cbn [fst snd].
  set (C := camber_point q j). set (x := nth j xd 0).
  replace (2 * sqrt _) with (sqrt (2 * 2) * sqrt ((x - fst C) * (x - fst C) + (f x - snd C) * (f x - snd C))) by (rewrite sqrt_square by lra; reflexivity).
  rewrite <- sqrt_mult_alt by lra. f_equal. ring.
Qed.
End P.

(** ** The parameters *)
Lemma american_inv : forall am p q, generate_parameters am "american" p = Ok q -> camber_max q <> 0 ->
  exists th, am p (chord_length q) (chord_percentage q) (camber_max q) (camber_percentage q) = Ok th /\
    chord_length q <> 0 /\ vmax th = Ok (thickness_max q) /\
    (if Req_EM_T (thickness_max q) 0 then Ok (zeros (List.length (xup p))) else vdiv th (thickness_max q)) = Ok (thickness_percentage q).
Proof.
  intros am p q H C. unfold generate_parameters in H.
  apply bind_ok in H. destruct H as [[[lx ly] [tx ty]] [Ee H]].
  apply bind_ok in H. destruct H as [mn [Emn H]].
  apply bind_ok in H. destruct H as [cp [Ecp H]].
  apply bind_ok in H. destruct H as [cam [Ecam H]].
  apply bind_ok in H. destruct H as [cm [Ecm H]].
  apply bind_ok in H. destruct H as [cap [Ecap H]].
  change (String.eqb "american" "british") with false in H. change (String.eqb "american" "american") with true in H. cbv iota in H.
  apply bind_ok in H. destruct H as [th [Eth H]].
  apply bind_ok in H. destruct H as [tm [Etm H]].
  apply bind_ok in H. destruct H as [tp [Etp H]]. injection H as <-. cbn [chord_length chord_percentage camber_max camber_percentage thickness_max thickness_percentage] in *.
  destruct (Req_EM_T (Rabs cm) 0); [contradiction|].
  exists th. split; [auto|]. split; [|split; auto].
  assert (N : xup p <> []) by (destruct (xup p); discriminate).
  apply vdiv_inv in Ecp; [|destruct (xup p); [congruence|discriminate]]. tauto.
Qed.

Lemma american_thickness : forall curve newton f p q, finds_roots newton -> graph_of curve (xdown p) (ydown p) f -> uniform p ->
  generate_parameters (thickness_american curve newton) "american" p = Ok q -> camber_max q <> 0 ->
  exists xs, List.length xs = List.length (xup p) /\
    (forall j, (j < List.length (xup p))%nat -> lower_abscissa q p f j (nth j xs 0)) /\
    forall i, (i < List.length (xup p))%nat ->
      (station_used q p xs i < List.length (xup p))%nat /\
      thickness_max q * nth i (thickness_percentage q) 0 =
      2 * pdist (nth (station_used q p xs i) xs 0, f (nth (station_used q p xs i) xs 0)) (camber_point q (station_used q p xs i)).
Proof.
  intros curve newton f p q FR G U H C. destruct (american_inv _ _ _ H C) as (th & Eth & CL & Emax & Etp).
  destruct (thickness_inv _ _ FR f p q th G U CL C Eth) as (xs & L & LOW & Lth & D).
  exists xs. split; [auto|]. split; [auto|]. intros i I. destruct (D i I) as [J V]. split; [auto|]. cbv zeta in V. rewrite <- V.
  apply vmax_spec in Emax. destruct Emax as [_ MAX].
  destruct (Req_EM_T (thickness_max q) 0) as [Z|Z].
  - rewrite Z, Rmult_0_l. apply Rle_antisym; [|rewrite <- Z; apply MAX, nth_In; lia].
    rewrite V. apply Rmult_le_pos; [lra|]. apply sqrt_pos.
  - apply vdiv_inv in Etp; [|intros E; rewrite E in Lth; cbn in Lth; lia]. destruct Etp as [_ E]. rewrite E.
    rewrite (nth_indep _ 0 (0 / thickness_max q)) by (rewrite map_length; lia). rewrite (map_nth (fun x => x / thickness_max q)).
    field. auto.
Qed.

(** ** A profile on a raised horizontal camber line, and the same one shifted *)
Definition lens (d : R) : profile := mkProfile [d; 1 + d; 2 + d] [d; 1 + d; 2 + d] [1; 2; 1] [1; 0; 1].
Lemma atan_00 : sin (atan 0) = 0. Proof. apply horizontal_iff. reflexivity. Qed.
Ltac fd := match goal with |- context[fdiv ?a ?b] => unfold fdiv at 1; destruct (Req_EM_T b 0) as [?Z|_]; [exfalso; lra|]; cbn [bind] end.
Ltac vz := unfold vzip; cbn [List.length Nat.eqb map2 bind].
Lemma lens_slopes : forall c, c = 2 -> camber_slopes 3 c [0 / 2; 1 / 2; 2 / 2] 1 [1; 1; 1] = Ok [0; 0; 0].
Proof.
  intros c ->. unfold camber_slopes. cbn [seq Nat.sub mapM item nth_error bind].
  repeat fd. cut ((1 - 1) / (1 / 2 - 0 / 2) * 1 / 2 = 0 /\ (1 - 1) / (2 / 2 - 1 / 2) * 1 / 2 = 0); [intros [-> ->]; reflexivity|]. split; field.
Qed.
Lemma lens_thickness : forall curve newton d f, 0 <= d <= 1 / 4 -> graph_of curve (xdown (lens d)) (ydown (lens d)) f ->
  (forall F, newton F [] = Ok []) -> f d = 1 -> f (1 + d) = 0 -> f (2 + d) = 1 ->
  thickness_american curve newton (lens d) 2 [0 / 2; 1 / 2; 2 / 2] 1 [1; 1; 1] = Ok [2 * d; sqrt (2 * d * (2 * d) + 4); 2 * d].
Proof.
  intros curve newton d f D G N F0 F1 F2. unfold thickness_american.
  change (xup (lens d)) with [d; 1 + d; 2 + d]. change (List.length [d; 1 + d; 2 + d]) with 3%nat. cbv iota.
  rewrite lens_slopes by reflexivity. cbn [bind map].
  destruct (Req_EM_T (sin (atan 0)) 0) as [_|X]; [|exfalso; apply X, atan_00].
  cbn [compress vscale map bind lens xdown combine]. rewrite N. cbn [bind scatter]. vz.
  change (curve (xdown (lens d)) (ydown (lens d)) [d; 1 + d; 2 + d] ) with (curve [d; 1 + d; 2 + d] [1;0;1] [d; 1 + d; 2 + d]).
  vz.
  unfold graph_of in G. cbn [lens xdown ydown] in G. rewrite G. cbn [map bind]. rewrite F0, F1, F2. vz. cbn [item nth_error bind].
  destruct (Rlt_dec (2 * (1 / 2) * 2 - (1 + d)) d) as [LT|_]; [exfalso; lra|]. vz.
  cut (forall a b c a' b' c' : R, a = a' -> b = b' -> c = c' -> Ok [a; b; c] = Ok [a'; b'; c']); [intros K; apply K|congruence].
  - replace (_ + _) with (2 * d * (2 * d)) by field. apply sqrt_square. lra.
  - f_equal. field.
  - replace (_ + _) with (2 * d * (2 * d)) by field. apply sqrt_square. lra.
Qed.
Lemma lens_parameters : forall curve newton d f, 0 <= d <= 1 / 4 -> graph_of curve (xdown (lens d)) (ydown (lens d)) f ->
  (forall F, newton F [] = Ok []) -> f d = 1 -> f (1 + d) = 0 -> f (2 + d) = 1 ->
  exists q, generate_parameters (thickness_american curve newton) "american" (lens d) = Ok q /\
    camber_max q = 1 /\ thickness_max q * nth 0 (thickness_percentage q) 0 = 2 * d.
Proof.
  intros curve newton d f D G N F0 F1 F2. pose proof (lens_thickness curve newton d f D G N F0 F1 F2) as T.
  assert (NN : norm2 (d - (2 + d)) (1 - 1) = 2).
  { unfold norm2. replace (_ + _) with (2 * 2) by ring. apply sqrt_square. lra. }
  unfold generate_parameters.
  assert (E : update_edges (lens d) = Ok ((d, 1), (2 + d, 1))).
  { unfold update_edges. cbn [lens xup xdown yup ydown first final last bind].
    assert (Z : Rabs (d - d) = 0) by (rewrite Rminus_diag_eq, Rabs_R0; auto). assert (Z2 : Rabs (2 + d - (2 + d)) = 0) by (rewrite Rminus_diag_eq, Rabs_R0; auto).
    unfold edge_tol. destruct (Rlt_dec (1 / 10000) (Rabs (d - d))); [exfalso; lra|].
    cbn [lens xup xdown yup ydown first final last bind rev app]. destruct (Rlt_dec (1 / 10000) (Rabs (2 + d - (2 + d)))); [exfalso; lra|].
    destruct (Req_EM_T 1 1); [reflexivity|exfalso; lra]. }
  rewrite E. cbn [bind]. rewrite NN.
  assert (MN : vmin (xup (lens d)) = Ok d).
  { cbn [lens xup vmin fold_left]. rewrite (Rmin_left d) by lra. rewrite Rmin_left by lra. reflexivity. }
  rewrite MN. cbn [bind lens xup yup ydown map]. 
  replace [d - d; 1 + d - d; 2 + d - d] with [0; 1; 2] by (f_equal; [|f_equal; [|f_equal]]; ring).
  unfold vdiv at 1. cbn [mapM]. repeat fd. vz. cbn [vmax fold_left].
  replace ((1 + 1) / 2) with 1 by field. replace ((2 + 0) / 2) with 1 by field.
  rewrite !(Rmax_left 1 1) by lra. cbn [bind]. rewrite Rabs_R1. destruct (Req_EM_T 1 0); [exfalso; lra|].
  unfold vdiv at 1. cbn [mapM]. repeat fd.
  change (String.eqb "american" "british") with false. change (String.eqb "american" "american") with true. cbv iota.
  replace (1 / 1) with 1 by field.
  change (mkProfile [d; 1 + d; 2 + d] [d; 1 + d; 2 + d] [1; 2; 1] [1; 0; 1]) with (lens d). rewrite T. cbn [bind vmax fold_left].
  assert (P : 2 <= sqrt (2 * d * (2 * d) + 4)).
  { replace 2 with (sqrt (2 * 2)) at 1 by (apply sqrt_square; lra). apply sqrt_le_1_alt. nra. }
  rewrite (Rmax_right (2 * d)) by lra. rewrite Rmax_left by lra.
  destruct (Req_EM_T (sqrt (2 * d * (2 * d) + 4)) 0); [exfalso; lra|].
  unfold vdiv. cbn [mapM]. repeat fd.
  eexists. split; [reflexivity|]. cbn [camber_max thickness_max thickness_percentage nth]. split; [auto|]. field. auto.
Qed.
Lemma lens_shift : forall d, translate (d, 0) (lens 0) = lens d.
Proof.
  intros d. unfold translate, lens, vshift. cbn [xup xdown yup ydown map fst snd].
  assert (E : forall a b, a = b -> forall l l' : list R, l = l' -> a :: l = b :: l') by congruence.
  f_equal; repeat apply E; try reflexivity; ring.
Qed.
Lemma shift_matters : exists p v f, forall curve newton,
  graph_of curve (xdown p) (ydown p) f ->
  graph_of curve (xdown (translate v p)) (ydown (translate v p)) (fun x => f (x - fst v) + snd v) ->
  (forall F, newton F [] = Ok []) ->
  exists q q', generate_parameters (thickness_american curve newton) "american" p = Ok q /\
    generate_parameters (thickness_american curve newton) "american" (translate v p) = Ok q' /\
    thickness_max q * nth 0 (thickness_percentage q) 0 = 0 /\ thickness_max q' * nth 0 (thickness_percentage q') 0 = 1 / 2.
Proof.
  exists (lens 0), (1 / 4, 0), (fun x => (x - 1) * (x - 1)). intros curve newton G G' N. rewrite lens_shift in *. cbn [fst snd] in *.
  destruct (lens_parameters curve newton 0 _ ltac:(lra) G N) as (q & Q & _ & T); try (cbv beta; ring).
  destruct (lens_parameters curve newton (1 / 4) _ ltac:(lra) G' N) as (q' & Q' & _ & T'); try (cbv beta; field).
  exists q, q'. repeat split; auto; lra.
Qed.

(** ** An arched section *)
Definition arch : params := mkParams 2 [0; 1 / 2; 1] (3 / 4) [0; 1; 0] (5 / 2) [0; 1; 0].
Definition arch_orth : profile := mkProfile [0; 1 / 4; 2] [0; 7 / 4; 2] [0; 7 / 4; 0] [0; - (1 / 4); 0].
Lemma arch_normalised : normalised arch.
Proof.
  unfold normalised, consistent_params, arch. cbn [chord_length chord_percentage camber_max camber_percentage thickness_max thickness_percentage List.length hd last In].
  repeat split; try lra.
  - intros x [<-|[<-|[<-|[]]]]; lra.
  - left. split; [lra|]. split; [auto|]. intros x [<-|[<-|[<-|[]]]]; lra.
  - left. split; [lra|]. split; [auto|]. intros x [<-|[<-|[<-|[]]]]; lra.
Qed.
Lemma atan_34 : sin (atan (3 / 4)) = 3 / 5 /\ cos (atan (3 / 4)) = 4 / 5.
Proof.
  destruct (atan_slope (3 / 4)) as [S C]. pose proof (sin2_cos2 (atan (3 / 4))) as T. unfold Rsqr in T. rewrite S in T.
  assert (X : cos (atan (3 / 4)) = 4 / 5) by nra. rewrite S, X. split; lra.
Qed.
Lemma orth_arch : orth_camber_coordinates arch = Ok arch_orth.
Proof.
  unfold orth_camber_coordinates, slopes, arch. cbn [chord_length chord_percentage camber_max camber_percentage thickness_max thickness_percentage slopes_from].
  repeat fd. cbn [map]. replace ((1 - 0) * (3 / 4) / (1 / 2 - 0) / 2) with (3 / 4) by field.
  replace ((0 - 1) * (3 / 4) / (1 - 1 / 2) / 2) with (- (3 / 4)) by field.
  rewrite atan_opp, atan_0. unfold vscale. cbn [map]. vz.
  rewrite sin_neg, cos_neg, sin_0, cos_0. destruct atan_34 as [-> ->]. cbn [item nth_error bind].
  match goal with |- context[Rlt_dec ?a 0] => destruct (Rlt_dec a 0); [exfalso; lra|] end.
  unfold arch_orth.
  assert (E : forall a b, a = b -> forall l l' : list R, l = l' -> a :: l = b :: l') by congruence.
  f_equal. f_equal; repeat apply E; try reflexivity; field.
Qed.

Lemma arch_off_curve : exists q o curve f p i, normalised q /\ orth_camber_coordinates q = Ok o /\
  graph_of curve (xdown o) (ydown o) f /\ (forall j, (j < List.length (xdown o))%nat -> snd (down_at o j) = f (fst (down_at o j))) /\
  coordinates_american curve q = Ok p /\ (i < List.length (xdown p))%nat /\ snd (down_at p i) <> f (fst (down_at p i)).
Proof.
  exists arch, arch_orth, (fun _ _ ts => Ok (map (fun x => 4 / 7 * (x * (x - 2))) ts)), (fun x => 4 / 7 * (x * (x - 2))).
  eexists. exists 1%nat. split; [exact arch_normalised|]. split; [exact orth_arch|]. split; [intros ts; reflexivity|].
  split.
  { unfold arch_orth, down_at. cbn [xdown ydown List.length]. intros [|[|[|j]]] J; try lia; cbn [nth fst snd]; field. }
  unfold coordinates_american. rewrite orth_arch. split.
  { unfold arch, arch_orth, vscale. cbn [chord_length chord_percentage camber_max camber_percentage xdown ydown map bind]. vz. reflexivity. }
  unfold down_at. cbn [xdown ydown arch_orth List.length nth fst snd]. split; [lia|]. lra.
Qed.

Lemma arch_moves : exists q, normalised q /\ forall curve american convention p q',
  coordinates_american curve q = Ok p -> generate_parameters american convention p = Ok q' -> chord_percentage q' <> chord_percentage q.
Proof.
  exists arch. split; [exact arch_normalised|]. intros curve american convention p q' H H'.
  unfold coordinates_american in H. rewrite orth_arch in H. cbn [bind] in H.
  apply bind_ok in H. destruct H as (yd & Eyd & H). apply bind_ok in H. destruct H as (yu & Eyu & H). injection H as <-.
  unfold generate_parameters in H'. apply bind_ok in H'. destruct H' as [[[lx ly] [tx ty]] [Ee H]].
  assert (B : lx = 0 /\ tx = 2).
  { unfold update_edges in Ee. cbn [arch_orth xup xdown yup ydown first final last bind rev app] in Ee.
    destruct (Rlt_dec edge_tol (Rabs (0 - 0))); [discriminate|]. cbn [arch_orth xup xdown yup ydown first final last bind rev app] in Ee.
    destruct (Rlt_dec edge_tol (Rabs (2 - 2))); [discriminate|].
    apply bind_ok in Ee. destruct Ee as (a & _ & Ee). apply bind_ok in Ee. destruct Ee as (b & _ & Ee). apply bind_ok in Ee. destruct Ee as (c & _ & Ee).
    injection Ee as <- _ <- _. auto. }
  destruct B as [-> ->].
  apply bind_ok in H. destruct H as [mn [Emn H]]. apply bind_ok in H. destruct H as [cp [Ecp H]].
  apply bind_ok in H. destruct H as [cam [Ecam H]]. apply bind_ok in H. destruct H as [cm [Ecm H]].
  apply bind_ok in H. destruct H as [cap [Ecap H]]. apply bind_ok in H. destruct H as [th [Eth H]].
  apply bind_ok in H. destruct H as [tm [Etm H]]. apply bind_ok in H. destruct H as [tp [Etp H]]. injection H as <-. cbn [chord_percentage].
  apply vdiv_inv in Ecp; [|discriminate]. destruct Ecp as [C ->]. cbn [arch_orth xup map arch chord_percentage].
  assert (D : 2 <= norm2 (0 - 2) (ly - ty)).
  { unfold norm2. replace 2 with (sqrt (2 * 2)) at 1 by (apply sqrt_square; lra). apply sqrt_le_1_alt. pose proof (Rle_0_sqr (ly - ty)) as SQ. unfold Rsqr in SQ. lra. }
  set (c := norm2 (0 - 2) (ly - ty)) in *. intros E. injection E as E0 E1 E2.
  assert (M : mn = 0). { assert (X : 0 - mn = (0 - mn) / c * c) by (field; auto). rewrite E0 in X. lra. }
  assert (X : 1 / 4 - mn = (1 / 4 - mn) / c * c) by (field; auto). rewrite E1 in X. lra.
Qed.

(** ** A cambered section with a flat lower surface *)
(** A root finder that checks one candidate. *)
Definition checked (c : list R) : (list R -> res (list R)) -> list R -> res (list R) := fun F _ =>
  match F c with
  | Ok z => if forallb (fun v => if Req_EM_T v 0 then true else false) z then Ok c else Err RuntimeError
  | Err e => Err e
  end.
Lemma checked_roots : forall c, finds_roots (checked c).
Proof.
  intros c F x r H. unfold checked in H. destruct (F c) as [z|e] eqn:E; [|discriminate].
  destruct (forallb _ z) eqn:B; [|discriminate]. injection H as <-. exists z. split; auto.
  apply Forall_forall. rewrite forallb_forall in B. intros v V. specialize (B v V). cbv beta in B. destruct (Req_EM_T v 0); [auto|discriminate].
Qed.
Definition flat : list R -> list R -> list R -> res (list R) := fun _ y ts => Ok (map (fun _ => hd 0 y) ts).
Definition vault : profile := mkProfile [0; 1; 2] [0; 1; 2] [0; 3 / 2; 0] [0; 0; 0].
Lemma vault_slopes : camber_slopes 3 2 [0 / 2; 1 / 2; 2 / 2] (3 / 4) [0; 1; 0] = Ok [0; 3 / 4; - (3 / 4)].
Proof.
  unfold camber_slopes. cbn [seq Nat.sub mapM item nth_error bind].
  repeat fd. cut ((1 - 0) / (1 / 2 - 0 / 2) * (3 / 4) / 2 = 3 / 4 /\ (0 - 1) / (2 / 2 - 1 / 2) * (3 / 4) / 2 = - (3 / 4)); [intros [-> ->]; reflexivity|]. split; field.
Qed.
Lemma vault_thickness : thickness_american flat (checked [25 / 16; 2]) vault 2 [0 / 2; 1 / 2; 2 / 2] (3 / 4) [0; 1; 0] = Ok [0; 15 / 8; 0].
Proof.
  unfold thickness_american. change (xup vault) with [0; 1; 2]. change (List.length [0; 1; 2]) with 3%nat. cbv iota.
  rewrite vault_slopes. cbn [bind map].
  destruct (Req_EM_T (sin (atan 0)) 0) as [_|X]; [|exfalso; apply X, atan_00].
  destruct (Req_EM_T (sin (atan (3 / 4))) 0) as [X|_]; [exfalso; apply (proj1 (horizontal_iff _)) in X; lra|].
  destruct (Req_EM_T (sin (atan (- (3 / 4)))) 0) as [X|_]; [exfalso; apply (proj1 (horizontal_iff _)) in X; lra|].
  cbn [compress vscale map bind vault xdown combine].
  match goal with |- context[checked ?c ?F ?x] => assert (E : checked c F x = Ok c) end.
  { unfold checked, eq_to_solve, flat. cbn [xdown ydown map bind hd]. vz. cbn [forallb].
    rewrite !cotangent by lra. change (hd 0 (ydown vault)) with 0.
    match goal with |- context[Req_EM_T ?a 0] => destruct (Req_EM_T a 0) as [_|X]; [|exfalso; apply X; field] end.
    match goal with |- context[Req_EM_T ?a 0] => destruct (Req_EM_T a 0) as [_|X]; [|exfalso; apply X; field] end. reflexivity. }
  rewrite E. cbn [bind scatter]. unfold flat. cbn [map hd bind]. vz. cbn [item nth_error bind].
  match goal with |- context[Rlt_dec ?a 0] => destruct (Rlt_dec a 0); [exfalso; lra|] end. vz. change (hd 0 (ydown vault)) with 0.
  cut (forall a b c a' b' c' : R, a = a' -> b = b' -> c = c' -> Ok [a; b; c] = Ok [a'; b'; c']); [intros K; apply K|congruence].
  - replace (_ + _) with 0 by field. apply sqrt_0.
  - replace (_ + _) with (15 / 8 * (15 / 8)) by field. apply sqrt_square. lra.
  - replace (_ + _) with 0 by field. apply sqrt_0.
Qed.
Lemma vault_parameters : exists q, generate_parameters (thickness_american flat (checked [25 / 16; 2])) "american" vault = Ok q /\
  camber_max q = 3 / 4 /\ thickness_max q = 15 / 8.
Proof.
  assert (NN : norm2 (0 - 2) (0 - 0) = 2).
  { unfold norm2. replace (_ + _) with (2 * 2) by ring. apply sqrt_square. lra. }
  unfold generate_parameters.
  assert (E : update_edges vault = Ok ((0, 0), (2, 0))).
  { unfold update_edges. cbn [vault xup xdown yup ydown first final last bind].
    assert (Z : Rabs (0 - 0) = 0) by (rewrite Rminus_diag_eq, Rabs_R0; auto). assert (Z2 : Rabs (2 - 2) = 0) by (rewrite Rminus_diag_eq, Rabs_R0; auto).
    unfold edge_tol. destruct (Rlt_dec (1 / 10000) (Rabs (0 - 0))); [exfalso; lra|].
    cbn [vault xup xdown yup ydown first final last bind rev app]. destruct (Rlt_dec (1 / 10000) (Rabs (2 - 2))); [exfalso; lra|].
    destruct (Req_EM_T 0 0); [reflexivity|exfalso; lra]. }
  rewrite E. cbn [bind]. rewrite NN.
  assert (MN : vmin (xup vault) = Ok 0).
  { cbn [vault xup vmin fold_left]. rewrite (Rmin_left 0) by lra. rewrite Rmin_left by lra. reflexivity. }
  rewrite MN. cbn [bind vault xup yup ydown map].
  rewrite !Rminus_0_r.
  unfold vdiv at 1. cbn [mapM]. repeat fd. vz. cbn [vmax fold_left].
  replace ((0 + 0) / 2) with 0 by field. replace ((3 / 2 + 0) / 2) with (3 / 4) by field.
  rewrite (Rmax_right 0 (3 / 4)) by lra. rewrite Rmax_left by lra. cbn [bind]. rewrite (Rabs_right (3 / 4)) by lra. destruct (Req_EM_T (3 / 4) 0); [exfalso; lra|].
  unfold vdiv at 1. cbn [mapM]. repeat fd.
  change (String.eqb "american" "british") with false. change (String.eqb "american" "american") with true. cbv iota.
  replace (0 / (3 / 4)) with 0 by field. replace (3 / 4 / (3 / 4)) with 1 by field.
  change (mkProfile [0; 1; 2] [0; 1; 2] [0; 3 / 2; 0] [0; 0; 0]) with vault. rewrite vault_thickness. cbn [bind vmax fold_left].
  rewrite (Rmax_right 0) by lra. rewrite Rmax_left by lra.
  destruct (Req_EM_T (15 / 8) 0); [exfalso; lra|].
  unfold vdiv. cbn [mapM]. repeat fd.
  eexists. split; [reflexivity|]. cbn [camber_max thickness_max]. auto.
Qed.
