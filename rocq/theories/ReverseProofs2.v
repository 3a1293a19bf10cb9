From Coq Require Import Reals List Bool Lia Lra Permutation.
From Verif Require Import Base ProfileModel ProfileSpec ProfileProofs BladeProofs2 PathModel ReverseModel ReverseSpec ReverseProofs.
Import ListNotations.
Open Scope R_scope.

(** ** Sorting *)
Lemma lex_le_true : forall p q, lex_le p q = true -> lex p q.
Proof.
  intros p q. unfold lex_le, lex. destruct (Rlt_dec (fst p) (fst q)); [auto|].
  destruct (Req_EM_T (fst p) (fst q)); [|discriminate]. destruct (Rle_dec (snd p) (snd q)); [auto|discriminate].
Qed.
Lemma lex_le_of : forall p q, lex p q -> lex_le p q = true.
Proof.
  intros p q H. unfold lex_le, lex in *. destruct (Rlt_dec (fst p) (fst q)); [auto|]. destruct H as [H|(E & L)]; [lra|].
  destruct (Req_EM_T (fst p) (fst q)); [|congruence]. destruct (Rle_dec (snd p) (snd q)); [auto|contradiction].
Qed.
Lemma lex_le_false : forall p q, lex_le p q = false -> lex q p.
Proof.
  intros p q. unfold lex_le, lex. destruct (Rlt_dec (fst p) (fst q)); [discriminate|].
  destruct (Req_EM_T (fst p) (fst q)); [|left; lra]. destruct (Rle_dec (snd p) (snd q)); [discriminate|right; lra].
Qed.
Lemma insert_perm : forall p l, Permutation (insert p l) (p :: l).
Proof.
  intros p l. induction l as [|q l IH]; [reflexivity|]. cbn [insert]. destruct (lex_le p q); [reflexivity|].
  rewrite IH. apply perm_swap.
Qed.
Lemma lex_sort_perm : forall l, Permutation (lex_sort l) l.
Proof. induction l as [|p l IH]; [reflexivity|]. cbn [lex_sort]. rewrite insert_perm. constructor. exact IH. Qed.
Lemma insert_ordered : forall p l, ordered lex l -> ordered lex (insert p l).
Proof.
  intros p l H. induction H as [|a|a b l P H IH]; cbn [insert].
  - constructor.
  - destruct (lex_le p a) eqn:E; apply o_more; try apply o_one; [apply lex_le_true|apply lex_le_false]; exact E.
  - destruct (lex_le p a) eqn:E; [apply o_more; [apply lex_le_true; exact E|apply o_more; auto]|].
    cbn [insert] in IH. destruct (lex_le p b) eqn:E2; apply o_more; auto. apply lex_le_false. exact E.
Qed.
Lemma lex_sort_ordered : forall l, ordered lex (lex_sort l).
Proof. induction l as [|p l IH]; [constructor|]. cbn [lex_sort]. apply insert_ordered. exact IH. Qed.
Lemma lex_sort_id : forall l, ordered lex l -> lex_sort l = l.
Proof.
  intros l H. induction H as [|a|a b l P H IH]; [reflexivity|reflexivity|]. change (lex_sort (a :: b :: l)) with (insert a (lex_sort (b :: l))).
  rewrite IH. cbn [insert]. rewrite lex_le_of; auto.
Qed.
Lemma lex_sort_length : forall l, List.length (lex_sort l) = List.length l.
Proof. intros l. apply Permutation_length, lex_sort_perm. Qed.

(** ** Pinning *)
Lemma set_last_snoc : forall x l q, set_last_x x (l ++ [q]) = Ok (l ++ [(x, snd q)]).
Proof.
  intros x l q. induction l as [|p l IH]; [reflexivity|]. cbn [app set_last_x]. destruct (l ++ [q]) eqn:E; [destruct l; discriminate|].
  rewrite IH. reflexivity.
Qed.
Lemma two_ends : forall {A} (l : list A), (2 <= List.length l)%nat -> exists p q mid, l = p :: mid ++ [q].
Proof.
  intros A [|p l] H; [cbn in H; lia|]. destruct (exists_last (l := l)) as (mid & q & ->); [intros ->; cbn in H; lia|]. eauto.
Qed.
Lemma pin_ok : forall l, (2 <= List.length l)%nat -> exists m, pin_ends l = Ok m /\ pinned l m.
Proof.
  intros l H. destruct (two_ends l H) as (p & q & mid & ->). unfold pin_ends. cbn [set_first_x bind].
  exists ((0, snd p) :: mid ++ [(1, snd q)]). split; [exact (set_last_snoc 1 ((0, snd p) :: mid) q)|]. exists p, q, mid. auto.
Qed.
Lemma pin_inv : forall l m, (2 <= List.length l)%nat -> pin_ends l = Ok m -> pinned l m.
Proof. intros l m H E. destruct (pin_ok l H) as (m' & E' & P). rewrite E' in E. injection E as <-. exact P. Qed.
Lemma pin_id : forall p q mid, fst p = 0 -> fst q = 1 -> pin_ends (p :: mid ++ [q]) = Ok (p :: mid ++ [q]).
Proof.
  intros [x y] [x' y'] mid E1 E2. cbn [fst] in *. subst. unfold pin_ends. cbn [set_first_x bind snd].
  exact (set_last_snoc 1 ((0, y) :: mid) (1, y')).
Qed.
Lemma zero_last_snoc : forall l y, zero_last (l ++ [y]) = Ok (l ++ [0]).
Proof.
  intros l y. induction l as [|p l IH]; [reflexivity|]. cbn [app zero_last]. destruct (l ++ [y]) eqn:E; [destruct l; discriminate|].
  rewrite IH. reflexivity.
Qed.
Lemma zero_inv : forall l m, (2 <= List.length l)%nat -> zero_ends l = Ok m -> zeroed l m.
Proof.
  intros l m H E. destruct (two_ends l H) as (a & b & mid & ->). unfold zero_ends in E.
  rewrite (app_comm_cons mid [b] 0), zero_last_snoc in E. injection E as <-. exists a, b, mid. auto.
Qed.
Lemma zero_ok : forall l, (2 <= List.length l)%nat -> exists m, zero_ends l = Ok m /\ zeroed l m.
Proof.
  intros l H. destruct (two_ends l H) as (a & b & mid & ->). unfold zero_ends.
  rewrite (app_comm_cons mid [b] 0), zero_last_snoc. eexists. split; [reflexivity|]. exists a, b, mid. auto.
Qed.
Lemma linspace_length : forall a b n, List.length (linspace a b n) = n.
Proof. intros. unfold linspace. rewrite map_length, seq_length. reflexivity. Qed.

Lemma mapM_all : forall {A B} (f : A -> res B) (g : A -> B) l, (forall x, f x = Ok (g x)) -> mapM f l = Ok (map g l).
Proof. intros A B f g l H. induction l as [|a l IH]; [reflexivity|]. cbn [mapM map]. rewrite H, IH. reflexivity. Qed.

(** ** resample *)
Definition resampled (cubic : list R -> list R -> res (R -> res R)) (n : nat) (l nodes : list pt) (ys : list R) : Prop :=
  pinned (lex_sort l) nodes /\ exists f vs, cubic (map fst nodes) (map snd nodes) = Ok f /\
    mapM f (linspace 0 1 n) = Ok vs /\ zeroed vs ys.
Lemma mapM_len : forall {A B} (f : A -> res B) l m, mapM f l = Ok m -> List.length m = List.length l.
Proof.
  intros A B f l. induction l as [|a l IH]; intros m H; cbn [mapM] in H; [injection H as <-; reflexivity|].
  destruct (f a); [|discriminate]. cbn [bind] in H. destruct (mapM f l); [|discriminate]. injection H as <-. cbn. f_equal. apply IH. reflexivity.
Qed.
Lemma resample_inv : forall cubic n top bot nt nb xs yu yd, (2 <= n)%nat -> (2 <= List.length top)%nat -> (2 <= List.length bot)%nat ->
  resample cubic n top bot = Ok (nt, nb, (xs, yu, yd)) ->
  xs = linspace 0 1 n /\ resampled cubic n top nt yu /\ resampled cubic n bot nb yd.
Proof.
  intros cubic n top bot nt nb xs yu yd Hn Ht Hb H. unfold resample in H.
  apply bind_ok in H as (t1 & E1 & H). apply bind_ok in H as (b1 & E2 & H). apply bind_ok in H as (ft & E3 & H).
  apply bind_ok in H as (fb & E4 & H). apply bind_ok in H as (vu & E5 & H). apply bind_ok in H as (vu' & E6 & H).
  apply bind_ok in H as (vd & E7 & H). apply bind_ok in H as (vd' & E8 & H). injection H as <- <- <- <- <-.
  split; [reflexivity|]. split.
  - split; [apply pin_inv; [rewrite lex_sort_length; exact Ht|exact E1]|]. exists ft, vu. repeat split; auto.
    apply zero_inv; auto. rewrite (mapM_len _ _ _ E5), linspace_length. exact Hn.
  - split; [apply pin_inv; [rewrite lex_sort_length; exact Hb|exact E2]|]. exists fb, vd. repeat split; auto.
    apply zero_inv; auto. rewrite (mapM_len _ _ _ E7), linspace_length. exact Hn.
Qed.
Lemma extract_inv : forall cubic le te camber airfoil f l t m cam air fc,
  extract cubic le te camber airfoil = Ok (f, (l, t, m), (cam, air), fc) ->
  snd le <> snd te /\ frame_of le te = Ok f /\ l = (0, 0) /\ t = (1, 0) /\ m = (1 / 2, 0) /\
  air = map (onto_chord le te) airfoil /\
  (exists c1, pin_ends (map (onto_chord le te) camber) = Ok c1 /\ cam = lex_sort c1) /\
  cubic (map fst cam) (map snd cam) = Ok fc.
Proof.
  intros cubic le te camber airfoil f l t m cam air fc H. unfold extract in H.
  destruct (Req_EM_T (snd le) (snd te)) as [E|N]; [rewrite (frame_flat _ _ E) in H; discriminate|].
  destruct (frame_ok le te N) as (f0 & E0 & _ & _ & _ & _ & _ & _ & _ & HN & HL & HT & HM). rewrite E0 in H. cbn [bind] in H.
  rewrite !(mapM_all _ _ _ HN) in H. cbn [bind] in H. rewrite HL, HT, HM in H. cbn [bind] in H.
  apply bind_ok in H as (c1 & E1 & H). apply bind_ok in H as (g & E2 & H). injection H as <- <- <- <- <- <- <-.
  repeat split; eauto.
Qed.
(** ** One section, BladeX *)
Definition flip_y (p : pt) : pt := (fst p, - snd p).
(** The upper surface after the final check. *)
Definition oriented (top bottom top' bottom' : list pt) : Prop :=
  exists i y, argmax (map (fun p => Rabs (snd p)) top) = Ok i /\ nth_error (map snd top) i = Some y /\
   ((y < 0 /\ top' = map flip_y top /\ bottom' = map flip_y bottom) \/ (0 <= y /\ top' = top /\ bottom' = bottom)).
Lemma item_inv : forall {A} (l : list A) i x, item l i = Ok x -> nth_error l i = Some x.
Proof. intros A l i x H. unfold item in H. destruct (nth_error l i); [injection H as <-; reflexivity|discriminate]. Qed.
Lemma section_bladex_inv : forall cubic slice n radius s, section_bladex cubic slice n radius = Ok s ->
  exists c, slice radius n = Ok c /\ radius <> 0 /\ (2 <= n <= 500)%nat /\
  let le := unroll radius (c_le c) in let te := unroll radius (c_te c) in
  let slope := (fst le - fst te) / (snd le - snd te) in
  let my := (snd le + snd te) / 2 in
  snd le <> snd te /\
  angle (s_frame s) = arctan2 (snd le - snd te) (fst le - fst te) /\
  s_pitch s = Rabs (2 * PI * radius * slope) / 1000 /\
  s_skew_angle s = - (my / radius) * 180 / PI /\ s_skew s = my / 1000 /\
  s_rake s = - ((fst le + fst te) / 2 - my * slope) / 1000 /\
  s_chord s = pdist le te / 1000 /\
  s_le s = (0, 0) /\ s_te s = (1, 0) /\ s_mid s = (1 / 2, 0) /\
  s_airfoil s = map (fun p => onto_chord le te (unroll_positive radius p)) (c_airfoil c) /\
  s_x s = linspace 0 1 n /\
  ((2 <= List.length (c_top c))%nat -> (2 <= List.length (c_bottom c))%nat ->
   exists top bottom, oriented (map (fun p => onto_chord le te (unroll radius p)) (c_top c))
        (map (fun p => onto_chord le te (unroll radius p)) (c_bottom c)) top bottom /\
     resampled cubic n top (s_top s) (s_yup s) /\ resampled cubic n bottom (s_bottom s) (s_ydown s)) /\
  exists c1, pin_ends (map (fun p => onto_chord le te (unroll_positive radius p)) (firstn n (c_camber c))) = Ok c1 /\ s_camber s = lex_sort c1.
Proof.
  intros cubic slice n radius s H. unfold section_bladex in H.
  destruct (Nat.ltb n 2) eqn:N2; [discriminate|]. destruct (Nat.ltb 500 n) eqn:N5; [discriminate|].
  apply Nat.ltb_ge in N2, N5.
  apply bind_ok in H as (c & E & H). exists c. split; [exact E|].
  set (le := unroll radius (c_le c)) in *. set (te := unroll radius (c_te c)) in *.
  apply bind_ok in H as (r & ER & H). destruct r as [[[f [[l t] m]] [cam air]] fc].
  apply extract_inv in ER as (NE & EF & -> & -> & -> & EA & EC & _).
  destruct (frame_ok le te NE) as (f0 & E0 & FA & FS & FI & FR & FC & FP & FO & FN & _). rewrite E0 in EF. injection EF as ->.
  rewrite !FO in H. cbn [bind] in H. apply bind_ok in H as (q & EQ & H).
  assert (R0 : radius <> 0). { unfold fdiv in EQ. destruct (Req_EM_T radius 0); [discriminate|assumption]. }
  unfold fdiv in EQ. destruct (Req_EM_T radius 0) in EQ; [contradiction|]. injection EQ as <-.
  apply bind_ok in H as (tb & ET & H). apply bind_ok in H as (rs & ES & H). destruct rs as [[nt nb] [[xs yu] yd]].
  injection H as <-. cbn [s_frame s_pitch s_skew_angle s_skew s_rake s_chord s_le s_te s_mid s_airfoil s_camber s_x s_top s_bottom s_yup s_ydown].
  split; [exact R0|]. split; [lia|]. cbv zeta. split; [exact NE|]. split; [exact FA|].
  split; [f_equal; f_equal; unfold Rdiv; ring|]. split; [rewrite FS; reflexivity|]. split; [rewrite FS; reflexivity|].
  split; [rewrite FR, FI, FS; f_equal; unfold Rdiv; ring|]. split; [rewrite FC; reflexivity|].
  do 3 (split; [reflexivity|]). split; [rewrite EA, map_map; reflexivity|].
  assert (XS : xs = linspace 0 1 n).
  { unfold resample in ES. do 8 (apply bind_ok in ES as (? & _ & ES)). injection ES as <- <- <- <- <-. reflexivity. }
  split; [exact XS|]. split; [|destruct EC as (c1 & EC1 & EC2); rewrite map_map in EC1; exists c1; auto].
  intros LT LB. unfold transform_top_bottom in ET.
  rewrite !(mapM_all _ _ _ FN) in ET. cbn [bind] in ET. rewrite !map_map in ET.
  apply bind_ok in ET as (i & EI & ET). apply bind_ok in ET as (y & EY & ET). apply item_inv in EY.
  set (T := map (fun p => onto_chord le te (unroll radius p)) (c_top c)) in *.
  set (B := map (fun p => onto_chord le te (unroll radius p)) (c_bottom c)) in *.
  assert (O : oriented T B (fst tb) (snd tb)).
  { exists i, y. split; [unfold T; rewrite map_map; exact EI|]. split; [unfold T; rewrite map_map; exact EY|].
    destruct (Rlt_dec y 0); injection ET as <-; [left|right]; cbn [fst snd]; repeat split; auto. lra. }
  assert (LEN : List.length (fst tb) = List.length (c_top c) /\ List.length (snd tb) = List.length (c_bottom c)).
  { destruct O as (i0 & y0 & _ & _ & [(_ & -> & ->)|(_ & -> & ->)]); unfold T, B; rewrite ?map_length; auto. }
  exists (fst tb), (snd tb). split; [exact O|]. apply resample_inv in ES; try lia. tauto.
Qed.
