From Coq Require Import Reals List Bool Lia Lra Permutation.
From Verif Require Import Base ProfileProofs PathModel PathSpec.
Import ListNotations.
Open Scope R_scope.

(** ** optimized_path *)
Lemma remove_ok : forall a l, In a l -> exists u v, l = u ++ a :: v /\ ~ In a u /\ remove_first a l = Ok (u ++ v).
Proof.
  intros a l. induction l as [|b l IH]; intros I; [destruct I|]. cbn [remove_first]. destruct (pt_dec a b) as [->|N].
  - exists [], l. cbn. auto.
  - destruct I as [->|I]; [congruence|]. destruct (IH I) as (u & v & -> & NI & E). exists (b :: u), v.
    cbn. rewrite E. cbn. split; auto. split; auto. intros [H|H]; [congruence|auto].
Qed.
Lemma remove_missing : forall a l, ~ In a l -> remove_first a l = Err ValueError.
Proof.
  intros a l. induction l as [|b l IH]; intros N; [reflexivity|]. cbn [remove_first]. destruct (pt_dec a b) as [->|E].
  - exfalso. apply N. left. auto.
  - rewrite IH; [reflexivity|]. intros H. apply N. right. auto.
Qed.
Lemma nearest_ok : forall p l best, exists u v, best :: l = u ++ nearest p best l :: v /\
  (forall c, In c u -> distance p (nearest p best l) < distance p c) /\
  (forall c, In c v -> distance p (nearest p best l) <= distance p c).
Proof.
  intros p l. induction l as [|b l IH]; intros best; cbn [nearest].
  - exists [], []. split; [reflexivity|]. split; intros c [].
  - destruct (Rlt_dec (distance p b) (distance p best)) as [H|H].
    + destruct (IH b) as (u & v & E & A & B). exists (best :: u), v. cbn. rewrite <- E. split; [reflexivity|]. split; [|exact B].
      assert (distance p (nearest p b l) <= distance p b).
      { assert (I : In b (u ++ nearest p b l :: v)) by (rewrite <- E; left; auto). apply in_app_or in I. destruct I as [I|[I|I]].
        - left. apply A. exact I.
        - rewrite I. apply Rle_refl.
        - apply B. exact I. }
      intros c [<-|I]; [lra|auto].
    + destruct (IH best) as (u & v & E & A & B). destruct u as [|c u].
      * injection E as E1 E2. exists [], (b :: l). cbn. rewrite <- E1. split; [reflexivity|]. split; [intros c []|].
        intros c [<-|I]; [lra|]. rewrite E2 in I. rewrite E1 at 1. auto.
      * injection E as E1 E2. subst c. exists (best :: b :: u), v. cbn. rewrite E2 at 1. split; [reflexivity|].
        pose proof (A best (or_introl eq_refl)). split; [|exact B]. intros c [<-|[<-|I]]; [auto|lra|apply A; right; auto].
Qed.
Lemma subseq_refl : forall A (l : list A), subseq l l.
Proof. induction l; constructor; auto. Qed.
Lemma subseq_trans : forall A (a b c : list A), subseq a b -> subseq b c -> subseq a c.
Proof.
  intros A a b c H1 H2. revert a H1. induction H2 as [|x b c H IH|x b c H IH]; intros a H1; auto.
  - inversion H1; subst; [constructor|apply ss_drop]; auto.
  - apply ss_drop. auto.
Qed.
Lemma subseq_app_drop : forall A (u v : list A) a, subseq (u ++ v) (u ++ a :: v).
Proof. induction u as [|x u IH]; intros v a; cbn; [apply ss_drop, subseq_refl|constructor; auto]. Qed.
Lemma subseq_in : forall A (l m : list A) a, subseq l m -> In a l -> In a m.
Proof. intros A l m a H. induction H as [|x l m H IH|x l m H IH]; cbn; intuition. Qed.
Lemma subseq_split : forall A (l m : list A) u b v, subseq l m -> l = u ++ b :: v -> exists u' v', m = u' ++ b :: v' /\ subseq v v'.
Proof.
  intros A l m u b v H. revert u. induction H as [|x l m H IH|x l m H IH]; intros u E.
  - destruct u; discriminate.
  - destruct u as [|y u]; injection E as -> E.
    + exists [], m. subst. auto.
    + destruct (IH u E) as (u' & v' & -> & S). exists (y :: u'), v'. auto.
  - destruct (IH u E) as (u' & v' & -> & S). exists (x :: u'), v'. auto.
Qed.

Lemma walk_ok : forall n last path rest coords, List.length rest = n -> subseq rest coords ->
  exists more, walk n last path rest = ([], Ok (rev path ++ more)) /\ Permutation more rest /\ greedy coords (last :: more).
Proof.
  induction n as [|n IH]; intros last path rest coords L S.
  - destruct rest; [|discriminate]. exists []. cbn. rewrite app_nil_r. split; auto. split; auto.
    intros [|x l1] a b l2 E; try discriminate E. destruct l1; discriminate E.
  - destruct rest as [|b0 l]; [discriminate|]. cbn [walk]. set (m := nearest last b0 l).
    destruct (nearest_ok last l b0) as (u & v & E & A & B). fold m in E, A, B.
    assert (IM : In m (b0 :: l)) by (rewrite E; apply in_or_app; right; left; auto).
    destruct (remove_ok m (b0 :: l) IM) as (u1 & v1 & E1 & N1 & ->).
    assert (EU : u1 = u /\ v1 = v).
    { assert (NU : ~ In m u). { intros H. specialize (A m H). lra. }
      clear - E E1 N1 NU. rewrite E in E1. clear E. revert u1 E1 N1. induction u as [|x u IH]; intros [|y u1] E1 N1; cbn in E1.
      - injection E1 as ->. auto.
      - injection E1 as -> _. exfalso. apply N1. left. auto.
      - injection E1 as -> _. exfalso. apply NU. left. auto.
      - injection E1 as -> E1. destruct (IH (fun H => NU (or_intror H)) u1 E1) as (-> & ->); auto. intros H. apply N1. right. auto. }
    destruct EU as (-> & ->).
    assert (S' : subseq (u ++ v) coords). { eapply subseq_trans; [apply subseq_app_drop|]. rewrite E in S. exact S. }
    assert (L' : List.length (u ++ v) = n). { rewrite E in L. rewrite app_length in *. cbn in L. lia. }
    destruct (IH m (m :: path) (u ++ v) coords L' S') as (more & W & P & G). exists (m :: more).
    split; [|split].
    + rewrite W. cbn. rewrite <- app_assoc. reflexivity.
    + rewrite E. rewrite <- Permutation_middle. constructor. exact P.
    + intros [|x l1] a b l2 Q c I.
      * injection Q as <- <- <-. assert (IC : In c (u ++ v)) by (eapply Permutation_in; eauto).
        assert (D : distance last m <= distance last c). { apply in_app_or in IC. destruct IC as [IC|IC]; [left; auto|auto]. }
        split; [exact D|]. intros EQ. change (distance last m = distance last c) in EQ. apply in_app_or in IC. destruct IC as [IC|IC]; [specialize (A c IC); lra|].
        rewrite E in S. destruct (subseq_split _ _ _ u m v S eq_refl) as (u' & v' & -> & SV). exists u', v'. split; auto.
        eapply subseq_in; eauto.
      * cbn in Q. injection Q as -> Q. exact (G l1 a b l2 Q c I).
Qed.
Lemma path_from : forall coords s, In s coords ->
  exists path, optimized_path coords (Some s) = ([], Ok path) /\ Permutation path coords /\
    (exists more, path = s :: more) /\ greedy coords path.
Proof.
  intros coords s I. unfold optimized_path. destruct (remove_ok s coords I) as (u & v & E & _ & ->).
  destruct (walk_ok (List.length (u ++ v)) s [s] (u ++ v) coords eq_refl) as (more & -> & P & G).
  { rewrite E. apply subseq_app_drop. }
  exists (s :: more). cbn. split; auto. split; [|split; eauto]. rewrite E, <- Permutation_middle. constructor. exact P.
Qed.
Lemma path_default : forall s l, optimized_path (s :: l) None = optimized_path (s :: l) (Some s).
Proof. reflexivity. Qed.
Lemma path_missing : forall coords s, ~ In s coords -> optimized_path coords (Some s) = (coords, Err ValueError).
Proof. intros coords s N. unfold optimized_path. rewrite remove_missing; auto. Qed.
Lemma path_empty : optimized_path [] None = ([], Err IndexError).
Proof. reflexivity. Qed.

(** ** Polygons *)
Lemma edge_touch : forall x y a b, edge_step x y a b = Touch <-> on_segment (x, y) a b.
Proof.
  intros x y [x1 y1] [x2 y2]. unfold edge_step, on_segment. cbn [fst snd].
  destruct (Req_EM_T y1 y2) as [<-|N].
  - destruct (Req_EM_T y y1) as [->|N].
    + assert (K : (Rmin x1 x2 <= x <= Rmax x1 x2) <-> exists t, 0 <= t <= 1 /\ x = x1 + t * (x2 - x1) /\ y1 = y1 + t * (y1 - y1)).
      { unfold Rmin, Rmax. split.
        - intros H. destruct (Req_EM_T x1 x2) as [<-|NX].
          + exists 0. destruct (Rle_dec x1 x1); lra.
          + exists ((x - x1) / (x2 - x1)).
            assert (E : (x - x1) / (x2 - x1) * (x2 - x1) = x - x1) by (field; lra).
            split; [|split; lra]. destruct (Rle_dec x1 x2).
            * split; [apply Rmult_le_reg_r with (x2 - x1); lra|apply Rmult_le_reg_r with (x2 - x1); lra].
            * assert (E' : (x - x1) / (x2 - x1) * (x1 - x2) = x1 - x) by (field; lra).
              split; [apply Rmult_le_reg_r with (x1 - x2); lra|apply Rmult_le_reg_r with (x1 - x2); lra].
        - intros (t & Ht & -> & _). destruct (Rle_dec x1 x2); split; nra. }
      rewrite <- K. destruct (Rle_dec (Rmin x1 x2) x), (Rle_dec x (Rmax x1 x2)), (Rlt_dec x (Rmin x1 x2)); split; intros; try discriminate; try reflexivity; lra.
    + split; [discriminate|]. intros (t & Ht & _ & E). exfalso. apply N. lra.
  - set (xi := (y - y1) * (x2 - x1) / (y2 - y1) + x1).
    assert (K : (Rmin y1 y2 <= y <= Rmax y1 y2 /\ x = xi) <-> exists t, 0 <= t <= 1 /\ x = x1 + t * (x2 - x1) /\ y = y1 + t * (y2 - y1)).
    { unfold Rmin, Rmax. split.
      - intros (H & ->). exists ((y - y1) / (y2 - y1)).
        assert (E : (y - y1) / (y2 - y1) * (y2 - y1) = y - y1) by (field; lra).
        split; [|split; [unfold xi; field; lra|lra]]. destruct (Rle_dec y1 y2).
        * split; [apply Rmult_le_reg_r with (y2 - y1); lra|apply Rmult_le_reg_r with (y2 - y1); lra].
        * assert (E' : (y - y1) / (y2 - y1) * (y1 - y2) = y1 - y) by (field; lra).
          split; [apply Rmult_le_reg_r with (y1 - y2); lra|apply Rmult_le_reg_r with (y1 - y2); lra].
      - intros (t & Ht & EX & EY). split.
        + destruct (Rle_dec y1 y2); split; nra.
        + unfold xi. rewrite EX, EY. field. lra. }
    rewrite <- K. destruct (Rle_dec (Rmin y1 y2) y), (Rle_dec y (Rmax y1 y2)); try (split; [discriminate|intros; lra]).
    fold xi. destruct (Req_EM_T x xi); [split; auto; intros; split; auto; lra|].
    destruct (Rlt_dec x xi); split; try discriminate; intros (_ & E); contradiction.
Qed.
Lemma edge_sym : forall x y a b, edge_step x y a b = edge_step x y b a.
Proof.
  intros x y [x1 y1] [x2 y2]. unfold edge_step. rewrite (Rmin_comm x2 x1), (Rmax_comm x2 x1), (Rmin_comm y2 y1), (Rmax_comm y2 y1).
  destruct (Req_EM_T y1 y2) as [<-|N].
  - destruct (Req_EM_T y1 y1); [reflexivity|congruence].
  - destruct (Req_EM_T y2 y1); [congruence|].
    replace ((y - y2) * (x1 - x2) / (y1 - y2) + x2) with ((y - y1) * (x2 - x1) / (y2 - y1) + x1) by (field; lra). reflexivity.
Qed.
(** Parity of the toggles. *)
Definition toggles (x y : R) (e : pt * pt) : bool := match edge_step x y (fst e) (snd e) with Toggle => true | _ => false end.
Definition parity (x y : R) (l : list (pt * pt)) : bool := fold_right (fun e b => xorb (toggles x y e) b) false l.
Definition untouched (x y : R) (l : list (pt * pt)) : Prop := forall e, In e l -> ~ on_segment (x, y) (fst e) (snd e).
Lemma loop_parity : forall x y inc l a b, untouched x y (chain a l) -> polygon_loop x y inc a l b = xorb b (parity x y (chain a l)).
Proof.
  intros x y inc l. induction l as [|c l IH]; intros a b U; [cbn; destruct b; reflexivity|]. cbn [polygon_loop chain parity fold_right].
  fold (parity x y (chain c l)). unfold toggles at 1. cbn [fst snd].
  assert (U' : untouched x y (chain c l)) by (intros e I; apply U; right; exact I).
  destruct (edge_step x y a c) eqn:E.
  - exfalso. apply (U (a, c)); [left; reflexivity|]. apply edge_touch. exact E.
  - rewrite IH by exact U'. destruct b, (parity x y (chain c l)); reflexivity.
  - rewrite IH by exact U'. destruct b, (parity x y (chain c l)); reflexivity.
Qed.
Lemma loop_touch : forall x y inc l a b e, In e (chain a l) -> on_segment (x, y) (fst e) (snd e) -> polygon_loop x y inc a l b = inc.
Proof.
  intros x y inc l. induction l as [|c l IH]; intros a b e I T; [destruct I|]. cbn [polygon_loop]. destruct I as [<-|I].
  - apply edge_touch in T. cbn [fst snd] in T. rewrite T. reflexivity.
  - destruct (edge_step x y a c); [reflexivity| |]; eapply IH; eauto.
Qed.
Lemma polygon_boundary : forall x y poly inc, on_boundary (x, y) poly -> point_inside_polygon x y poly inc = Ok inc.
Proof.
  intros x y [|a l] inc (e & I & T); [destruct I|]. unfold point_inside_polygon. f_equal. eapply loop_touch; eauto.
Qed.
Lemma polygon_parity : forall x y poly inc, poly <> [] -> ~ on_boundary (x, y) poly ->
  point_inside_polygon x y poly inc = Ok (parity x y (edges poly)).
Proof.
  intros x y [|a l] inc N B; [congruence|]. unfold point_inside_polygon. rewrite loop_parity.
  - destruct (parity _ _ _); reflexivity.
  - intros e I T. apply B. exists e. split; auto.
Qed.
(** Not level with a vertex: crossings of the ray. *)
Lemma toggle_crosses : forall x y e, snd (fst e) <> y -> snd (snd e) <> y -> (toggles x y e = true <-> crosses (x, y) e).
Proof.
  intros x y [[x1 y1] [x2 y2]] N1 N2. cbn [fst snd] in N1, N2. unfold toggles, crosses, edge_step. cbn [fst snd].
  destruct (Req_EM_T y1 y2) as [<-|N].
  - destruct (Req_EM_T y y1); [congruence|]. split; [discriminate|]. intros (t & _ & E & _). exfalso. lra.
  - set (xi := (y - y1) * (x2 - x1) / (y2 - y1) + x1).
    assert (K : (Rmin y1 y2 <= y <= Rmax y1 y2 /\ x < xi) <-> exists t, 0 < t < 1 /\ y = y1 + t * (y2 - y1) /\ x < x1 + t * (x2 - x1)).
    { unfold Rmin, Rmax. split.
      - intros (H & HX). exists ((y - y1) / (y2 - y1)).
        assert (E : (y - y1) / (y2 - y1) * (y2 - y1) = y - y1) by (field; lra).
        split; [|split; [lra|]].
        + destruct (Rle_dec y1 y2).
          * split; [apply Rmult_lt_reg_r with (y2 - y1); lra|apply Rmult_lt_reg_r with (y2 - y1); lra].
          * assert (E' : (y - y1) / (y2 - y1) * (y1 - y2) = y1 - y) by (field; lra).
            split; [apply Rmult_lt_reg_r with (y1 - y2); lra|apply Rmult_lt_reg_r with (y1 - y2); lra].
        + unfold xi in HX. replace ((y - y1) / (y2 - y1) * (x2 - x1)) with ((y - y1) * (x2 - x1) / (y2 - y1)) by (field; lra). lra.
      - intros (t & Ht & EY & HX). split.
        + destruct (Rle_dec y1 y2); split; nra.
        + unfold xi. replace ((y - y1) * (x2 - x1) / (y2 - y1)) with (t * (x2 - x1)) by (rewrite EY; field; lra). lra. }
    rewrite <- K. destruct (Rle_dec (Rmin y1 y2) y), (Rle_dec y (Rmax y1 y2)); try (split; [discriminate|intros; lra]).
    fold xi. destruct (Req_EM_T x xi); [split; [discriminate|intros; lra]|].
    destruct (Rlt_dec x xi); split; try discriminate; intros; try lra; auto; try (split; lra).
Qed.
Lemma parity_count : forall x y l n, (forall e, In e l -> snd (fst e) <> y /\ snd (snd e) <> y) ->
  number_with (crosses (x, y)) l n -> parity x y l = Nat.odd n.
Proof.
  intros x y l n H C. induction C as [|e l n P C IH|e l n P C IH]; [reflexivity| |].
  - cbn [parity fold_right]. fold (parity x y l). rewrite IH by (intros; apply H; right; auto).
    destruct (H e (or_introl eq_refl)). apply toggle_crosses in P; auto. rewrite P. rewrite Nat.odd_succ, <- Nat.negb_odd. reflexivity.
  - cbn [parity fold_right]. fold (parity x y l). rewrite IH by (intros; apply H; right; auto).
    destruct (H e (or_introl eq_refl)). destruct (toggles x y e) eqn:E; [|destruct (Nat.odd n); reflexivity]. apply toggle_crosses in E; auto. contradiction.
Qed.
Lemma chain_in : forall l a e, In e (chain a l) -> In (fst e) (a :: l) /\ In (snd e) (a :: l).
Proof.
  induction l as [|b l IH]; intros a e I; [destruct I|]. destruct I as [<-|I]; cbn; auto.
  apply IH in I. cbn in I. tauto.
Qed.
Lemma edges_in : forall poly e, In e (edges poly) -> In (fst e) poly /\ In (snd e) poly.
Proof.
  intros [|a l] e I; [destruct I|]. apply chain_in in I.
  assert (K : forall q, In q (a :: l ++ [a]) -> In q (a :: l)).
  { intros q [H|H]; [left; exact H|]. apply in_app_or in H. destruct H as [H|[H|[]]]; [right; exact H|left; exact H]. }
  destruct I. split; apply K; assumption.
Qed.
Lemma polygon_crossings : forall x y poly inc n, poly <> [] -> not_level (x, y) poly -> ~ on_boundary (x, y) poly ->
  number_with (crosses (x, y)) (edges poly) n -> point_inside_polygon x y poly inc = Ok (Nat.odd n).
Proof.
  intros x y poly inc n N L B C. rewrite polygon_parity by auto. f_equal. apply parity_count; auto.
  intros e I. apply edges_in in I. unfold not_level in L. rewrite Forall_forall in L. cbn in L. split; apply L; tauto.
Qed.
Lemma number_exists : forall A (P : A -> Prop) l, exists n, number_with P l n.
Proof.
  intros A P l. induction l as [|a l (n & IH)]; [exists 0%nat; constructor|].
  destruct (Classical_Prop.classic (P a)); [exists (S n)|exists n]; constructor; auto.
Qed.
(** Independence of starting vertex and orientation. *)
Lemma chain_app : forall l a m, chain a (l ++ m) = chain a l ++ chain (last l a) m.
Proof.
  induction l as [|b l IH]; intros a m; [reflexivity|]. cbn [app chain]. rewrite IH. cbn [app]. do 3 f_equal.
  destruct l; [reflexivity|]. cbn [last]. clear. revert p; induction l; intros; cbn [last]; auto.
Qed.
Lemma parity_app : forall x y l m, parity x y (l ++ m) = xorb (parity x y l) (parity x y m).
Proof.
  intros x y l m. induction l as [|e l IH]; [cbn [app parity fold_right]; fold (parity x y m); destruct (parity x y m); reflexivity|].
  cbn [app parity fold_right]. fold (parity x y (l ++ m)) (parity x y l). rewrite IH. destruct (toggles x y e), (parity x y l), (parity x y m); reflexivity.
Qed.
Lemma edges_rotate : forall l m, Permutation (edges (l ++ m)) (edges (m ++ l)).
Proof.
  intros [|a l] [|b m]; try (rewrite ?app_nil_r; reflexivity). cbn [app edges].
  rewrite <- !app_assoc. cbn [app]. rewrite (chain_app l a (b :: m ++ [a])), (chain_app m b (a :: l ++ [b])). cbn [chain].
  rewrite (chain_app m b [a]), (chain_app l a [b]). cbn [chain].
  replace (chain a l ++ (last l a, b) :: chain b m ++ [(last m b, a)]) with ((chain a l ++ [(last l a, b)]) ++ (chain b m ++ [(last m b, a)])) by (rewrite <- app_assoc; reflexivity).
  replace (chain b m ++ (last m b, a) :: chain a l ++ [(last l a, b)]) with ((chain b m ++ [(last m b, a)]) ++ (chain a l ++ [(last l a, b)])) by (rewrite <- app_assoc; reflexivity).
  apply Permutation_app_comm.
Qed.
Lemma parity_perm : forall x y l m, Permutation l m -> parity x y l = parity x y m.
Proof.
  intros x y l m P. induction P as [|e l m P IH|e f l|l m k P1 IH1 P2 IH2].
  - reflexivity.
  - cbn [parity fold_right]. fold (parity x y l) (parity x y m). rewrite IH. reflexivity.
  - cbn [parity fold_right]. fold (parity x y l). destruct (toggles x y e), (toggles x y f), (parity x y l); reflexivity.
  - congruence.
Qed.
Lemma polygon_rotate : forall x y l m inc, point_inside_polygon x y (l ++ m) inc = point_inside_polygon x y (m ++ l) inc.
Proof.
  intros x y l m inc. destruct (Classical_Prop.classic (on_boundary (x, y) (l ++ m))) as [B|B].
  - rewrite polygon_boundary by exact B. rewrite polygon_boundary; [reflexivity|]. destruct B as (e & I & T). exists e. split; auto.
    eapply Permutation_in; [apply edges_rotate|exact I].
  - assert (E : l ++ m = [] \/ l ++ m <> []) by (destruct (l ++ m); [left|right]; congruence). destruct E as [E|N].
    { rewrite E. apply app_eq_nil in E. destruct E as (-> & ->). reflexivity. }
    rewrite !polygon_parity; auto.
    + f_equal. apply parity_perm, edges_rotate.
    + intros E. apply app_eq_nil in E. destruct E as (-> & ->). apply N. reflexivity.
    + intros (e & I & T). apply B. exists e. split; auto. eapply Permutation_in; [apply edges_rotate|exact I].
Qed.
Definition flip (e : pt * pt) : pt * pt := (snd e, fst e).
Lemma chain_rev : forall l a b, chain b (rev l ++ [a]) = map flip (rev (chain a (l ++ [b]))).
Proof.
  induction l as [|c l IH]; intros a b; [reflexivity|]. cbn [rev app chain]. rewrite map_app. cbn [map]. unfold flip at 2. cbn [fst snd].
  rewrite <- IH. rewrite (chain_app (rev l ++ [c])). f_equal. cbn [chain]. rewrite last_last. reflexivity.
Qed.
Lemma edges_reverse : forall poly, Permutation (edges (rev poly)) (map flip (edges poly)).
Proof.
  intros [|a l]; [reflexivity|]. cbn [rev]. rewrite edges_rotate. cbn [app edges].
  rewrite chain_rev. apply Permutation_map. symmetry. apply Permutation_rev.
Qed.
Lemma segment_sym : forall p a b, on_segment p a b -> on_segment p b a.
Proof. intros p a b (t & H & X & Y). exists (1 - t). split; [lra|]. split; [rewrite X|rewrite Y]; ring. Qed.
Lemma parity_flip : forall x y l, parity x y (map flip l) = parity x y l.
Proof.
  intros x y l. induction l as [|e l IH]; [reflexivity|]. cbn [map parity fold_right]. fold (parity x y (map flip l)) (parity x y l). rewrite IH. f_equal.
  unfold toggles, flip. cbn [fst snd]. rewrite edge_sym. reflexivity.
Qed.
Lemma boundary_reverse : forall p poly, on_boundary p (rev poly) <-> on_boundary p poly.
Proof.
  assert (K : forall p poly, on_boundary p poly -> on_boundary p (rev poly)).
  { intros p poly (e & I & T). exists (flip e). split; [|apply segment_sym; exact T].
    eapply Permutation_in; [symmetry; apply edges_reverse|]. apply in_map. exact I. }
  intros p poly. split; [|apply K]. intros H. apply K in H. rewrite rev_involutive in H. exact H.
Qed.
Lemma polygon_reverse : forall x y poly inc, point_inside_polygon x y (rev poly) inc = point_inside_polygon x y poly inc.
Proof.
  intros x y poly inc. destruct (Classical_Prop.classic (on_boundary (x, y) poly)) as [B|B].
  - rewrite !polygon_boundary; auto. apply boundary_reverse. exact B.
  - destruct poly as [|a l]; [reflexivity|]. rewrite !polygon_parity; auto; try discriminate.
    + f_equal. rewrite (parity_perm _ _ _ _ (edges_reverse (a :: l))). apply parity_flip.
    + cbn. intros E. apply app_eq_nil in E. destruct E. discriminate.
    + intros H. apply B. apply boundary_reverse. exact H.
Qed.
(** Cutting along a diagonal. *)
Lemma polygon_cut : forall x y a b l m inc, ~ on_boundary (x, y) (a :: l ++ b :: m) -> ~ on_segment (x, y) a b ->
  exists u v, point_inside_polygon x y (a :: l ++ [b]) inc = Ok u /\ point_inside_polygon x y (a :: b :: m) inc = Ok v /\
    point_inside_polygon x y (a :: l ++ b :: m) inc = Ok (xorb u v).
Proof.
  intros x y a b l m inc B D.
  assert (E0 : edges (a :: l ++ b :: m) = chain a (l ++ [b]) ++ chain b (m ++ [a])).
  { cbn [edges]. rewrite <- app_assoc. cbn [app]. rewrite (chain_app l a (b :: m ++ [a])), (chain_app l a [b]). cbn [chain]. rewrite <- app_assoc. reflexivity. }
  assert (E1 : edges (a :: l ++ [b]) = chain a (l ++ [b]) ++ [(b, a)]).
  { cbn [edges]. rewrite (chain_app (l ++ [b])). cbn [chain]. rewrite last_last. reflexivity. }
  assert (E2 : edges (a :: b :: m) = (a, b) :: chain b (m ++ [a])) by reflexivity.
  assert (B1 : ~ on_boundary (x, y) (a :: l ++ [b])).
  { intros (e & I & T). rewrite E1 in I. apply in_app_or in I. destruct I as [I|[<-|[]]].
    - apply B. exists e. split; auto. rewrite E0. apply in_or_app. auto.
    - apply D. apply segment_sym. exact T. }
  assert (B2 : ~ on_boundary (x, y) (a :: b :: m)).
  { intros (e & I & T). rewrite E2 in I. destruct I as [<-|I]; [contradiction|]. apply B. exists e. split; auto. rewrite E0. apply in_or_app. auto. }
  eexists _, _. split; [apply polygon_parity; [discriminate|exact B1]|]. split; [apply polygon_parity; [discriminate|exact B2]|].
  rewrite polygon_parity by (discriminate || exact B). f_equal. rewrite E0, E1, E2, !parity_app. cbn [parity fold_right].
  fold (parity x y (chain b (m ++ [a]))).
  replace (toggles x y (b, a)) with (toggles x y (a, b)) by (unfold toggles; cbn [fst snd]; rewrite edge_sym; reflexivity).
  destruct (parity x y (chain a (l ++ [b]))), (toggles x y (a, b)), (parity x y (chain b (m ++ [a]))); reflexivity.
Qed.

(** ** Triangles *)
Definition cross (x y : R) (a b : pt) : R := (fst a - x) * (snd b - y) - (fst b - x) * (snd a - y).
Lemma toggle_sign : forall x y a b, snd a <> y -> snd b <> y ->
  (toggles x y (a, b) = true <-> (snd a < y < snd b /\ 0 < cross x y a b) \/ (snd b < y < snd a /\ cross x y a b < 0)).
Proof.
  intros x y [x1 y1] [x2 y2] N1 N2. cbn [snd] in *. rewrite toggle_crosses by assumption. unfold crosses, cross. cbn [fst snd].
  split.
  - intros (t & Ht & EY & HX).
    destruct (Rlt_le_dec y1 y2) as [H|H].
    + left. split; [split; nra|].
      assert (0 < (y2 - y1) * (x1 + t * (x2 - x1) - x)) by nra.
      replace ((x1 - x) * (y2 - y) - (x2 - x) * (y1 - y)) with ((y2 - y1) * (x1 + t * (x2 - x1) - x)) by (rewrite EY; ring). lra.
    + assert (y2 < y1) by nra. right. split; [split; nra|].
      assert (0 < (y1 - y2) * (x1 + t * (x2 - x1) - x)) by nra.
      replace ((x1 - x) * (y2 - y) - (x2 - x) * (y1 - y)) with (- ((y1 - y2) * (x1 + t * (x2 - x1) - x))) by (rewrite EY; ring). lra.
  - intros H. exists ((y - y1) / (y2 - y1)).
    assert (D : y2 - y1 <> 0) by lra.
    assert (E : (y - y1) / (y2 - y1) * (y2 - y1) = y - y1) by (field; exact D).
    assert (E' : (y - y1) / (y2 - y1) * (y1 - y2) = y1 - y) by (field; exact D).
    set (t := (y - y1) / (y2 - y1)) in *. destruct H as [[H C]|[H C]].
    + split; [split; [apply Rmult_lt_reg_r with (y2 - y1); lra|apply Rmult_lt_reg_r with (y2 - y1); lra]|]. split; [lra|].
      apply Rmult_lt_reg_r with (y2 - y1); [lra|].
      replace ((x1 + t * (x2 - x1)) * (y2 - y1)) with (x1 * (y2 - y1) + (x2 - x1) * (t * (y2 - y1))) by ring. rewrite E. lra.
    + split; [split; [apply Rmult_lt_reg_r with (y1 - y2); lra|apply Rmult_lt_reg_r with (y1 - y2); lra]|]. split; [lra|].
      apply Rmult_lt_reg_r with (y1 - y2); [lra|].
      replace ((x1 + t * (x2 - x1)) * (y1 - y2)) with (x1 * (y1 - y2) + (x2 - x1) * (t * (y1 - y2))) by ring. rewrite E'. lra.
Qed.
Lemma straddle_off : forall x y a b, (snd a < y < snd b) \/ (snd b < y < snd a) -> ~ on_segment (x, y) a b -> cross x y a b <> 0.
Proof.
  intros x y [x1 y1] [x2 y2] H N C. apply N. unfold on_segment, cross in *. cbn [fst snd] in *. clear N.
  exists ((y - y1) / (y2 - y1)).
  assert (D : y2 - y1 <> 0) by lra.
  assert (E : (y - y1) / (y2 - y1) * (y2 - y1) = y - y1) by (field; exact D).
  assert (E' : (y - y1) / (y2 - y1) * (y1 - y2) = y1 - y) by (field; exact D).
  set (t := (y - y1) / (y2 - y1)) in *.
  assert (EX : (x1 + t * (x2 - x1)) * (y2 - y1) = x * (y2 - y1)).
  { replace ((x1 + t * (x2 - x1)) * (y2 - y1)) with (x1 * (y2 - y1) + (x2 - x1) * (t * (y2 - y1))) by ring. rewrite E. lra. }
  apply Rmult_eq_reg_r in EX; [|exact D].
  split; [|split; lra]. destruct H.
  - split; [apply Rmult_le_reg_r with (y2 - y1); lra|apply Rmult_le_reg_r with (y2 - y1); lra].
  - split; [apply Rmult_le_reg_r with (y1 - y2); lra|apply Rmult_le_reg_r with (y1 - y2); lra].
Qed.
(** The three products have the same sign. *)
Definition same_sign (u v w : R) : Prop := (0 < u /\ 0 < v /\ 0 < w) \/ (u < 0 /\ v < 0 /\ w < 0).
Lemma same_sign_inside : forall x y a b c, same_sign (cross x y a b) (cross x y b c) (cross x y c a) -> in_triangle (x, y) a b c.
Proof.
  intros x y a b c H. set (u := cross x y a b) in *. set (v := cross x y b c) in *. set (w := cross x y c a) in *.
  set (s := u + v + w). assert (S0 : s <> 0) by (unfold s; destruct H; lra).
  exists (v / s), (w / s), (u / s).
  assert (P : forall r, (0 < u -> 0 < r) -> (u < 0 -> r < 0) -> 0 < r / s).
  { intros r P1 P2. destruct H as [H|H].
    - apply Rdiv_lt_0_compat; [apply P1; lra|unfold s; lra].
    - replace (r / s) with ((- r) / (- s)) by (field; exact S0). apply Rdiv_lt_0_compat; [assert (r < 0) by (apply P2; lra); lra|unfold s; lra]. }
  split; [apply P; destruct H; lra|]. split; [apply P; destruct H; lra|]. split; [apply P; destruct H; lra|].
  split; [unfold s; field; exact S0|]. cbn [fst snd].
  split; apply Rmult_eq_reg_r with s; auto.
  - replace ((v / s * fst a + w / s * fst b + u / s * fst c) * s) with (v * fst a + w * fst b + u * fst c) by (field; exact S0).
    unfold s, u, v, w, cross. ring.
  - replace ((v / s * snd a + w / s * snd b + u / s * snd c) * s) with (v * snd a + w * snd b + u * snd c) by (field; exact S0).
    unfold s, u, v, w, cross. ring.
Qed.
Lemma inside_products : forall x y a b c, in_triangle (x, y) a b c -> exists k u v w, 0 < u /\ 0 < v /\ 0 < w /\
  cross x y a b = k * w /\ cross x y b c = k * u /\ cross x y c a = k * v.
Proof.
  intros x y a b c (u & v & w & U & V & W & S & EX & EY). cbn [fst snd] in *.
  exists (cross x y b c / u), u, v, w. do 3 (split; [assumption|]).
  assert (ZX : u * (fst a - x) + v * (fst b - x) + w * (fst c - x) = 0) by (replace w with (1 - u - v) in * by lra; lra).
  assert (ZY : u * (snd a - y) + v * (snd b - y) + w * (snd c - y) = 0) by (replace w with (1 - u - v) in * by lra; lra).
  assert (AX : u * (fst a - x) = - (v * (fst b - x)) - w * (fst c - x)) by lra.
  assert (AY : u * (snd a - y) = - (v * (snd b - y)) - w * (snd c - y)) by lra.
  split; [|split; [field; lra|]].
  - apply Rmult_eq_reg_l with u; [|lra]. replace (u * (cross x y b c / u * w)) with (w * cross x y b c) by (field; lra).
    unfold cross. replace (u * ((fst a - x) * (snd b - y) - (fst b - x) * (snd a - y))) with ((u * (fst a - x)) * (snd b - y) - (fst b - x) * (u * (snd a - y))) by ring.
    rewrite AX, AY. ring.
  - apply Rmult_eq_reg_l with u; [|lra]. replace (u * (cross x y b c / u * v)) with (v * cross x y b c) by (field; lra).
    unfold cross. replace (u * ((fst c - x) * (snd a - y) - (fst a - x) * (snd c - y))) with ((fst c - x) * (u * (snd a - y)) - (u * (fst a - x)) * (snd c - y)) by ring.
    rewrite AX, AY. ring.
Qed.
Lemma toggles_dec : forall x y a b, snd a <> y -> snd b <> y ->
  (toggles x y (a, b) = true /\ ((snd a < y < snd b /\ 0 < cross x y a b) \/ (snd b < y < snd a /\ cross x y a b < 0))) \/
  (toggles x y (a, b) = false /\ ~ ((snd a < y < snd b /\ 0 < cross x y a b) \/ (snd b < y < snd a /\ cross x y a b < 0))).
Proof.
  intros x y a b N1 N2. pose proof (toggle_sign x y a b N1 N2) as T. destruct (toggles x y (a, b)).
  - left. split; auto. apply T. reflexivity.
  - right. split; auto. intros H. apply T in H. discriminate.
Qed.
Lemma triangle_case : forall x y a b c, snd a <> y -> snd b <> y -> snd c <> y ->
  ~ on_segment (x, y) a b -> ~ on_segment (x, y) b c -> ~ on_segment (x, y) c a ->
  (parity x y (edges [a; b; c]) = true <-> in_triangle (x, y) a b c).
Proof.
  intros x y a b c NA NB NC OA OB OC.
  assert (ID : (snd a - y) * cross x y b c + (snd b - y) * cross x y c a + (snd c - y) * cross x y a b = 0) by (unfold cross; ring).
  pose proof (straddle_off x y a b) as SA. pose proof (straddle_off x y b c) as SB. pose proof (straddle_off x y c a) as SC.
  cbn [edges app chain parity fold_right].
  assert (K : xorb (toggles x y (a, b)) (xorb (toggles x y (b, c)) (xorb (toggles x y (c, a)) false)) = true <-> same_sign (cross x y a b) (cross x y b c) (cross x y c a) /\
     ~ (snd a < y /\ snd b < y /\ snd c < y) /\ ~ (snd a > y /\ snd b > y /\ snd c > y)).
  { unfold same_sign.
    assert (RA : snd a < y \/ snd a > y) by lra. assert (RB : snd b < y \/ snd b > y) by lra. assert (RC : snd c < y \/ snd c > y) by lra.
    set (u := cross x y a b) in *. set (v := cross x y b c) in *. set (w := cross x y c a) in *.
    destruct (toggles_dec x y a b NA NB) as [(-> & TA)|(-> & TA)]; destruct (toggles_dec x y b c NB NC) as [(-> & TB)|(-> & TB)];
      destruct (toggles_dec x y c a NC NA) as [(-> & TC)|(-> & TC)]; cbn [xorb]; fold u v w in TA, TB, TC;
      destruct RA as [RA|RA], RB as [RB|RB], RC as [RC|RC]; try (exfalso; lra);
      (split; [intros; try discriminate|intros H; try reflexivity; exfalso]);
      try (assert (u <> 0) by (apply SA; [lra|assumption])); try (assert (v <> 0) by (apply SB; [lra|assumption])); try (assert (w <> 0) by (apply SC; [lra|assumption]));
      try lra; (split; [|lra]); first [left; repeat split; nra | right; repeat split; nra]. }
  rewrite K. split.
  - intros (S & _). apply same_sign_inside. exact S.
  - intros I. pose proof I as I'. destruct (inside_products x y a b c I) as (k & u & v & w & U & V & W & E1 & E2 & E3).
    destruct I' as (u' & v' & w' & U' & V' & W' & S' & _ & EY). cbn [snd] in EY.
    assert (Z : u' * (snd a - y) + v' * (snd b - y) + w' * (snd c - y) = 0) by (replace w' with (1 - u' - v') in * by lra; lra).
    assert (N : ~ (snd a < y /\ snd b < y /\ snd c < y) /\ ~ (snd a > y /\ snd b > y /\ snd c > y)) by (split; intros (H1 & H2 & H3); nra).
    split; [|exact N].
    assert (KN : k <> 0).
    { intros ->. rewrite Rmult_0_l in E1, E2, E3. destruct N as (N1 & N2).
      assert (RA : snd a < y \/ snd a > y) by lra. assert (RB : snd b < y \/ snd b > y) by lra. assert (RC : snd c < y \/ snd c > y) by lra.
      destruct RA, RB, RC; try tauto;
      first [apply SA; [lra|assumption|assumption] | apply SB; [lra|assumption|assumption] | apply SC; [lra|assumption|assumption]]. }
    unfold same_sign. rewrite E1, E2, E3. destruct (Rlt_le_dec 0 k); [left|right]; repeat split; nra.
Qed.
Lemma polygon_triangle : forall x y a b c inc, not_level (x, y) [a; b; c] -> ~ on_boundary (x, y) [a; b; c] ->
  (point_inside_polygon x y [a; b; c] inc = Ok true <-> in_triangle (x, y) a b c) /\
  (point_inside_polygon x y [a; b; c] inc = Ok false <-> ~ in_triangle (x, y) a b c).
Proof.
  intros x y a b c inc L B. rewrite polygon_parity by (discriminate || exact B).
  assert (H : parity x y (edges [a; b; c]) = true <-> in_triangle (x, y) a b c).
  { unfold not_level in L. inversion L as [|? ? LA L1]; subst. inversion L1 as [|? ? LB L2]; subst. inversion L2 as [|? ? LC _]; subst. cbn [snd] in *.
    apply triangle_case; auto; intros T; apply B;
      [exists (a, b)|exists (b, c)|exists (c, a)]; (split; [cbn; auto|exact T]). }
  destruct (parity x y (edges [a; b; c])); split; split; intros H0; try congruence; try reflexivity;
    try (apply H; reflexivity); try (exfalso; apply H0, H; reflexivity); try (apply H in H0; discriminate).
  intros T. apply H in T. discriminate.
Qed.
(** Any polygon: the parity of the triangles of the fan containing the point. *)
Lemma polygon_fan : forall x y l a b inc n, not_level (x, y) (a :: b :: l) -> ~ on_boundary (x, y) (a :: b :: l) ->
  (forall v, In v l -> ~ on_segment (x, y) a v) ->
  number_with (fun t => in_triangle (x, y) (fst (fst t)) (snd (fst t)) (snd t)) (fan (a :: b :: l)) n ->
  point_inside_polygon x y (a :: b :: l) inc = Ok (Nat.odd n).
Proof.
  intros x y l. induction l as [|c l IH]; intros a b inc n L B D C.
  - inversion C; subst. rewrite polygon_parity by (discriminate || exact B). cbn [edges app chain parity fold_right].
    replace (toggles x y (b, a)) with (toggles x y (a, b)) by (unfold toggles; cbn [fst snd]; rewrite edge_sym; reflexivity).
    destruct (toggles x y (a, b)); reflexivity.
  - assert (DC : ~ on_segment (x, y) a c) by (apply D; left; reflexivity).
    destruct (polygon_cut x y a c [b] l inc B DC) as (u & v & E1 & E2 & E3). cbn [app] in E1, E3. rewrite E3.
    assert (L' : not_level (x, y) (a :: c :: l)) by (inversion L as [|? ? LA L1]; inversion L1; constructor; auto).
    assert (B' : ~ on_boundary (x, y) (a :: c :: l)).
    { intros (e & [<-|I] & T); [contradiction|]. apply B. exists e. split; auto. cbn. right. right. exact I. }
    assert (L3 : not_level (x, y) [a; b; c]).
    { inversion L as [|? ? LA L1]; inversion L1 as [|? ? LB L2]; inversion L2; repeat constructor; auto. }
    assert (B3 : ~ on_boundary (x, y) [a; b; c]).
    { intros (e & [<-|[<-|[<-|[]]]] & T).
      - apply B. exists (a, b). split; [left; reflexivity|exact T].
      - apply B. exists (b, c). split; [right; left; reflexivity|exact T].
      - apply DC, segment_sym, T. }
    destruct (polygon_triangle x y a b c inc L3 B3) as (T1 & T2).
    cbn [fan chain map fst snd] in C. inversion C as [|? ? m P C'|? ? m P C']; subst; cbn [fst snd] in P.
    + apply T1 in P. rewrite P in E1. injection E1 as <-. rewrite (IH a c inc m) in E2; auto; [|intros; apply D; right; assumption].
      injection E2 as <-. rewrite Nat.odd_succ, <- Nat.negb_odd. reflexivity.
    + apply T2 in P. rewrite P in E1. injection E1 as <-. rewrite (IH a c inc n) in E2; auto; [|intros; apply D; right; assumption].
      injection E2 as <-. destruct (Nat.odd n); reflexivity.
Qed.
(** Repeating the first vertex at the end. *)
Lemma polygon_closed : forall x y a l inc, snd a <> y -> point_inside_polygon x y (a :: l ++ [a]) inc = point_inside_polygon x y (a :: l) inc.
Proof.
  intros x y a l inc N.
  assert (E : edges (a :: l ++ [a]) = edges (a :: l) ++ [(a, a)]).
  { cbn [edges]. rewrite (chain_app (l ++ [a])). cbn [chain]. rewrite last_last. reflexivity. }
  assert (T0 : ~ on_segment (x, y) a a) by (intros (t & _ & _ & Y); cbn [snd] in Y; apply N; lra).
  destruct (Classical_Prop.classic (on_boundary (x, y) (a :: l))) as [B|B].
  - rewrite !polygon_boundary; auto. destruct B as (e & I & T). exists e. split; auto. rewrite E. apply in_or_app. auto.
  - assert (B' : ~ on_boundary (x, y) (a :: l ++ [a])).
    { intros (e & I & T). rewrite E in I. apply in_app_or in I. destruct I as [I|[<-|[]]]; [apply B; exists e; auto|contradiction]. }
    rewrite !polygon_parity by (discriminate || assumption). rewrite E, parity_app. f_equal. cbn [parity fold_right].
    replace (toggles x y (a, a)) with false; [destruct (parity x y (edges (a :: l))); reflexivity|].
    symmetry. destruct (toggles x y (a, a)) eqn:T; [|reflexivity]. apply toggle_sign in T; auto. lra.
Qed.
Lemma polygon_empty : forall x y inc, point_inside_polygon x y [] inc = Err IndexError.
Proof. reflexivity. Qed.
Definition diamond : list pt := [(1, 0); (0, 1); (-1, 0); (0, -1)].
Ltac decide_all := repeat match goal with
  | |- context[Req_EM_T ?a ?b] => destruct (Req_EM_T a b); try lra
  | |- context[Rle_dec ?a ?b] => destruct (Rle_dec a b); try lra
  | |- context[Rlt_dec ?a ?b] => destruct (Rlt_dec a b); try lra end.
Lemma minmax : forall a b, (a <= b -> Rmin a b = a /\ Rmax a b = b) /\ (b <= a -> Rmin a b = b /\ Rmax a b = a).
Proof. intros a b. split; intros H; split; unfold Rmin, Rmax; destruct (Rle_dec a b); lra. Qed.
Lemma diamond_edges :
  edge_step 0 0 (1, 0) (0, 1) = Toggle /\ edge_step 0 0 (0, 1) (-1, 0) = Keep /\
  edge_step 0 0 (-1, 0) (0, -1) = Keep /\ edge_step 0 0 (0, -1) (1, 0) = Toggle /\ edge_step 0 0 (1, 0) (1, 0) = Toggle.
Proof.
  unfold edge_step, Rmin, Rmax. repeat split; decide_all; auto; exfalso; unfold Rdiv in *; try lra.
  all: repeat match goal with H : context[Rle_dec ?a ?b] |- _ => destruct (Rle_dec a b); try lra end.
Qed.
Lemma diamond_open : forall inc, point_inside_polygon 0 0 diamond inc = Ok false.
Proof.
  intros inc. destruct diamond_edges as (E1 & E2 & E3 & E4 & E5). unfold diamond, point_inside_polygon. cbn [app polygon_loop].
  rewrite E1, E2, E3, E4. reflexivity.
Qed.
Lemma diamond_closed : forall inc, point_inside_polygon 0 0 (diamond ++ [(1, 0)]) inc = Ok true.
Proof.
  intros inc. destruct diamond_edges as (E1 & E2 & E3 & E4 & E5). unfold diamond, point_inside_polygon. cbn [app polygon_loop].
  rewrite E1, E2, E3, E4, E5. reflexivity.
Qed.
Lemma path_from_first : forall s l,
  exists path, optimized_path (s :: l) None = ([], Ok path) /\ Permutation path (s :: l) /\
    (exists more, path = s :: more) /\ greedy (s :: l) path.
Proof. intros s l. apply (path_from (s :: l) s). left. reflexivity. Qed.
Lemma path_failures : forall coords s,
  (~ In s coords -> optimized_path coords (Some s) = (coords, Err ValueError)) /\
  optimized_path [] None = ([], Err IndexError).
Proof. intros coords s. split; [apply path_missing|reflexivity]. Qed.
Lemma distance_row : forall a b, distance (a, 0) (b, 0) = Rabs (a - b).
Proof. intros a b. unfold distance. cbn [fst snd]. rewrite Rminus_0_r, Rmult_0_l, Rplus_0_r. fold (Rsqr (a - b)). apply sqrt_Rsqr_abs. Qed.
Ltac decide_path := repeat (cbn [remove_first walk nearest first bind rev app List.length]; rewrite ?distance_row;
  match goal with
  | |- context[pt_dec (?a, ?c) (?b, ?c)] => destruct (pt_dec (a, c) (b, c)) as [?E|?E];
      [first [(injection E; intros; exfalso; lra) | clear E]|first [(exfalso; apply E; reflexivity) | clear E]]
  | |- context[Rlt_dec ?a ?b] => destruct (Rlt_dec a b) as [?E|?E]; unfold Rabs in E; repeat destruct (Rcase_abs _) in E; try (exfalso; lra); clear E
  end).
Lemma path_example : optimized_path [(5, 0); (0, 0); (2, 0)] (Some (2, 0)) = ([], Ok [(2, 0); (0, 0); (5, 0)]).
Proof. unfold optimized_path. decide_path. reflexivity. Qed.
Lemma path_tie : optimized_path [(2, 0); (3, 0); (1, 0)] None = ([], Ok [(2, 0); (3, 0); (1, 0)]).
Proof. unfold optimized_path. decide_path. reflexivity. Qed.
Lemma polygon_crossings_ex : forall x y poly inc, poly <> [] -> not_level (x, y) poly -> ~ on_boundary (x, y) poly ->
  exists n, number_with (crosses (x, y)) (edges poly) n /\ point_inside_polygon x y poly inc = Ok (Nat.odd n).
Proof.
  intros x y poly inc N L B. destruct (number_exists _ (crosses (x, y)) (edges poly)) as (n & C). exists n. split; auto.
  apply polygon_crossings; auto.
Qed.
Lemma polygon_fan_ex : forall x y l a b inc, not_level (x, y) (a :: b :: l) -> ~ on_boundary (x, y) (a :: b :: l) ->
  (forall v, In v l -> ~ on_segment (x, y) a v) ->
  exists n, number_with (fun t => in_triangle (x, y) (fst (fst t)) (snd (fst t)) (snd t)) (fan (a :: b :: l)) n /\
    point_inside_polygon x y (a :: b :: l) inc = Ok (Nat.odd n).
Proof.
  intros x y l a b inc L B D.
  destruct (number_exists _ (fun t => in_triangle (x, y) (fst (fst t)) (snd (fst t)) (snd t)) (fan (a :: b :: l))) as (n & C).
  exists n. split; auto. apply polygon_fan; auto.
Qed.
Ltac off_edges := intros (e & I & (t & Ht & X & Y)); cbn [edges app chain In] in I;
  repeat (destruct I as [<-|I]; [cbn [fst snd] in X, Y; lra|]); destruct I.
Lemma level_refuted : exists x y poly, in_triangle (x, y) (0, 1) (-1, -1 / 2) (1, -1 / 2) /\
  poly = [(1, 0); (0, 1); (-1, 0); (0, -1)] /\ ~ on_boundary (x, y) poly /\
  point_inside_polygon x y poly true = Ok false /\ point_inside_polygon x y (poly ++ [(1, 0)]) true = Ok true.
Proof.
  exists 0, 0, diamond. split; [exists (1/3), (1/3), (1/3); cbn [fst snd]; repeat split; lra|]. split; [reflexivity|].
  split; [unfold diamond; off_edges|]. split; [apply diamond_open|apply diamond_closed].
Qed.
Lemma triangle_example : not_level (1, 1) [(0, 0); (4, 0); (0, 4)] /\ ~ on_boundary (1, 1) [(0, 0); (4, 0); (0, 4)] /\
  in_triangle (1, 1) (0, 0) (4, 0) (0, 4) /\ point_inside_polygon 1 1 [(0, 0); (4, 0); (0, 4)] false = Ok true /\
  not_level (3, 2) [(0, 0); (4, 0); (0, 4)] /\ ~ on_boundary (3, 2) [(0, 0); (4, 0); (0, 4)] /\
  ~ in_triangle (3, 2) (0, 0) (4, 0) (0, 4) /\ point_inside_polygon 3 2 [(0, 0); (4, 0); (0, 4)] true = Ok false /\
  on_boundary (2, 2) [(0, 0); (4, 0); (0, 4)].
Proof.
  assert (L1 : not_level (1, 1) [(0, 0); (4, 0); (0, 4)]) by (repeat constructor; cbn [snd]; lra).
  assert (L2 : not_level (3, 2) [(0, 0); (4, 0); (0, 4)]) by (repeat constructor; cbn [snd]; lra).
  assert (B1 : ~ on_boundary (1, 1) [(0, 0); (4, 0); (0, 4)]) by off_edges.
  assert (B2 : ~ on_boundary (3, 2) [(0, 0); (4, 0); (0, 4)]) by off_edges.
  assert (I1 : in_triangle (1, 1) (0, 0) (4, 0) (0, 4)) by (exists (1/2), (1/4), (1/4); cbn [fst snd]; repeat split; lra).
  assert (I2 : ~ in_triangle (3, 2) (0, 0) (4, 0) (0, 4)) by (intros (u & v & w & U & V & W & S & X & Y); cbn [fst snd] in *; lra).
  do 3 (split; [assumption|]). split; [apply polygon_triangle; assumption|]. do 3 (split; [assumption|]).
  split; [apply polygon_triangle; assumption|].
  exists ((4, 0), (0, 4)). split; [cbn; auto|]. exists (1/2). cbn [fst snd]. repeat split; lra.
Qed.
