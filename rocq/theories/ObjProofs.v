(** Merging meshes into an OBJ object. *)
From Coq Require Import String Reals List ZArith Lra Lia Bool Sorted Permutation.
From Verif Require Import Base ProfileProofs ProfileProofs2 BladeProofs2 RbfProofs ObjModel ObjSpec.
Import ListNotations.
Open Scope nat_scope.

(** ** Sorting *)
Lemma lt3_irrefl : forall a, ~ lt3 a a.
Proof. intros [[x y] z]. unfold lt3. lra. Qed.
Lemma lt3_trans : forall a b c, lt3 a b -> lt3 b c -> lt3 a c.
Proof. intros [[x y] z] [[u v] w] [[p q] r]. unfold lt3. intuition (subst; lra). Qed.
Lemma lt3_total : forall a b, ~ lt3 a b -> ~ lt3 b a -> a = b.
Proof.
  intros [[x y] z] [[u v] w]. unfold lt3. intros H1 H2.
  assert (x = u) by (destruct (Rtotal_order x u) as [?|[?|?]]; tauto). subst.
  assert (y = v) by (destruct (Rtotal_order y v) as [?|[?|?]]; intuition congruence). subst.
  assert (z = w) by (destruct (Rtotal_order z w) as [?|[?|?]]; intuition congruence). subst. reflexivity.
Qed.
Lemma insert3_in : forall a l b, In b (insert3 a l) <-> b = a \/ In b l.
Proof.
  intros a l b. induction l as [|c l IH]; cbn; [intuition|].
  destruct (lt3_dec a c); cbn; [intuition|]. destruct (lt3_dec c a); cbn; [rewrite IH; intuition|].
  assert (a = c) by (apply lt3_total; auto). subst. intuition.
Qed.
Lemma insert3_sorted : forall a l, StronglySorted lt3 l -> StronglySorted lt3 (insert3 a l).
Proof.
  intros a l S. induction S as [|c l S IH F]; cbn; [repeat constructor|].
  destruct (lt3_dec a c) as [H|H].
  - constructor; [constructor; auto|]. constructor; auto. rewrite Forall_forall in *. intros x I. eapply lt3_trans; eauto.
  - destruct (lt3_dec c a) as [H'|H']; [|constructor; auto]. constructor; auto.
    rewrite Forall_forall in *. intros x I. apply insert3_in in I. destruct I as [->|I]; auto.
Qed.
Lemma unique3_in : forall l a, In a (unique3 l) <-> In a l.
Proof. intros l a. induction l as [|b l IH]; cbn; [tauto|]. rewrite insert3_in, IH. intuition. Qed.
Lemma unique3_sorted : forall l, StronglySorted lt3 (unique3 l).
Proof. induction l; cbn; [constructor|]. apply insert3_sorted; auto. Qed.
Lemma sorted3_nodup : forall l, StronglySorted lt3 l -> NoDup l.
Proof.
  intros l S. induction S as [|a l S IH F]; constructor; auto. intros I. rewrite Forall_forall in F. apply (lt3_irrefl a), F, I.
Qed.
Lemma position_ok : forall l a, StronglySorted lt3 l -> In a l -> nth_error l (position a l) = Some a.
Proof.
  intros l a S. induction S as [|b l S IH F]; intros I; [destruct I|]. cbn [position].
  rewrite Forall_forall in F. destruct (lt3_dec a b) as [H|H].
  - destruct I as [->|I]; [destruct (lt3_irrefl _ H)|]. destruct (lt3_irrefl a). eapply lt3_trans; eauto.
  - destruct (lt3_dec b a) as [H'|H'].
    + destruct I as [->|I]; [destruct (lt3_irrefl _ H')|]. apply IH, I.
    + assert (a = b) by (apply lt3_total; auto). subst. reflexivity.
Qed.
Lemma inverse3_ok : forall l i a, nth_error l i = Some a ->
  exists k, nth_error (inverse3 l) i = Some k /\ nth_error (unique3 l) k = Some a.
Proof.
  intros l i a H. exists (position a (unique3 l)). split.
  - unfold inverse3. apply (map_nth_error (fun a => position a (unique3 l)) _ _ H).
  - apply position_ok; [apply unique3_sorted|]. apply unique3_in. eapply nth_error_In; eauto.
Qed.

(** ** Triangles *)
Definition linked (l : list pt3) (t q : tri) : Prop :=
  exists c, mesh_corners l t c /\ mesh_corners (unique3 l) q c.
Lemma renumber_ok : forall l t, in_range (List.length l) t -> exists q, renumber (inverse3 l) t = Ok q /\ linked l t q.
Proof.
  intros l [[i j] k] (Hi & Hj & Hk). unfold renumber, item.
  assert (G : forall m, m < List.length l -> exists a, nth_error l m = Some a).
  { intros m Hm. destruct (nth_error l m) eqn:E; eauto. apply nth_error_None in E. lia. }
  destruct (G i Hi) as (a & Ha), (G j Hj) as (b & Hb), (G k Hk) as (c & Hc).
  destruct (inverse3_ok _ _ _ Ha) as (a' & -> & Ua), (inverse3_ok _ _ _ Hb) as (b' & -> & Ub), (inverse3_ok _ _ _ Hc) as (c' & -> & Uc).
  cbn [bind]. exists (a', b', c'). split; auto. exists (a, b, c). repeat split; auto.
Qed.
Lemma renumber_all : forall l cs, Forall (in_range (List.length l)) cs ->
  exists qs, mapM (renumber (inverse3 l)) cs = Ok qs /\ Forall2 (linked l) cs qs.
Proof.
  intros l cs F. induction F as [|t cs R F IH]; [exists []; split; [reflexivity|constructor]|].
  destruct (renumber_ok l t R) as (q & E & Q). destruct IH as (qs & E' & Q'). exists (q :: qs). split; [|constructor; auto].
  cbn [mapM]. rewrite E. cbn [bind]. rewrite E'. reflexivity.
Qed.
Lemma append_cells_ok : forall l cs name o, Forall (in_range (List.length l)) cs ->
  exists qs, append_cells (inverse3 l) cs name o =
    Ok (mkObj (vertices o) (polygons o ++ qs) (regions o ++ [name]) (changes o ++ [(List.length (polygons o), List.length (regions o))])) /\
    Forall2 (linked l) cs qs.
Proof.
  intros l cs name o F. destruct (renumber_all l cs F) as (qs & E & Q). exists qs. split; auto.
  unfold append_cells. rewrite E. reflexivity.
Qed.
Lemma f2_length : forall {A B} (P : A -> B -> Prop) l l', Forall2 P l l' -> List.length l = List.length l'.
Proof. intros A B P l l' F. induction F; cbn; auto. Qed.
Lemma f2_map_r : forall {A B C} (P : A -> C -> Prop) (f : B -> C) l l', Forall2 (fun a b => P a (f b)) l l' -> Forall2 P l (map f l').
Proof. intros A B C P f l l' F. induction F; cbn; constructor; auto. Qed.
Lemma f2_map_l : forall {A B C} (P : C -> B -> Prop) (f : A -> C) l l', Forall2 P (map f l) l' -> Forall2 (fun a b => P (f a) b) l l'.
Proof. intros A B C P f l. induction l; intros l' F; inversion F; subst; constructor; auto. Qed.
Lemma f2_impl : forall {A B} (P Q : A -> B -> Prop) l l', (forall a b, In a l -> P a b -> Q a b) -> Forall2 P l l' -> Forall2 Q l l'.
Proof. intros A B P Q l l' H F. induction F; constructor; [apply H; [left; auto|auto]|]. apply IHF. intros; apply H; [right; auto|auto]. Qed.

Lemma linked_drawn : forall o l m cs qs, vertices o = unique3 l ->
  (forall t, In t cs -> forall c, mesh_corners l t c -> mesh_corners (points m) t c) ->
  Forall2 (linked l) cs qs -> drawn o m cs (map (shift 1) qs).
Proof.
  intros o l m cs qs V K F. unfold drawn. apply f2_map_r. revert F. apply f2_impl. intros t [[i j] k] I ([[a b] d] & Ct & (Q1 & Q2 & Q3)).
  exists (a, b, d). split; [apply K; auto|]. cbn. rewrite V, !Nat.add_sub. repeat split; auto; lia.
Qed.
Lemma drawn_shift : forall o m k cs l m', (forall t c, mesh_corners (points m) (shift k t) c -> mesh_corners (points m') t c) ->
  drawn o m (map (shift k) cs) l -> drawn o m' cs l.
Proof.
  intros o m k cs l m' K D. unfold drawn in *. apply f2_map_l in D. revert D. apply f2_impl.
  intros t q _ (c & C1 & C2). exists c. split; auto.
Qed.
Lemma shift_range : forall n k t, in_range n t -> in_range (k + n) (shift k t).
Proof. intros n k [[a b] c] (A & B & C). cbn. lia. Qed.
Lemma range_weaken : forall n k t, in_range n t -> in_range (n + k) t.
Proof. intros n k [[a b] c] (A & B & C). cbn. lia. Qed.
Lemma left_corners : forall l l' t c, in_range (List.length l) t -> mesh_corners (l ++ l') t c -> mesh_corners l t c.
Proof.
  intros l l' [[i j] k] [[a b] c] (A & B & C). cbn. rewrite !nth_error_app1 by auto. auto.
Qed.
Lemma right_corners : forall l l' t c, mesh_corners (l ++ l') (shift (List.length l) t) c -> mesh_corners l' t c.
Proof.
  intros l l' [[i j] k] [[a b] c]. cbn. rewrite !nth_error_app2 by lia. rewrite !Nat.add_sub. auto.
Qed.

(** ** blades_and_stem *)
Lemma two_regions : forall vs pb ps n1 n2,
  let o := mkObj vs (pb ++ ps) [n1; n2] [(0, 0); (List.length pb, 1)] in
  in_region o n1 0 (List.length pb) /\ in_region o n2 (List.length pb) (List.length (polygons o)).
Proof.
  intros vs pb ps n1 n2 o. split; intros j Hj; unfold region_of, o; cbn [changes last_change regions].
  - destruct (Nat.leb_spec (List.length pb) j); [lia|]. reflexivity.
  - destruct (Nat.leb_spec (List.length pb) j); [|lia]. reflexivity.
Qed.
Lemma three_regions : forall vs p1 p2 p3 n1 n2 n3,
  let o := mkObj vs (p1 ++ p2 ++ p3) [n1; n2; n3] [(0, 0); (List.length p1, 1); (List.length p1 + List.length p2, 2)] in
  in_region o n1 0 (List.length p1) /\ in_region o n2 (List.length p1) (List.length p1 + List.length p2) /\
  in_region o n3 (List.length p1 + List.length p2) (List.length (polygons o)).
Proof.
  intros vs p1 p2 p3 n1 n2 n3 o. repeat split; intros j Hj; unfold region_of, o; cbn [changes last_change regions];
    destruct (Nat.leb_spec (List.length p1 + List.length p2) j); try lia; try reflexivity;
    destruct (Nat.leb_spec (List.length p1) j); try lia; reflexivity.
Qed.

Lemma merge_stem : forall sh bl kw, valid_mesh sh -> valid_mesh bl ->
  exists o pb ps, merge_meshes sh bl "blades_and_stem" kw = Ok o /\ polygons o = pb ++ ps /\
    StronglySorted lt3 (vertices o) /\ (forall v, In v (vertices o) <-> In v (points sh ++ points bl)) /\
    drawn o bl (cells bl) pb /\ drawn o sh (cells sh) ps /\
    in_region o (named "blades_name" "blades" kw) 0 (List.length pb) /\
    in_region o (named "shaft_name" "shaft" kw) (List.length pb) (List.length (polygons o)).
Proof.
  intros sh bl kw (NS & FS) (NB & FB). unfold merge_meshes.
  destruct (cells sh) as [|c0 cs0] eqn:ES; [congruence|]. rewrite <- ES in *. destruct (cells bl) as [|d0 ds0] eqn:EB; [congruence|].
  rewrite <- EB in *. clear NS NB ES EB.
  change (String.eqb "blades_and_stem" "blades_and_stem") with true. cbv iota zeta.
  set (all := points sh ++ points bl) in *. set (n := List.length (points sh)) in *.
  assert (LA : List.length all = n + List.length (points bl)) by (unfold all; rewrite app_length; auto).
  assert (R1 : Forall (in_range (List.length all)) (map (shift n) (cells bl))).
  { rewrite Forall_map, LA. revert FB. apply Forall_impl. intros. apply shift_range. auto. }
  assert (R2 : Forall (in_range (List.length all)) (cells sh)).
  { rewrite LA. revert FS. apply Forall_impl. intros. apply range_weaken. auto. }
  destruct (append_cells_ok all _ (named "blades_name" "blades" kw) (mkObj (unique3 all) [] [] []) R1) as (qb & E1 & Q1).
  rewrite E1. cbn [bind vertices polygons regions changes app List.length].
  set (o1 := mkObj (unique3 all) qb [named "blades_name" "blades" kw] [(0, 0)]).
  destruct (append_cells_ok all _ (named "shaft_name" "shaft" kw) o1 R2) as (qs & E2 & Q2). rewrite E2.
  unfold o1. cbn [bind vertices polygons regions changes app List.length].
  rewrite map_app. set (pb := map (shift 1) qb). set (ps := map (shift 1) qs).
  replace (List.length qb) with (List.length pb) by (unfold pb; apply map_length).
  set (o := mkObj (unique3 all) (pb ++ ps) _ _).
  exists o, pb, ps. split; [reflexivity|]. split; [reflexivity|]. split; [apply unique3_sorted|]. split; [intros v; apply unique3_in|].
  destruct (two_regions (unique3 all) pb ps (named "blades_name" "blades" kw) (named "shaft_name" "shaft" kw)) as (G1 & G2).
  split.
  - apply (drawn_shift o (mkMesh all []) n). { intros t c C. apply (right_corners (points sh)). exact C. }
    apply (linked_drawn o all); auto.
  - split; [|split; [exact G1|exact G2]]. apply (linked_drawn o all); auto. intros t I c C. rewrite Forall_forall in FS.
    eapply left_corners; [apply FS, I|exact C].
Qed.

(** ** by_coords *)
Lemma vmin_spec3 : forall l m, vmin l = Ok m -> In m l /\ forall x, In x l -> (m <= x)%R.
Proof.
  intros l m H. destruct l as [|x l]; [discriminate|]. cbn in H. injection H as <-.
  assert (K : forall l x, In (fold_left Rmin l x) (x :: l) /\ forall y, In y (x :: l) -> (fold_left Rmin l x <= y)%R).
  { clear. induction l as [|a l IH]; intros x; cbn.
    - split; auto. intros y [<-|[]]; lra.
    - destruct (IH (Rmin x a)) as [A B]. split.
      + destruct A as [A|A]; [|auto]. rewrite <- A. unfold Rmin. destruct (Rle_dec x a); auto.
      + intros y H. pose proof (B (Rmin x a) (or_introl eq_refl)). pose proof (Rmin_l x a). pose proof (Rmin_r x a).
        destruct H as [->|[->|H]]; try lra. apply B. right. auto. }
  apply K.
Qed.
Lemma number_count : forall (side : R -> Prop) f l, (forall x, f x = true <-> side x) ->
  number_of side l (count f (map x_of l)).
Proof.
  intros side f l H. induction l as [|p l IH]; cbn; [constructor|]. unfold count in *. cbn.
  destruct (f (x_of p)) eqn:E; cbn; constructor; auto; [apply H; auto|]. intros C. apply H in C. congruence.
Qed.
Lemma lt_bool_iff : forall a b, lt_bool a b = true <-> (a < b)%R.
Proof. intros. unfold lt_bool. destruct (Rlt_dec a b); intuition congruence. Qed.
Lemma le_bool_iff : forall a b, le_bool a b = true <-> (a <= b)%R.
Proof. intros. unfold le_bool. destruct (Rle_dec a b); intuition congruence. Qed.

Lemma head_point_ok : forall sh bl, points bl <> [] -> exists lo hi beyond below g,
  extent bl lo hi /\ number_of (fun x => (hi < x)%R) (points sh) beyond /\ number_of (fun x => (x < hi)%R) (points sh) below /\
  head_point sh bl = Ok (map g (map x_of (points sh))) /\
  forall x, g x = true <-> (below <= beyond -> (x <= hi)%R) /\ (beyond < below -> (lo <= x)%R).
Proof.
  intros sh bl N. unfold head_point.
  destruct (vmin (map x_of (points bl))) as [lo|e] eqn:E1; [|destruct (points bl); [congruence|discriminate]].
  destruct (vmax_ok (map x_of (points bl))) as (hi & E2). { destruct (points bl); [congruence|discriminate]. }
  rewrite E2. cbn [bind].
  exists lo, hi, (count (fun x => lt_bool hi x) (map x_of (points sh))), (count (fun x => lt_bool x hi) (map x_of (points sh))).
  apply vmin_spec3 in E1. apply vmax_spec in E2. destruct E1 as (I1 & M1), E2 as (I2 & M2).
  assert (X : extent bl lo hi).
  { apply in_map_iff in I1. apply in_map_iff in I2. destruct I1 as (p1 & P1 & I1), I2 as (p2 & P2 & I2).
    split; [eauto|]. split; [eauto|]. intros p I. split; [apply M1|apply M2]; apply in_map; auto. }
  destruct (Nat.leb_spec (count (fun x => lt_bool x hi) (map x_of (points sh))) (count (fun x => lt_bool hi x) (map x_of (points sh)))) as [H|H].
  - exists (fun x => le_bool x hi). split; auto. split; [apply number_count; intros; apply lt_bool_iff|].
    split; [apply number_count; intros; apply lt_bool_iff|]. split; [reflexivity|]. intros x. rewrite le_bool_iff. split; [intros; split; auto; lia|tauto].
  - exists (fun x => le_bool lo x). split; auto. split; [apply number_count; intros; apply lt_bool_iff|].
    split; [apply number_count; intros; apply lt_bool_iff|]. split; [reflexivity|]. intros x. rewrite le_bool_iff. split; [intros; split; auto; lia|tauto].
Qed.

Lemma all_three_ok : forall sh g (side : R -> Prop) t, (forall x, g x = true <-> side x) -> in_range (List.length (points sh)) t ->
  exists b, all_three (map g (map x_of (points sh))) t = Ok b /\ (b = true <-> all_corners sh side t).
Proof.
  intros sh g side [[i j] k] G (Hi & Hj & Hk). unfold all_three, item, all_corners, mesh_corners.
  assert (K : forall m, m < List.length (points sh) -> exists a, nth_error (points sh) m = Some a).
  { intros m Hm. destruct (nth_error (points sh) m) eqn:E; eauto. apply nth_error_None in E. lia. }
  destruct (K i Hi) as (a & Ha), (K j Hj) as (b & Hb), (K k Hk) as (c & Hc).
  rewrite !map_map, (map_nth_error _ _ _ Ha), (map_nth_error _ _ _ Hb), (map_nth_error _ _ _ Hc). cbn [bind].
  eexists. split; [reflexivity|]. rewrite !andb_true_iff, !G. split.
  - intros ((A & B) & C). exists a, b, c. auto 10.
  - intros (a' & b' & c' & (A & B & C) & S1 & S2 & S3).
    assert (a' = a) by congruence. assert (b' = b) by congruence. assert (c' = c) by congruence. subst. auto.
Qed.
Lemma all_three_all : forall sh g (side : R -> Prop) cs, (forall x, g x = true <-> side x) -> Forall (in_range (List.length (points sh))) cs ->
  exists bs, mapM (all_three (map g (map x_of (points sh)))) cs = Ok bs /\ Forall2 (fun t b => b = true <-> all_corners sh side t) cs bs.
Proof.
  intros sh g side cs G F. induction F as [|t cs R F IH]; [exists []; split; [reflexivity|constructor]|].
  destruct (all_three_ok sh g side t G R) as (b & E & B). destruct IH as (bs & E' & B'). exists (b :: bs). split; [|constructor; auto].
  cbn [mapM]. rewrite E. cbn [bind]. rewrite E'. reflexivity.
Qed.
Lemma select_picked : forall (P : tri -> Prop) cs bs, Forall2 (fun t b => b = true <-> P t) cs bs ->
  picked P cs (select bs cs) /\ picked (fun t => ~ P t) cs (select (map negb bs) cs) /\
  Permutation (select bs cs ++ select (map negb bs) cs) cs.
Proof.
  intros P cs bs F. induction F as [|t b cs bs B F (A1 & A2 & A3)]; [repeat constructor|].
  cbn [select map]. destruct b; cbn [negb].
  - assert (P t) by (apply B; auto). split; [constructor; auto|]. split; [apply pick_out; auto|]. cbn [app]. constructor; auto.
  - assert (~ P t) by (intros C; apply B in C; discriminate). split; [apply pick_out; auto|]. split; [constructor; auto|].
    rewrite <- Permutation_middle. constructor; auto.
Qed.
Lemma select_forall : forall (P : tri -> Prop) cs bs, Forall P cs -> Forall P (select bs cs).
Proof.
  intros P cs bs F. revert bs. induction F; intros [|[] bs]; cbn; try constructor; auto.
Qed.

Lemma merge_coords : forall sh bl kw, valid_mesh sh -> valid_mesh bl ->
  exists o ph pt pb ch ct lo hi beyond below, merge_meshes sh bl "by_coords" kw = Ok o /\ polygons o = ph ++ pt ++ pb /\
    StronglySorted lt3 (vertices o) /\ (forall v, In v (vertices o) <-> In v (points sh ++ points bl)) /\
    extent bl lo hi /\ number_of (fun x => (hi < x)%R) (points sh) beyond /\ number_of (fun x => (x < hi)%R) (points sh) below /\
    (let head := all_corners sh (fun x => (below <= beyond -> (x <= hi)%R) /\ (beyond < below -> (lo <= x)%R)) in
     picked head (cells sh) ch /\ picked (fun t => ~ head t) (cells sh) ct) /\ Permutation (ch ++ ct) (cells sh) /\
    drawn o sh ch ph /\ drawn o sh ct pt /\ drawn o bl (cells bl) pb /\
    in_region o (named "shafthead_name" "shaftHead" kw) 0 (List.length ph) /\
    in_region o (named "shafttail_name" "shaftTail" kw) (List.length ph) (List.length ph + List.length pt) /\
    in_region o (named "blades_name" "blades" kw) (List.length ph + List.length pt) (List.length (polygons o)).
Proof.
  intros sh bl kw (NS & FS) (NB & FB).
  assert (NP : points bl <> []).
  { intros C. rewrite C in FB. destruct (cells bl) as [|[[i j] k] ?]; [congruence|]. apply Forall_inv in FB. cbn in FB. lia. }
  unfold merge_meshes.
  destruct (cells sh) as [|c0 cs0] eqn:ES; [congruence|]. rewrite <- ES in *. destruct (cells bl) as [|d0 ds0] eqn:EB; [congruence|].
  rewrite <- EB in *. clear NS NB ES EB.
  change (String.eqb "by_coords" "blades_and_stem") with false. change (String.eqb "by_coords" "by_coords") with true. cbv iota zeta.
  set (all := points sh ++ points bl) in *. set (n := List.length (points sh)) in *.
  destruct (head_point_ok sh bl NP) as (lo & hi & beyond & below & g & X & N1 & N2 & HP & G). rewrite HP. cbn [bind].
  destruct (all_three_all sh g _ (cells sh) G FS) as (bs & EB & B). rewrite EB. cbn [bind].
  destruct (select_picked _ _ _ B) as (S1 & S2 & S3).
  set (ch := select bs (cells sh)) in *. set (ct := select (map negb bs) (cells sh)) in *.
  assert (LA : List.length all = n + List.length (points bl)) by (unfold all; rewrite app_length; auto).
  assert (R3 : Forall (in_range (List.length all)) (map (shift n) (cells bl))).
  { rewrite Forall_map, LA. revert FB. apply Forall_impl. intros. apply shift_range. auto. }
  assert (R0 : forall bs, Forall (in_range (List.length all)) (select bs (cells sh))).
  { intros bs'. apply select_forall. rewrite LA. revert FS. apply Forall_impl. intros. apply range_weaken. auto. }
  destruct (append_cells_ok all ch (named "shafthead_name" "shaftHead" kw) (mkObj (unique3 all) [] [] []) (R0 _)) as (q1 & E1 & Q1).
  rewrite E1. cbn [bind vertices polygons regions changes app List.length].
  set (o1 := mkObj (unique3 all) q1 _ _).
  destruct (append_cells_ok all ct (named "shafttail_name" "shaftTail" kw) o1 (R0 _)) as (q2 & E2 & Q2). rewrite E2.
  unfold o1. cbn [bind vertices polygons regions changes app List.length]. set (o2 := mkObj (unique3 all) (q1 ++ q2) _ _).
  destruct (append_cells_ok all _ (named "blades_name" "blades" kw) o2 R3) as (q3 & E3 & Q3). rewrite E3.
  unfold o2. cbn [bind vertices polygons regions changes app List.length].
  rewrite !map_app, <- app_assoc, app_length. set (ph := map (shift 1) q1). set (pt := map (shift 1) q2). set (pb := map (shift 1) q3).
  replace (List.length q1) with (List.length ph) by (unfold ph; apply map_length).
  replace (List.length q2) with (List.length pt) by (unfold pt; apply map_length).
  set (o := mkObj (unique3 all) (ph ++ pt ++ pb) _ _).
  exists o, ph, pt, pb, ch, ct, lo, hi, beyond, below.
  split; [reflexivity|]. split; [reflexivity|]. split; [apply unique3_sorted|]. split; [intros v; apply unique3_in|].
  split; [exact X|]. split; [exact N1|]. split; [exact N2|]. split; [split; [exact S1|exact S2]|]. split; [exact S3|].
  destruct (three_regions (unique3 all) ph pt pb (named "shafthead_name" "shaftHead" kw) (named "shafttail_name" "shaftTail" kw) (named "blades_name" "blades" kw)) as (G1 & G2 & G3).
  assert (LC : forall cs qs, Forall (in_range n) cs -> Forall2 (linked all) cs qs -> drawn o sh cs (map (shift 1) qs)).
  { intros cs qs F L. apply (linked_drawn o all); auto. intros t I c C. rewrite Forall_forall in F. eapply left_corners; [apply F, I|exact C]. }
  split; [apply LC; auto; apply select_forall; auto|]. split; [apply LC; auto; apply select_forall; auto|].
  split; [|split; [exact G1|split; [exact G2|exact G3]]].
  apply (drawn_shift o (mkMesh all []) n). { intros t c C. apply (right_corners (points sh)). exact C. }
  apply (linked_drawn o all); auto.
Qed.

(** ** Errors and the blades alone *)
Lemma merge_unknown : forall sh bl sel kw, cells sh <> [] -> cells bl <> [] -> sel <> "blades_and_stem"%string -> sel <> "by_coords"%string ->
  merge_meshes sh bl sel kw = Err ValueError.
Proof.
  intros sh bl sel kw N1 N2 S1 S2. unfold merge_meshes. destruct (cells sh); [congruence|]. destruct (cells bl); [congruence|].
  apply String.eqb_neq in S1. apply String.eqb_neq in S2. rewrite S1, S2. reflexivity.
Qed.
Lemma blades_alone : forall bl, valid_mesh bl ->
  exists o, blades_object bl = Ok o /\ StronglySorted lt3 (vertices o) /\ (forall v, In v (vertices o) <-> In v (points bl)) /\
    drawn o bl (cells bl) (polygons o) /\ in_region o "blades" 0 (List.length (polygons o)) /\ regions o = ["blades"%string].
Proof.
  intros bl (NB & FB). unfold blades_object. destruct (cells bl) as [|d0 ds0] eqn:EB; [congruence|]. rewrite <- EB in *. clear EB NB.
  destruct (append_cells_ok (points bl) _ "blades"%string (mkObj (unique3 (points bl)) [] [] []) FB) as (q & E & Q).
  rewrite E. cbn [bind vertices polygons regions changes app List.length].
  eexists. split; [reflexivity|]. split; [apply unique3_sorted|]. split; [intros v; apply unique3_in|].
  split; [apply (linked_drawn _ (points bl)); auto|]. split; [|reflexivity]. intros j _. reflexivity.
Qed.
Lemma drawn_length : forall o m cs l, drawn o m cs l -> List.length l = List.length cs.
Proof. intros o m cs l D. symmetry. apply (f2_length _ _ _ D). Qed.
(** A file determines each drawn triangle. *)
Lemma corners_unique : forall o q c c', obj_corners o q c -> obj_corners o q c' -> c = c'.
Proof.
  intros o [[i j] k] [[a b] d] [[a' b'] d'] ((_ & A) & (_ & B) & (_ & D)) ((_ & A') & (_ & B') & (_ & D')). congruence.
Qed.
Lemma bad_index : forall sh bl kw, cells sh <> [] -> cells bl <> [] ->
  Exists (fun t => ~ in_range (List.length (points bl)) t) (cells bl) ->
  merge_meshes sh bl "blades_and_stem" kw = Err IndexError.
Proof.
  intros sh bl kw N1 N2 X. unfold merge_meshes. destruct (cells sh) as [|c0 cs0]; [congruence|]. destruct (cells bl) as [|d ds] eqn:EB; [congruence|].
  rewrite <- EB in *. clear N1 N2. change (String.eqb "blades_and_stem" "blades_and_stem") with true. cbv iota zeta.
  set (all := points sh ++ points bl).
  assert (LA : List.length (inverse3 all) = List.length (points sh) + List.length (points bl)).
  { unfold inverse3. rewrite map_length. unfold all. apply app_length. }
  assert (K : mapM (renumber (inverse3 all)) (map (shift (List.length (points sh))) (cells bl)) = Err IndexError).
  { assert (I : forall i, item (inverse3 all) i = Err IndexError \/ exists k, item (inverse3 all) i = Ok k) by
      (intros i; unfold item; destruct (nth_error _ i); eauto).
    assert (J : forall t, renumber (inverse3 all) t = Err IndexError \/ exists q, renumber (inverse3 all) t = Ok q).
    { intros [[i j] k]. unfold renumber. destruct (I i) as [->|(a & ->)]; [auto|]. cbn [bind]. destruct (I j) as [->|(b & ->)]; [auto|]. cbn [bind].
      destruct (I k) as [->|(c & ->)]; [auto|]. cbn. eauto. }
    assert (B : forall t, ~ in_range (List.length (points bl)) t -> renumber (inverse3 all) (shift (List.length (points sh)) t) = Err IndexError).
    { intros t NR. destruct (J (shift (List.length (points sh)) t)) as [E|(q & E)]; [exact E|]. exfalso. apply NR. destruct t as [[i j] k].
      unfold renumber, shift in E. apply bind_ok in E. destruct E as (a & A & E). apply bind_ok in E. destruct E as (b & B & E).
      apply bind_ok in E. destruct E as (c & C & _).
      assert (Q : forall m x, item (inverse3 all) (m + List.length (points sh)) = Ok x -> m < List.length (points bl)).
      { intros m x H. unfold item in H. destruct (nth_error _ _) eqn:H'; [|discriminate].
        assert (m + List.length (points sh) < List.length (inverse3 all)) by (apply nth_error_Some; congruence). lia. }
      cbn. split; [eauto|split; eauto]. }
    clear LA EB. induction X as [t ts NR|t ts X IH]; cbn [map mapM].
    - rewrite (B t NR). reflexivity.
    - destruct (J (shift (List.length (points sh)) t)) as [->|(q & ->)]; [reflexivity|]. cbn [bind]. rewrite IH. reflexivity. }
  unfold append_cells at 1. rewrite K. reflexivity.
Qed.

Lemma named_region : forall kw key default nm, NoDup (map fst kw) -> region_name kw key default nm -> named key default kw = nm.
Proof.
  induction kw as [|[k v] kw IH]; intros key default nm ND R; cbn [named].
  - destruct R as [[]|(-> & _)]. reflexivity.
  - inversion ND as [|? ? N1 N2]; subst. destruct (String.eqb_spec k key) as [->|NE].
    + destruct R as [[E|HI]|(_ & H)]; [congruence| |destruct (H v); left; reflexivity].
      destruct N1. apply (in_map fst) in HI. exact HI.
    + apply IH; auto. destruct R as [[E|HI]|(E & H)]; [congruence|left; auto|right; split; auto]. intros w Hw. apply (H w). right. auto.
Qed.

Lemma merge_stem_named : forall sh bl kw nb ns, valid_mesh sh -> valid_mesh bl -> NoDup (map fst kw) ->
  region_name kw "blades_name" "blades" nb -> region_name kw "shaft_name" "shaft" ns ->
  exists o pb ps, merge_meshes sh bl "blades_and_stem" kw = Ok o /\ polygons o = pb ++ ps /\
    StronglySorted lt3 (vertices o) /\ (forall v, In v (vertices o) <-> In v (points sh ++ points bl)) /\
    drawn o bl (cells bl) pb /\ drawn o sh (cells sh) ps /\
    in_region o nb 0 (List.length pb) /\ in_region o ns (List.length pb) (List.length (polygons o)).
Proof.
  intros sh bl kw nb ns V1 V2 ND R1 R2. apply named_region in R1; auto. apply named_region in R2; auto. subst. apply merge_stem; auto.
Qed.

Lemma merge_coords_named : forall sh bl kw nh nt nb, valid_mesh sh -> valid_mesh bl -> NoDup (map fst kw) ->
  region_name kw "shafthead_name" "shaftHead" nh -> region_name kw "shafttail_name" "shaftTail" nt -> region_name kw "blades_name" "blades" nb ->
  exists o ph pt pb ch ct lo hi beyond below, merge_meshes sh bl "by_coords" kw = Ok o /\ polygons o = ph ++ pt ++ pb /\
    StronglySorted lt3 (vertices o) /\ (forall v, In v (vertices o) <-> In v (points sh ++ points bl)) /\
    extent bl lo hi /\ number_of (fun x => (hi < x)%R) (points sh) beyond /\ number_of (fun x => (x < hi)%R) (points sh) below /\
    (let head := all_corners sh (fun x => (below <= beyond -> (x <= hi)%R) /\ (beyond < below -> (lo <= x)%R)) in
     picked head (cells sh) ch /\ picked (fun t => ~ head t) (cells sh) ct) /\ Permutation (ch ++ ct) (cells sh) /\
    drawn o sh ch ph /\ drawn o sh ct pt /\ drawn o bl (cells bl) pb /\
    in_region o nh 0 (List.length ph) /\
    in_region o nt (List.length ph) (List.length ph + List.length pt) /\
    in_region o nb (List.length ph + List.length pt) (List.length (polygons o)).
Proof.
  intros sh bl kw nh nt nb V1 V2 ND R1 R2 R3. apply named_region in R1; auto. apply named_region in R2; auto. apply named_region in R3; auto.
  subst. apply merge_coords; auto.
Qed.
