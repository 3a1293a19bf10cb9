(** Proofs about the text forms and about what is displayed. *)
From Coq Require Import Reals ZArith Ascii String Bool Lra Lia.
From Coq Require Import List.
From Verif Require Import Base TextModel TextProofs ParamsModel BladeModel BladeSpec BladeProofs BladeProofs6 PrintModel PrintSpec SolidModel.
Import ListNotations.

Lemma no_nl_app : forall a b, no_nl a -> no_nl b -> no_nl (a ++ b).
Proof. intros a b A B I. apply in_app_or in I. destruct I; auto. Qed.
Lemma no_nl_lit : forall s, forallb (fun a => negb (if ascii_dec a nl then true else false)) (L s) = true -> no_nl (L s).
Proof.
  intros s H I. rewrite forallb_forall in H. specialize (H _ I). destruct (ascii_dec nl nl); [discriminate | contradiction].
Qed.
Lemma no_nl_int : forall z, no_nl (show_int z).
Proof. intros z. apply word_no_nl, show_int_word. Qed.
Lemma no_nl_key : forall k, no_nl (key_name k).
Proof. intros []; apply no_nl_lit; reflexivity. Qed.

Section Lines.
Variables (F : Type) (show : list F -> str).
Hypothesis one_line : forall l, no_nl (show l).
Lemma one_line_opt : forall v, no_nl (show_optional F show v).
Proof. intros [l|]; [apply one_line | apply no_nl_lit; reflexivity]. Qed.

(** The rest of a text: what follows the first line. *)
Inductive follows : str -> list str -> Prop :=
| f_end : follows [] []
| f_line : forall w s ls, no_nl w -> follows s ls -> follows (nl :: w ++ s) (w :: ls).
Lemma f_last : forall w, no_nl w -> follows (nl :: w) [w].
Proof. intros w W. rewrite <- (app_nil_r w) at 1. apply f_line; [exact W | constructor]. Qed.
Lemma follows_split : forall w s ls, no_nl w -> follows s ls -> split_nl (w ++ s) = w :: ls.
Proof.
  intros w s ls W H. revert w W. induction H as [|v s ls V H IH]; intros w W.
  - rewrite app_nil_r. apply split_nl_one. exact W.
  - rewrite split_nl_app by exact W. f_equal. apply IH. exact V.
Qed.
Lemma follows_key : forall p k s ls, follows s ls -> follows (show_key F show p k ++ s) (key_lines show p k ++ ls).
Proof.
  intros p k s ls H. unfold show_key, key_lines.
  repeat first [rewrite <- app_comm_cons | rewrite <- app_assoc].
  apply (f_line [] _ _); [intros []|].
  assert (A : forall a b c t : str, a ++ b ++ c ++ t = (a ++ b ++ c) ++ t) by (intros; rewrite <- !app_assoc; reflexivity).
  cbn [app]. rewrite A. apply f_line; [repeat apply no_nl_app; [apply no_nl_key | apply no_nl_lit; reflexivity | apply one_line_opt]|].
  rewrite A. apply f_line; [repeat apply no_nl_app; [apply no_nl_key | apply no_nl_lit; reflexivity | apply no_nl_int]|].
  rewrite A. apply f_line; [repeat apply no_nl_app; [apply no_nl_key | apply no_nl_lit; reflexivity | apply no_nl_int]|].
  rewrite A. apply f_line; [repeat apply no_nl_app; [apply no_nl_key | apply no_nl_lit; reflexivity | apply no_nl_int]|].
  rewrite A. apply f_line; [repeat apply no_nl_app; [apply no_nl_key | apply no_nl_lit; reflexivity | apply one_line]|].
  exact H.
Qed.
Lemma params_text_lines : forall p, split_nl (params_text F show p) = params_lines show p.
Proof.
  intros p. unfold params_text, params_lines. rewrite app_assoc. apply follows_split.
  - apply no_nl_app; [apply no_nl_lit; reflexivity | apply one_line_opt].
  - generalize keys. intros l. induction l as [|k l IH]; [constructor|]. cbn [map List.concat flat_map]. apply follows_key. exact IH.
Qed.

Lemma show_int_inj : forall a b, show_int a = show_int b -> a = b.
Proof. intros a b H. apply (f_equal parse_int) in H. rewrite !parse_show_int in H. injection H. auto. Qed.
Lemma key_lines_inj : forall p q k, key_lines show p k = key_lines show q k ->
  show_optional F show (at_key (parameters _ p) k) = show_optional F show (at_key (parameters _ q) k) /\
  at_key (degree _ p) k = at_key (degree _ q) k /\ at_key (npoints _ p) k = at_key (npoints _ q) k /\
  at_key (nbasis _ p) k = at_key (nbasis _ q) k /\ show (at_key (deformations _ p) k) = show (at_key (deformations _ q) k).
Proof.
  intros p q k H. unfold key_lines in H.
  assert (T : forall (a b c d e f a' b' c' d' e' f' : str), [a; b; c; d; e; f] = [a'; b'; c'; d'; e'; f'] -> b = b' /\ c = c' /\ d = d' /\ e = e' /\ f = f')
    by (intros; repeat split; congruence).
  apply T in H. destruct H as (A & B & C & D & E).
  repeat match goal with X : key_name _ ++ _ = key_name _ ++ _ |- _ => apply app_inv_head, app_inv_head in X end.
  split; [exact A|]. split; [apply show_int_inj; exact B|]. split; [apply show_int_inj; exact C|]. split; [apply show_int_inj; exact D | exact E].
Qed.
Lemma app_inj_length : forall (A : Type) (a b c d : list A), List.length a = List.length c -> a ++ b = c ++ d -> a = c /\ b = d.
Proof.
  intros A a. induction a as [|x a IH]; intros b [|y c] d L H; try discriminate; [auto|]. cbn in *. injection H as -> H. injection L as L.
  destruct (IH _ _ _ L H) as [-> ->]. auto.
Qed.
Lemma same_text : forall p q, params_text F show p = params_text F show q <->
  show_optional F show (ParamsModel.radii _ p) = show_optional F show (ParamsModel.radii _ q) /\
  forall k, show_optional F show (at_key (parameters _ p) k) = show_optional F show (at_key (parameters _ q) k) /\
    at_key (degree _ p) k = at_key (degree _ q) k /\ at_key (npoints _ p) k = at_key (npoints _ q) k /\
    at_key (nbasis _ p) k = at_key (nbasis _ q) k /\ show (at_key (deformations _ p) k) = show (at_key (deformations _ q) k).
Proof.
  intros p q. split.
  - intros H. apply (f_equal split_nl) in H. rewrite !params_text_lines in H. unfold params_lines in H.
    set (g := key_lines show p) in *. set (h := key_lines show q) in *.
    assert (H0 := f_equal (@hd str []) H). assert (H1 := f_equal (@tl str) H). cbn [hd tl] in H0, H1. apply app_inv_head in H0.
    split; [exact H0|]. cbn [keys flat_map] in H1.
    assert (LG : forall k, List.length (g k) = List.length (h k)) by reflexivity.
    apply app_inj_length in H1; [|apply LG]. destruct H1 as [C H1]. apply app_inj_length in H1; [|apply LG]. destruct H1 as [P H1].
    apply app_inj_length in H1; [|apply LG]. destruct H1 as [R H1]. apply app_inj_length in H1; [|apply LG]. destruct H1 as [S H1].
    apply app_inj_length in H1; [|apply LG]. destruct H1 as [M _].
    intros k. apply key_lines_inj. destruct k; assumption.
  - intros [R K]. unfold params_text. rewrite R. f_equal. f_equal. f_equal. apply map_ext. intros k. destruct (K k) as (A & B & C & D & E).
    unfold show_key. rewrite A, B, C, D, E. reflexivity.
Qed.
End Lines.

Section BladeText.
Variable show : list R -> str.
Lemma blade_text_ok : forall b, consistent b -> Forall (fun r => r <> 0%R) (BladeModel.radii b) ->
  exists s, blade_text show b = Ok s.
Proof.
  intros b C N. unfold blade_text. destruct (pitch_angles_ok b C N) as (a & EA & _). destruct (induced_rake_ok b C N) as (i & EI & _).
  rewrite EA. cbn [bind]. rewrite EI. cbn [bind]. eexists. reflexivity.
Qed.
Lemma blade_text_lines : forall b s, (forall l, no_nl (show l)) -> blade_text show b = Ok s ->
  exists a i, pitch_angles b = Ok a /\ induced_rake b = Ok i /\
  split_nl s = [ L "Blade number of sections = " ++ show_int (Z.of_nat (List.length (sections b)));
    L "Blade radii sections = " ++ show (BladeModel.radii b);
    L "Chord lengths of the sectional profiles = " ++ show (chords b);
    L "Radial distribution of the pitch (in unit lengths) = " ++ show (pitch b);
    L "Radial distribution of the rake (in unit length) = " ++ show (rake b);
    L "Radial distribution of the skew angles (in degrees) = " ++ show (skew b);
    L "Pitch angles (in radians) for the sections = " ++ show a;
    L "Induced rake from skew (in unit length) for the sections = " ++ show i ].
Proof.
  intros b s O H. unfold blade_text in H. destruct (pitch_angles b) as [a|]; [|discriminate]. cbn [bind] in H.
  destruct (induced_rake b) as [i|]; [|discriminate]. cbn [bind] in H.
  apply (f_equal (fun r => match r with Ok v => v | Err _ => [] end)) in H. cbv beta iota in H. subst s.
  exists a, i. split; [reflexivity|]. split; [reflexivity|].
  assert (A : forall a b c : str, a ++ b ++ c = (a ++ b) ++ c) by (intros; apply app_assoc).
  rewrite A. apply follows_split; [apply no_nl_app; [apply no_nl_lit; reflexivity | apply no_nl_int]|].
  do 6 (rewrite (A _ (show _)); apply f_line; [apply no_nl_app; [apply no_nl_lit; reflexivity | apply O]|]).
  apply f_last, no_nl_app; [apply no_nl_lit; reflexivity | apply O].
Qed.
End BladeText.

Lemma display_all : forall e b fs r, display_blade e b = (fs, r) ->
  (r = Ok tt <-> exists u l t o, upper_face b = Some u /\ lower_face b = Some l /\ root_face b = Some o /\ tip_face b = Some t /\ fs = [u; l; o; t]) /\
  (r = Ok tt \/ r = Err e) /\
  (exists rest, [upper_face b; lower_face b; root_face b; tip_face b] = map Some fs ++ rest /\ (r = Err e -> hd_error rest = Some None)).
Proof.
  intros e b fs r H. unfold display_blade in H.
  destruct (upper_face b) as [u|]; [destruct (lower_face b) as [l|]; [destruct (root_face b) as [o|]; [destruct (tip_face b) as [t|]|]|]|]; cbn in H; injection H as <- <-.
  - split; [split; [intros _; exists u, l, t, o; auto 10 | reflexivity]|]. split; [auto|]. exists []. split; [reflexivity | discriminate].
  - split; [split; [discriminate | intros (? & ? & ? & ? & _ & _ & _ & X & _); discriminate]|]. split; [auto|]. eexists. split; [reflexivity | reflexivity].
  - split; [split; [discriminate | intros (? & ? & ? & ? & _ & _ & X & _); discriminate]|]. split; [auto|]. eexists. split; [reflexivity | reflexivity].
  - split; [split; [discriminate | intros (? & ? & ? & ? & _ & X & _); discriminate]|]. split; [auto|]. eexists. split; [reflexivity | reflexivity].
  - split; [split; [discriminate | intros (? & ? & ? & ? & X & _); discriminate]|]. split; [auto|]. eexists. split; [reflexivity | reflexivity].
Qed.

(** ** Solids *)
(** The faces of a file. *)
Lemma explore_one_face : forall roots s l, roots = s :: l -> kind_of s = Face -> explore Face (one_shape roots) = flat_map (explore Face) roots.
Proof. intros roots s [|t l] -> K; [cbn [one_shape flat_map]; rewrite app_nil_r; reflexivity | reflexivity]. Qed.
Lemma explore_idem : forall f s, In f (explore Face s) -> explore Face f = [f].
Proof.
  fix IH 2. intros f [k n l] H. cbn [explore] in H. destruct (Nat.eqb (number k) (number Face)) eqn:E.
  - destruct H as [<-|[]]. cbn [explore]. rewrite E. reflexivity.
  - revert H. induction l as [|a l IHl]; cbn [flat_map]; intros H; [destruct H|]. apply in_app_or in H. destruct H as [H|H]; [exact (IH f a H) | exact (IHl H)].
Qed.
Lemma flat_idem : forall l s, incl l (explore Face s) -> flat_map (explore Face) l = l.
Proof.
  induction l as [|a l IH]; intros s H; [reflexivity|]. cbn [flat_map]. rewrite (explore_idem a s) by (apply H; left; reflexivity).
  cbn. f_equal. apply (IH s). intros x X. apply H. right. exact X.
Qed.
Lemma number_inj : forall a b, number a = number b -> a = b.
Proof. intros [] []; cbn; intros H; try reflexivity; discriminate. Qed.
Lemma added_faces : forall sew mk s l x, extract_solid sew mk (s :: l) = Ok x ->
  flat_map (explore Face) (added x) = if Nat.eqb (number (kind_of s)) 4 then flat_map (explore Face) (s :: l) else explore Face s.
Proof.
  intros sew mk s l x H. unfold extract_solid in H. destruct (Nat.eqb (number (kind_of s)) 4) eqn:E.
  - assert (A : added x = explore Face (one_shape (s :: l))).
    { destruct (kind_of (sew (explore Face (one_shape (s :: l))))); cbn [bind] in H; try discriminate; injection H as <-; reflexivity. }
    rewrite A, (flat_idem _ (one_shape (s :: l))) by apply incl_refl. apply (explore_one_face _ s l eq_refl).
    apply number_inj. apply Nat.eqb_eq. exact E.
  - assert (A : added x = [s]).
    { destruct (kind_of (sew [s])); cbn [bind] in H; try discriminate; injection H as <-; reflexivity. }
    rewrite A. cbn [flat_map]. apply app_nil_r.
Qed.
(** All faces of the file are sewn: the first root is a face or the others have none. *)
Lemma all_sewn : forall sew mk s l x, extract_solid sew mk (s :: l) = Ok x ->
  (flat_map (explore Face) (added x) = flat_map (explore Face) (s :: l) <->
   kind_of s = Face \/ forall t, In t l -> explore Face t = []).
Proof.
  intros sew mk s l x H. rewrite (added_faces _ _ _ _ _ H). destruct (Nat.eqb (number (kind_of s)) 4) eqn:E.
  - split; [|reflexivity]. intros _. left. apply number_inj. apply Nat.eqb_eq. exact E.
  - cbn [flat_map]. split.
    + intros X. right. apply (f_equal (@List.length _)) in X. rewrite app_length in X.
      assert (Z : flat_map (explore Face) l = []) by (destruct (flat_map (explore Face) l); [reflexivity | cbn in X; lia]).
      intros t T. destruct (explore Face t) as [|y m] eqn:Y; [reflexivity|]. exfalso.
      assert (I : In y (flat_map (explore Face) l)) by (apply in_flat_map; exists t; split; [exact T | rewrite Y; left; reflexivity]).
      rewrite Z in I. destruct I.
    + intros [K|K]; [rewrite K in E; discriminate|].
      assert (Z : flat_map (explore Face) l = []).
      { clear - K. induction l as [|a l IH]; [reflexivity|]. cbn [flat_map]. rewrite (K a) by (left; reflexivity). apply IH. intros t T. apply K. right. exact T. }
      rewrite Z, app_nil_r. reflexivity.
Qed.
Lemma solid_of : forall sew mk roots x, extract_solid sew mk roots = Ok x ->
  let sewn := sew (added x) in
  ((kind_of sewn = Compound /\ shells x = explore Shell sewn) \/ (kind_of sewn = Shell /\ shells x = [sewn])) /\
  ((exists v, mk (shells x) = Some v /\ solid x = v) \/ (mk (shells x) = None /\ solid x = sewn)).
Proof.
  intros sew mk [|s l] x H; [discriminate|]. unfold extract_solid in H.
  destruct (Nat.eqb (number (kind_of s)) 4);
    [set (m := explore Face (one_shape (s :: l))) in * | set (m := [s]) in *];
    destruct (kind_of (sew m)) eqn:K; cbn [bind] in H; try discriminate; injection H as <-; cbn [added shells solid]; (split; [rewrite K; auto|]).
  all: match goal with |- context [match ?a with Some _ => _ | None => _ end] => destruct a as [v|] end; [left; exists v; auto | right; auto].
Qed.
(** A solid and a face: the order in the file decides which faces are read. *)
Definition box : shape := Shape Solid 1 [Shape Shell 2 [Shape Face 3 []; Shape Face 4 []]].
Definition cap : shape := Shape Face 5 [].
Definition sew_all (l : list shape) : shape := Shape Shell 9 (flat_map (explore Face) l).
Lemma order_matters : exists x y, extract_solid sew_all (fun l => Some (Shape Solid 10 l)) [box; cap] = Ok x /\
  extract_solid sew_all (fun l => Some (Shape Solid 10 l)) [cap; box] = Ok y /\
  flat_map (explore Face) (added x) = [Shape Face 3 []; Shape Face 4 []] /\
  flat_map (explore Face) (added y) = [cap; Shape Face 3 []; Shape Face 4 []].
Proof. eexists. eexists. split; [reflexivity|]. split; [reflexivity|]. split; reflexivity. Qed.
(** Sewing leaves a shell and a loose face: the loose face is not in the solid. *)
Lemma loose_face : exists x f, extract_solid (fun l => Shape Compound 0 [Shape Shell 7 [Shape Face 3 []]; cap]) (fun l => Some (Shape Solid 10 l)) [cap; box] = Ok x /\
  In f (flat_map (explore Face) (added x)) /\ ~ In f (explore Face (solid x)).
Proof. eexists. exists cap. split; [reflexivity|]. split; [left; reflexivity|]. intros [H|[]]. discriminate. Qed.

Lemma text_example : exists s, blade_text (fun l => show_int (Z.of_nat (List.length l))) two_blade = Ok s.
Proof. apply blade_text_ok; [exact (proj1 two_blade_good) | apply two_blade_good]. Qed.
