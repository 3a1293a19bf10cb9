(** Proofs about the grammar of parameter files: integers. *)
From Coq Require Import String List ZArith Ascii Bool Arith Lia.
From Verif Require Import Base TextModel TextSpec TextProofs.
Import ListNotations.
Open Scope nat_scope.

Lemma digit_value_spec : forall a d, digit_value a = Some d <-> digit a /\ d = (Z.of_nat (nat_of_ascii a) - 48)%Z.
Proof.
  intros a d. unfold digit_value, digit. destruct (Nat.leb_spec 48 (nat_of_ascii a)) as [A|A]; destruct (Nat.leb_spec (nat_of_ascii a) 57) as [B|B];
  cbn [andb]; split; intros H; try discriminate; try (destruct H; lia).
  - apply (f_equal (fun o => match o with Some z => z | None => 0%Z end)) in H. cbv beta iota in H. subst d. split; [lia|]. rewrite Nat2Z.inj_sub by lia. reflexivity.
  - destruct H as [H ->]. f_equal. rewrite Nat2Z.inj_sub by lia. reflexivity.
Qed.
Lemma digit_value_none : forall a, digit_value a = None -> ~ digit a.
Proof. intros a H D. assert (E := proj2 (digit_value_spec a _) (conj D eq_refl)). congruence. Qed.
Lemma underscore_no_digit : digit_value "_"%char = None.
Proof. reflexivity. Qed.

Definition dec_from (n : Z) (s : list ascii) : Z := fold_left (fun n a => 10 * n + (Z.of_nat (nat_of_ascii a) - 48))%Z s n.
Lemma digits_run : forall g acc b t, Forall digit g -> g <> [] \/ b = true ->
  parse_digits acc b (g ++ t) = parse_digits (dec_from acc g) true t.
Proof.
  induction g as [|a g IH]; intros acc b t D N; cbn [app]; [destruct N as [N|N]; [congruence|subst; auto]|].
  inversion D; subst. cbn [parse_digits].
  rewrite (proj2 (digit_value_spec a _) (conj H1 eq_refl)). rewrite IH by auto. reflexivity.
Qed.
Lemma dec_app : forall a b n, dec_from n (a ++ b) = dec_from (dec_from n a) b.
Proof. intros. apply fold_left_app. Qed.
Lemma groups_run : forall gs acc, gs <> [] -> Forall (fun g => g <> [] /\ Forall digit g) gs ->
  parse_digits acc false (grouped gs) = Some (dec_from acc (List.concat gs)).
Proof.
  induction gs as [|g gs IH]; intros acc N D; [congruence|]. inversion D as [|? ? [G1 G2] D']; subst.
  destruct gs as [|h gs].
  - cbn [grouped List.concat]. rewrite app_nil_r. rewrite <- (app_nil_r g) at 1. rewrite digits_run by auto. reflexivity.
  - change (grouped (g :: h :: gs)) with (g ++ "_"%char :: grouped (h :: gs)).
    rewrite digits_run by auto. cbn [parse_digits]. rewrite underscore_no_digit. cbn [Ascii.eqb Bool.eqb andb].
    rewrite IH by (auto; discriminate). change (List.concat (g :: h :: gs)) with (g ++ List.concat (h :: gs)). rewrite dec_app. auto.
Qed.
(** What [parse_digits] accepts. *)
Lemma parse_digits_inv : forall s acc b v, parse_digits acc b s = Some v ->
  (b = true /\ s = [] /\ v = acc) \/
  (exists gs, gs <> [] /\ Forall (fun g => g <> [] /\ Forall digit g) gs /\ v = dec_from acc (List.concat gs) /\
     (s = grouped gs \/ b = true /\ s = "_"%char :: grouped gs)).
Proof.
  induction s as [|a s IH]; intros acc b v H; cbn [parse_digits] in H.
  - destruct b; [|discriminate]. injection H as <-. auto.
  - right. destruct (digit_value a) as [d|] eqn:E.
    + apply digit_value_spec in E. destruct E as [D ->]. apply IH in H. destruct H as [(_ & -> & ->)|(gs & N & G & -> & S)].
      * exists [[a]]. split; [discriminate|]. split; [constructor; [split; [discriminate|constructor; auto]|constructor]|]. split; [reflexivity|left; reflexivity].
      * destruct S as [-> |[_ ->]].
        { destruct gs as [|g gs]; [congruence|]. inversion G as [|? ? [G1 G2] G']; subst. exists ((a :: g) :: gs).
          split; [discriminate|]. split; [constructor; auto; split; [discriminate|constructor; auto]|]. split; [reflexivity|].
          left. destruct gs; reflexivity. }
        { exists ([a] :: gs). split; [discriminate|]. split; [constructor; auto; split; [discriminate|constructor; auto]|].
          split; [reflexivity|]. left. destruct gs; [congruence|reflexivity]. }
    + destruct (Ascii.eqb a "_") eqn:U; cbn [andb] in H; [|discriminate]. destruct b; [|discriminate].
      apply Ascii.eqb_eq in U. subst a. apply IH in H. destruct H as [(B & _)|(gs & N & G & -> & S)]; [discriminate|].
      destruct S as [-> |[B _]]; [|discriminate]. exists gs. split; [auto|]. split; [auto|]. split; [reflexivity|]. right. auto.
Qed.

Lemma lstrip_split : forall s, exists l, s = l ++ lstrip s /\ white l.
Proof.
  induction s as [|a s (l & E & W)]; [exists []; split; [reflexivity|constructor]|]. cbn [lstrip]. destruct (is_ws a) eqn:A.
  - exists (a :: l). split; [cbn [app]; congruence|constructor; auto].
  - exists []. split; [reflexivity|constructor].
Qed.
Lemma strip_split : forall s, exists l r, s = l ++ strip s ++ r /\ white l /\ white r.
Proof.
  intros s. destruct (lstrip_split s) as (l & E & W). destruct (lstrip_split (rev (lstrip s))) as (r & E2 & W2).
  exists l, (rev r). split; [|split; auto].
  - unfold strip, rstrip. rewrite <- (rev_involutive (lstrip s)) in E. rewrite E2 in E. rewrite rev_app_distr in E. rewrite E at 1. auto.
  - apply Forall_rev. auto.
Qed.
Lemma strip_between : forall l t r, white l -> white r -> t <> [] ->
  (exists a u, t = a :: u /\ is_ws a = false) -> (exists a u, t = u ++ [a] /\ is_ws a = false) -> strip (l ++ t ++ r) = t.
Proof.
  intros l t r W1 W2 _ (a & u & -> & A) (b & v & E & B). unfold strip. rewrite lstrip_ws by auto. cbn [app lstrip]. rewrite A.
  change (a :: u ++ r) with ((a :: u) ++ r). rewrite rstrip_ws by auto. rewrite E. unfold rstrip. rewrite rev_app_distr. cbn [rev app lstrip]. rewrite B.
  change (b :: rev v) with (rev [b] ++ rev v). rewrite <- rev_app_distr, rev_involutive. auto.
Qed.
Lemma digit_nonws : forall a, digit a -> is_ws a = false.
Proof. intros a D. apply digit_not_ws. rewrite (proj2 (digit_value_spec a _) (conj D eq_refl)). discriminate. Qed.
Lemma grouped_ends : forall gs, gs <> [] -> Forall (fun g => g <> [] /\ Forall digit g) gs ->
  (exists a u, grouped gs = a :: u /\ digit a) /\ (exists a u, grouped gs = u ++ [a] /\ digit a).
Proof.
  induction gs as [|g gs IH]; intros N D; [congruence|]. inversion D as [|? ? [G1 G2] D']; subst. split.
  - destruct g as [|a g]; [congruence|]. inversion G2; subst. destruct gs; [exists a, g|exists a, (g ++ "_"%char :: grouped (l :: gs))]; auto.
  - destruct gs as [|h gs].
    + destruct (exists_last G1) as (u & a & E). exists a, u. split; auto. apply Forall_app in G2 || rewrite E in G2.
      apply Forall_app in G2. destruct G2 as [_ G2]. inversion G2; auto.
    + destruct IH as [_ (a & u & E & A)]; auto; [discriminate|]. exists a, (g ++ "_"%char :: u). split; auto.
      change (grouped (g :: h :: gs)) with (g ++ "_"%char :: grouped (h :: gs)). rewrite E. rewrite <- app_assoc. auto.
Qed.

Lemma parse_int_grammar : forall s n, parse_int s = Some n <-> integer_text s n.
Proof.
  intros s n. split.
  - intros H. destruct (strip_split s) as (l & r & E & W1 & W2). unfold parse_int in H.
    assert (P : forall t v, parse_digits 0 false t = Some v -> exists gs, gs <> [] /\ Forall (fun g => g <> [] /\ Forall digit g) gs /\ 
        v = decimal (List.concat gs) /\ t = grouped gs).
    { intros t v Q. apply parse_digits_inv in Q. destruct Q as [(B & _)|(gs & N & G & V & S)]; [discriminate|].
      exists gs. destruct S as [S|[B _]]; [|discriminate]. auto. }
    assert (Q : (exists t, strip s = "-"%char :: t /\ exists v, parse_digits 0 false t = Some v /\ n = (- v)%Z) \/
      (exists t, strip s = "+"%char :: t /\ parse_digits 0 false t = Some n) \/ parse_digits 0 false (strip s) = Some n).
    { destruct (strip s) as [|a t]; [right; right; auto|]. destruct (ascii_dec a "-"%char) as [->|A].
      - left. exists t. split; auto. destruct (parse_digits 0 false t); [|discriminate]. injection H as <-. eauto.
      - right. destruct (ascii_dec a "+"%char) as [->|B]; [left; eauto|]. right.
        destruct a as [[] [] [] [] [] [] [] []]; try congruence; exact H. }
    destruct Q as [(t & T & v & V & ->)|[(t & T & V)|V]]; apply P in V; destruct V as (gs & N & G & V & S).
    + exists l, ["-"%char], gs, r. rewrite T, S in E. split; [exact E|]. repeat split; auto. right. split; congruence.
    + exists l, ["+"%char], gs, r. rewrite T, S in E. split; [exact E|]. repeat split; auto.
    + exists l, [], gs, r. rewrite S in E. split; [exact E|]. repeat split; auto.
  - intros (l & sign & gs & r & -> & W1 & W2 & N & G & C).
    destruct (grouped_ends gs N G) as [(a & u & E1 & A) (b & v & E2 & B)].
    assert (SG : sign = [] \/ sign = ["+"%char] \/ sign = ["-"%char]) by tauto.
    assert (ST : strip (l ++ sign ++ grouped gs ++ r) = sign ++ grouped gs).
    { rewrite (app_assoc sign). apply strip_between; auto.
      - rewrite E1. destruct sign; discriminate.
      - destruct SG as [->|[->| ->]]; cbn [app]; [exists a, u; split; auto; apply digit_nonws; auto| |]; eauto.
      - rewrite E2. exists b, (sign ++ v). rewrite app_assoc. split; auto. apply digit_nonws; auto. }
    unfold parse_int. rewrite ST. pose proof (groups_run gs 0 N G) as R.
    destruct C as [[[->| ->] ->]|[-> ->]]; cbn [app].
    + rewrite E1 in R |- *. assert (NS : a <> "-"%char /\ a <> "+"%char) by (split; intros ->; destruct A as [A _]; vm_compute in A; lia).
      destruct NS. destruct a as [[] [] [] [] [] [] [] []]; try congruence; exact R.
    + exact R.
    + rewrite R. reflexivity.
Qed.
