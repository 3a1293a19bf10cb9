(** Properties C89 - C91: the grammar of parameter files. *)
From Coq Require Import String List ZArith Ascii Bool Arith Lia.
From Verif Require Import Base TextModel TextSpec TextProofs TextProofs2 TextProofs3 ParamsModel ParamsSpec ParamsProofs3 ErrorProofs.
Import ListNotations.

(** ** C89 *)
Theorem C89_integers : forall s n, parse_int s = Some n <-> integer_text s n.
Proof. exact parse_int_grammar. Qed.
Print Assumptions C89_integers.

Theorem C89_integers_of_a_file : forall F (cd : codec F) q t p, load F cd q t = (p, Ok tt) -> exists c, parse_config t = Ok c /\ forall k,
  (exists s, get c (section_name k) (L "spline degree") = Ok s /\ integer_text s (at_key (degree F p) k)) /\
  (exists s, get c (section_name k) (L "spline npoints") = Ok s /\ integer_text s (at_key (npoints F p) k)) /\
  (exists s, get c (section_name k) (L "number of control points") = Ok s /\ integer_text s (at_key (nbasis F p) k)).
Proof. exact integers_in_file. Qed.
Print Assumptions C89_integers_of_a_file.

Example C89_example : integer_text (L " -1_000 ") (-1000)%Z /\ integer_text (L "+007") 7%Z /\ (forall n, ~ integer_text (L "_1") n) /\
  (forall n, ~ integer_text (L "1__0") n) /\ (forall n, ~ integer_text (L "3.0") n).
Proof. split; [|split; [|split; [|split]]]; try intros n; rewrite <- C89_integers; try intros H; vm_compute in *; try discriminate; reflexivity. Qed.

(** ** C90 *)
Theorem C90_spelling_of_an_option : forall F (cd : codec F) q a l1 l2 b n m v w,
  option_line l1 n v -> option_line l2 m w -> same_name n m -> same_value v w ->
  Forall one_line (a ++ b) -> one_line l1 -> one_line l2 ->
  load F cd q (text_of (a ++ l1 :: b)) = load F cd q (text_of (a ++ l2 :: b)).
Proof. intros F cd. exact (same_option cd). Qed.
Print Assumptions C90_spelling_of_an_option.

Example C90_example : forall q a b, Forall one_line (a ++ b) ->
  load Z int_codec q (text_of (a ++ L "spline degree = 3" :: b)) = load Z int_codec q (text_of (a ++ L "SPLINE Degree:3  " :: b)).
Proof.
  intros q a b H. apply (C90_spelling_of_an_option Z int_codec q a _ _ b (L "spline degree ") (L "SPLINE Degree") (L " 3") (L "3  ")); auto.
  - exists "="%char. split; [reflexivity|]. split; [auto|]. split; [simpl; intuition discriminate|]. split; [simpl; intuition discriminate|].
    eexists _, _. split; [reflexivity|]. split; [apply nonws_blank; reflexivity|]. repeat split; discriminate.
  - exists ":"%char. split; [reflexivity|]. split; [auto|]. split; [simpl; intuition discriminate|]. split; [simpl; intuition discriminate|].
    eexists _, _. split; [reflexivity|]. split; [apply nonws_blank; reflexivity|]. repeat split; discriminate.
  - exists (L "spline degree"), (L "SPLINE Degree"), (L " "), []. split; [reflexivity|]. split; [reflexivity|].
    split; [apply ws_white; repeat constructor|]. split; [constructor|].
    assert (U : forall i, i < 26 -> same_letter (ascii_of_nat (97 + i)) (ascii_of_nat (65 + i))) by (intros i I; right; exists i; auto).
    repeat (apply Forall2_cons; [first [left; reflexivity|apply (U 18); lia|apply (U 15); lia|apply (U 11); lia|apply (U 8); lia|apply (U 13); lia|apply (U 4); lia|apply (U 3); lia]|]).
    constructor.
  - exists (L "3"), (L " "), [], [], (L "  "). split; [reflexivity|]. split; [reflexivity|]. repeat split; apply ws_white; repeat constructor.
  - split; simpl; intuition discriminate.
  - split; simpl; intuition discriminate.
Qed.

(** ** C91 *)
Theorem C91_repeated_section : forall F (cd : codec F) q a h b c, h <> [] -> h <> L "DEFAULT" ->
  Forall one_line (a ++ header_line h :: b ++ header_line h :: c) ->
  load F cd q (text_of (a ++ header_line h :: b ++ header_line h :: c)) = (q, Err ConfigError).
Proof. intros F cd. exact (repeated_section cd). Qed.
Print Assumptions C91_repeated_section.

Theorem C91_repeated_option : forall F (cd : codec F) q a l1 b l2 c n m v w,
  option_line l1 n v -> option_line l2 m w -> same_name n m ->
  Forall (fun l => ~ bracket_line l) b -> Forall one_line (a ++ l1 :: b ++ l2 :: c) ->
  load F cd q (text_of (a ++ l1 :: b ++ l2 :: c)) = (q, Err ConfigError).
Proof. intros F cd. exact (repeated_option cd). Qed.
Print Assumptions C91_repeated_option.

Theorem C91_text_before_the_first_section : forall F (cd : codec F) q a l b,
  Forall (fun l => white l \/ comment_line l) a -> ~ white l -> ~ comment_line l -> ~ bracket_line l ->
  Forall one_line (a ++ l :: b) -> load F cd q (text_of (a ++ l :: b)) = (q, Err ConfigError).
Proof. intros F cd. exact (text_before_header cd). Qed.
Print Assumptions C91_text_before_the_first_section.

Theorem C91_meaningless_line : forall F (cd : codec F) q a l b, junk_line l -> Forall one_line (a ++ l :: b) ->
  load F cd q (text_of (a ++ l :: b)) = (q, Err ConfigError).
Proof. intros F cd. exact (junk cd). Qed.
Print Assumptions C91_meaningless_line.

Theorem C91_option_without_a_name : forall F (cd : codec F) q a d v b, d = "="%char \/ d = ":"%char -> Forall one_line (a ++ (d :: v) :: b) ->
  load F cd q (text_of (a ++ (d :: v) :: b)) = (q, Err ConfigError).
Proof. exact nameless_option. Qed.
Print Assumptions C91_option_without_a_name.

Example C91_example_nameless : forall q, load Z int_codec q (text_of [L "[pitch]"; L "spline degree = 3"; L "= 3"]) = (q, Err ConfigError).
Proof.
  intros q. apply (C91_option_without_a_name Z int_codec q [L "[pitch]"; L "spline degree = 3"] "="%char (L " 3") []); [left; reflexivity|].
  repeat constructor; cbn; intuition discriminate.
Qed.

Example C91_example : junk_line (L "[]") /\ junk_line (L "some text") /\ ~ bracket_line (L "spline degree = 3") /\
  ~ white (L "spline degree = 3") /\ ~ comment_line (L "spline degree = 3") /\ option_line (L "a =b=c") (L "a ") (L "b=c").
Proof.
  split; [|split; [|split; [|split; [|split]]]].
  - split; [|split; simpl; intuition discriminate]. eexists _, _. split; [reflexivity|]. split; [apply nonws_blank; reflexivity|]. split; [discriminate|]. split; [discriminate|]. auto.
  - split; [|split; simpl; intuition discriminate]. eexists _, _. split; [reflexivity|]. split; [apply nonws_blank; reflexivity|]. split; [discriminate|]. split; [discriminate|]. left. discriminate.
  - intros ([|x sp] & t & E & W); [discriminate|]. apply white_ws in W. inversion W; subst. injection E as <- _. discriminate.
  - intros W. apply white_ws in W. inversion W. discriminate.
  - intros [([|x sp] & c & t & E & W & C) _].
    + injection E as <- _. destruct C; discriminate.
    + apply white_ws in W. inversion W; subst. injection E as <- _. discriminate.
  - exists "="%char. split; [reflexivity|]. split; [auto|]. split; [simpl; intuition discriminate|]. split; [simpl; intuition discriminate|].
    eexists _, _. split; [reflexivity|]. split; [apply nonws_blank; reflexivity|]. repeat split; discriminate.
Qed.
