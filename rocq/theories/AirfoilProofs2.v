(** Proofs about whole profile objects: kept lines, edges and parameters. *)
From Coq Require Import String Reals List ZArith Lra Lia.
From Verif Require Import Base ProfileModel ProfileProofs CustomModel NacaModel AirfoilModel AirfoilSpec AirfoilProofs.
Import ListNotations.
Open Scope R_scope.

Section Run.
Variable am : profile -> R -> list R -> R -> list R -> res (list R).
Variable cu : list R -> list R -> list R -> res (list R).

Lemma stored_twice : forall q q' a, with_stored q (with_stored q' a) = with_stored q a.
Proof. reflexivity. Qed.
Lemma stored_with : forall q a, stored (with_stored q a) = q.
Proof. reflexivity. Qed.
Lemma update_run : forall f {B} (k : unit -> act B) a q, stored a = q -> step (update f) k a = k tt (with_stored (f q) a).
Proof. intros f B k a q <-. reflexivity. Qed.
Lemma evaluate_run : forall {A B} (m : res A) (k : A -> act B) a, step (evaluate m) k a = match m with Ok x => k x a | Err e => (a, Err e) end.
Proof. intros A B [x|e] k a; reflexivity. Qed.

(** Parameters: only edges and parameters change. *)
Lemma params_run : forall cv a p, coords a = Ok p -> exists q e,
  generate_parameters_ am cv a = (with_stored q (with_edges e a), let* _ := generate_parameters am cv p in Ok tt) /\
  (forall q', generate_parameters am cv p = Ok q' -> q = q') /\ (forall e', update_edges p = Ok e' -> e = e').
Proof.
  intros cv a p HC. unfold generate_parameters_, generate_parameters. destruct (edges_run a p HC) as (e & E & K). unfold step at 1. rewrite E.
  assert (W : with_edges e a = with_stored (stored a) (with_edges e a)) by (destruct a; reflexivity).
  destruct (update_edges p) as [[[lx ly] [tx ty]]|x] eqn:U; cbn [bind].
  2:{ rewrite W. do 2 eexists. split; [reflexivity|]. split; discriminate. }
  rewrite (K _ eq_refl) in *. clear K. unfold step at 1, look at 1. rewrite coords_with_edges, HC. unfold step at 1, look at 1. cbn [edges with_edges fst snd].
  rewrite W. set (b := with_edges ((lx, ly), (tx, ty)) a). cbn zeta.
  assert (F : forall (q : params) (m : res unit) x, m = Err x -> exists q' e0, (with_stored q b, @Err unit x) = (with_stored q' (with_edges e0 a), m) /\
     (forall q'0, @Err params x = Ok q'0 -> q' = q'0) /\ (forall e' : pt * pt, Ok ((lx, ly), (tx, ty)) = Ok e' -> e0 = e')).
  { intros q m x ->. exists q, ((lx, ly), (tx, ty)). split; [reflexivity|]. split; [discriminate|congruence]. }
  rewrite (update_run _ _ _ (stored a)) by reflexivity. rewrite evaluate_run, stored_twice.
  destruct (vmin (xup p)) as [mn|x]; cbn [bind]; [|apply F; reflexivity].
  rewrite evaluate_run. destruct (vdiv (map (fun x => x - mn) (xup p)) (norm2 (lx - tx) (ly - ty))) as [cp|x]; cbn [bind]; [|apply F; reflexivity].
  erewrite update_run by apply stored_with. rewrite evaluate_run, stored_twice.
  destruct (vzip (fun a b => (a + b) / 2) (yup p) (ydown p)) as [cam|x]; cbn [bind]; [|apply F; reflexivity].
  rewrite evaluate_run. destruct (vmax cam) as [cm|x]; cbn [bind]; [|apply F; reflexivity].
  erewrite update_run by apply stored_with. rewrite evaluate_run, stored_twice.
  destruct (if Req_EM_T (Rabs cm) 0 then Ok (zeros (List.length (xup p))) else vdiv cam (Rabs cm)) as [camp|x]; cbn [bind]; [|apply F; reflexivity].
  erewrite update_run by apply stored_with. rewrite evaluate_run, stored_twice.
  match goal with |- context [match ?m with Ok _ => _ | Err _ => _ end] => destruct m as [th|x] end; cbn [bind]; [|apply F; reflexivity].
  rewrite evaluate_run. destruct (vmax th) as [tm|x]; cbn [bind]; [|apply F; reflexivity].
  erewrite update_run by apply stored_with. rewrite evaluate_run, stored_twice.
  match goal with |- context [match ?m with Ok _ => _ | Err _ => _ end] => destruct m as [tp|x] end; cbn [bind]; [|apply F; reflexivity].
  unfold update, change. rewrite stored_with, stored_twice. do 2 eexists. split; [reflexivity|]. split; [|congruence].
  intros q' H. injection H as <-. reflexivity.
Qed.

(** An unknown convention replaces the chord and camber parameters but not those
    of the thickness. *)
Lemma params_mixed : forall cv a p q, coords a = Ok p -> cv <> "british"%string -> cv <> "american"%string ->
  generate_parameters am "british" p = Ok q -> camber_max q <> 0 ->
  exists a', perform am cu (GenerateParameters cv) a = (a', Err NameError) /\
    stored a' = mkParams (chord_length q) (chord_percentage q) (camber_max q) (camber_percentage q) (thickness_max (stored a)) (thickness_percentage (stored a)).
Proof.
  intros cv a p q HC NB NA HG NZ. cbn [perform]. unfold quiet, step at 1. unfold generate_parameters_. destruct (edges_run a p HC) as (e & E & K). unfold step at 1. rewrite E.
  unfold generate_parameters in HG. destruct (update_edges p) as [[[lx ly] [tx ty]]|x] eqn:U; cbn [bind] in HG; [|discriminate].
  rewrite (K _ eq_refl) in *. clear K. cbn [bind]. unfold step at 1, look at 1. rewrite coords_with_edges, HC. unfold step at 1, look at 1. cbn [edges with_edges fst snd].
  set (b := with_edges ((lx, ly), (tx, ty)) a). cbn zeta.
  apply bind_ok in HG as (mn & H1 & HG). apply bind_ok in HG as (cp & H2 & HG).
  apply bind_ok in HG as (cam & H3 & HG). apply bind_ok in HG as (cm & H4 & HG).
  apply bind_ok in HG as (camp & H5 & HG). apply bind_ok in HG as (th & H6 & HG). apply bind_ok in HG as (tm & H7 & HG). apply bind_ok in HG as (tp & H8 & HG).
  injection HG as <-. cbn [camber_max] in NZ.
  rewrite (update_run _ _ _ (stored a)) by reflexivity. rewrite evaluate_run, H1, evaluate_run, H2.
  erewrite update_run by apply stored_with. rewrite evaluate_run, stored_twice, H3, evaluate_run, H4.
  erewrite update_run by apply stored_with. rewrite evaluate_run, stored_twice, H5.
  erewrite update_run by apply stored_with. rewrite evaluate_run, stored_twice.
  destruct (String.eqb_spec cv "british"); [contradiction|]. destruct (Req_EM_T (Rabs cm) 0) as [|_]; [contradiction|].
  destruct (String.eqb_spec cv "american"); [contradiction|]. eexists. split; [reflexivity|]. reflexivity.
Qed.

(** Coordinates from parameters change coordinates only. *)
Lemma generate_run : forall cv a, exists a' r, generate_coordinates_ cu cv a = (a', r) /\
  stored a' = stored a /\ sort a' = sort a /\ chord a' = chord a /\ camber a' = camber a /\ edges a' = edges a.
Proof.
  intros cv a. unfold generate_coordinates_.
  assert (Same : forall r : res unit, exists a' r', (a, r) = (a', r') /\ stored a' = stored a /\ sort a' = sort a /\ chord a' = chord a /\ camber a' = camber a /\ edges a' = edges a)
    by (intros; do 2 eexists; split; [reflexivity|]; repeat split).
  destruct (sort a) as [|d cosine n] eqn:S.
  - destruct (String.eqb _ "british").
    + destruct (coordinates_british (stored a)); do 2 eexists; (split; [reflexivity|]); cbn; repeat split; auto.
    + destruct (String.eqb _ "american").
      * unfold step, evaluate, change. cbn beta iota. destruct (orth_camber_coordinates (stored a)) as [o|]; [|do 2 eexists; (split; [reflexivity|]); repeat split; auto].
        destruct (cu (xdown o) (ydown o) _) as [yd|]; [|do 2 eexists; (split; [reflexivity|]); cbn; repeat split; auto].
        destruct (vzip _ (camber_percentage (stored a)) yd); do 2 eexists; (split; [reflexivity|]); cbn; repeat split; auto.
      * do 2 eexists. split; [reflexivity|]. repeat split; auto.
  - destruct cv as [cv|]; [do 2 eexists; (split; [reflexivity|]); repeat split; auto|].
    destruct (naca_coordinates d cosine n); do 2 eexists; (split; [reflexivity|]); cbn; repeat split; auto.
Qed.

(** Plotting changes the edges only. *)
Lemma also_keeps : forall on m r, (forall b, exists e, fst (m b) = b \/ fst (m b) = with_edges e b) ->
  forall a ds x, also on m r = (a, ds, x) -> exists b ds' x', r = (b, ds', x') /\ exists e, a = b \/ a = with_edges e b.
Proof.
  intros on m [[b ds] x] H a ds' x' E. exists b, ds, x. split; auto. destruct (H b) as (e & He). exists e. revert E. cbn [also].
  destruct x; [|intros E; injection E as <- _ _; auto]. destruct on; [|intros E; injection E as <- _ _; auto].
  destruct (m b) as [b' [d|y]]; cbn in He; intros E; injection E as <- _ _; auto.
Qed.

Lemma reference_keeps : forall b, exists e, fst ((do r <- reference_point_; give (Dot r)) b) = b \/ fst ((do r <- reference_point_; give (Dot r)) b) = with_edges e b.
Proof.
  intros b. destruct (coords b) as [p|x] eqn:C.
  - destruct (reference_run b p C) as (e & E & _). exists e. right. unfold step, give. rewrite E. destruct (reference_point p); reflexivity.
  - exists ((0, 0), (0, 0)). left. unfold step, give, reference_point_, step. rewrite (edges_unmodelled _ _ C). reflexivity.
Qed.

Lemma edges_twice : forall e e' a, with_edges e (with_edges e' a) = with_edges e a.
Proof. reflexivity. Qed.

Lemma plot_keeps : forall o a a' ds r, plot o a = (a', ds, r) -> exists e, a' = a \/ a' = with_edges e a.
Proof.
  intros o a a' ds r H. unfold plot in H. destruct (a_xup a) as [xu|], (a_yup a) as [yu|], (a_xdown a) as [xd|], (a_ydown a) as [yd|];
    try (injection H as <- _ _; exists ((0, 0), (0, 0)); auto).
  match type of H with context [match ?m with _ => _ end] => destruct m as [[a5 ds5] r5] eqn:E5 end.
  assert (N : forall (r : res drawing) (b : airfoil), exists e, fst (evaluate r b) = b \/ fst (evaluate r b) = with_edges e b)
    by (intros; exists ((0, 0), (0, 0)); left; reflexivity).
  assert (L : forall (f : airfoil -> res drawing) (b : airfoil), exists e, fst (look f b) = b \/ fst (look f b) = with_edges e b)
    by (intros; exists ((0, 0), (0, 0)); left; reflexivity).
  apply also_keeps in E5 as (b4 & d4 & x4 & E4 & e4 & H4); [|apply reference_keeps].
  apply also_keeps in E4 as (b3 & d3 & x3 & E3 & e3 & H3); [|apply L]. apply also_keeps in E3 as (b2 & d2 & x2 & E2 & e2 & H2); [|apply L].
  apply also_keeps in E2 as (b1 & d1 & x1 & E1 & e1 & H1); [|apply N]. apply also_keeps in E1 as (b0 & d0 & x0 & E0 & e0 & H0); [|apply N].
  injection E0 as <- <- <-.
  assert (G : exists e, a5 = a \/ a5 = with_edges e a).
  { destruct H0 as [->| ->], H1 as [->| ->], H2 as [->| ->], H3 as [->| ->], H4 as [->| ->]; rewrite ?edges_twice;
      first [exists ((0, 0), (0, 0)); left; reflexivity | eexists; right; reflexivity]. }
  destruct r5; injection H as <- _ _; exact G.
Qed.

(** ** Who changes what *)
Ltac fin := repeat split; auto; try contradiction.
Lemma who_changes : forall c a a' r, perform am cu c a = (a', r) ->
  sort a' = sort a /\
  (stored a' = stored a \/ sets_parameters c) /\
  (chord a' = chord a \/ (exists l, c = AssignChordLine l) \/
   exists n p l, chord_with c n /\ coords a = Ok p /\ compute_chord_line n p = Ok l /\ chord a' = Is l) /\
  (moves c -> chord a' = chord a /\ camber a' = camber a /\ stored a' = stored a).
Proof.
  intros c a a' r H.
  assert (Idle : a' = a -> sort a' = sort a /\ (stored a' = stored a \/ sets_parameters c) /\
    (chord a' = chord a \/ (exists l, c = AssignChordLine l) \/
     exists n p l, chord_with c n /\ coords a = Ok p /\ compute_chord_line n p = Ok l /\ chord a' = Is l) /\
    (moves c -> chord a' = chord a /\ camber a' = camber a /\ stored a' = stored a)) by (intros ->; fin).
  destruct c; cbn [perform] in H.
  16:{ destruct f; injection H as <- _; cbn; fin. }
  16:{ injection H as <- _; cbn; fin. }
  16:{ injection H as <- _; cbn. repeat split; auto; try contradiction. right. left. eauto. }
  16:{ injection H as <- _; cbn. repeat split; auto; try contradiction. }
  15:{ destruct (plot o a) as [[b ds] t] eqn:P. injection H as <- _. destruct (plot_keeps _ _ _ _ _ P) as (e & [->| ->]); cbn; fin. }
  14:{ unfold quiet, step in H. destruct (generate_run convention a) as (b & x & E & S & T & C & K & _). rewrite E in H.
       destruct x; injection H as <- _; rewrite S, T, C; cbn; fin. }
  all: destruct (coords a) as [p|x] eqn:HC.
  all: try (apply Idle; unfold quiet, translate_, reflect_, rotate_, set_thickness_max_, set_camber_line_max_, max_camber_, compute_chord_line_, deform_camber_line_,
              compute_camber_line_, max_thickness_, reference_point_, generate_parameters_, scale_, step, look in H;
            try match type of H with context [if ?b then _ else _] => destruct b end;
            rewrite ?(edges_unmodelled _ _ HC), ?HC in H; cbn in H; injection H as <- _; reflexivity).
  - unfold quiet, translate_, step, look, change in H. rewrite HC in H. injection H as <- _. cbn. fin.
  - unfold quiet, reflect_, step, look, change in H. rewrite HC in H. injection H as <- _. cbn. fin.
  - destruct (scale_run k about a p HC) as (b & E & _ & S & T & C & K & _). unfold quiet, step in H. rewrite E in H.
    destruct (scale k about p); injection H as <- _; rewrite S, T, C, K; fin.
  - apply Idle. unfold quiet, scale_, step in H. destruct about.
    + unfold reference_point_, step in H. rewrite (edges_unmodelled _ _ HC) in H. injection H as <- _. reflexivity.
    + unfold look in H. rewrite HC in H. injection H as <- _. reflexivity.
  - unfold quiet, rotate_, step, look, change, evaluate in H. rewrite HC in H. destruct (rotate rad deg p); injection H as <- _; cbn; fin.
  - unfold quiet, set_thickness_max_, step, look, change, evaluate in H. rewrite HC in H. destruct (set_thickness_max t p); injection H as <- _; cbn; fin.
  - destruct (set_camber_run c a p HC) as (b & E & _ & S & T & C & _). unfold quiet, step in H. rewrite E in H.
    assert (a' = b) as -> by (destruct (set_camber_line_max c p); injection H as <- _; reflexivity).
    rewrite S, T. split; auto. split; auto. split; [|contradiction]. destruct C as [C|(l & C & D)]; auto.
    right. right. exists (Some 500%Z), p, l. split; [constructor|]. auto.
  - destruct (deform_run percent n a p HC) as (b & E & _ & S & T & C & _). unfold quiet, step in H. rewrite E in H.
    destruct (deform_camber_line percent n p); injection H as <- _; rewrite S, T, C; cbn; auto 10; repeat split; auto; contradiction.
  - destruct (chord_run n a p HC) as (e & E & _). unfold quiet, step in H. rewrite E in H.
    destruct (compute_chord_line n p) as [l|] eqn:D; injection H as <- _; cbn; repeat split; auto; try contradiction.
    right. right. exists n, p, l. split; [constructor|]. auto.
  - unfold quiet, step in H. rewrite (camber_run _ _ _ HC) in H. destruct (compute_camber_line n p); injection H as <- _; cbn; repeat split; auto; contradiction.
  - apply Idle. unfold max_thickness_, step, look, evaluate, give in H. rewrite HC in H. destruct (max_thickness n p); injection H as <- _; reflexivity.
  - destruct (max_camber_run n a p HC) as (b & E & _ & S & T & C & _). unfold step in H. rewrite E in H.
    assert (a' = b) as -> by (destruct (max_camber n p); injection H as <- _; reflexivity).
    rewrite S, T. split; auto. split; auto. split; [|contradiction]. destruct C as [C|(l & C & D)]; auto.
    right. right. exists n, p, l. split; [constructor|]. auto.
  - destruct (reference_run a p HC) as (e & E & _). unfold step in H. rewrite E in H.
    destruct (reference_point p); injection H as <- _; cbn; repeat split; auto; contradiction.
  - destruct (params_run convention a p HC) as (q & e & E & _). unfold quiet, step in H. rewrite E in H.
    destruct (generate_parameters am convention p); injection H as <- _; cbn; repeat split; auto; contradiction.
Qed.
End Run.
