(** Properties C92 - C94: the American thickness convention. *)
From Coq Require Import Reals List ZArith String Lra Lia.
From Verif Require Import Base ProfileModel ProfileSpec CustomModel CustomSpec AmericanModel AmericanSpec AmericanProofs.
Import ListNotations.
Open Scope R_scope.

(** ** C92 *)
Theorem C92_american_thickness : forall curve newton f p q, finds_roots newton -> graph_of curve (xdown p) (ydown p) f -> uniform p ->
  generate_parameters (thickness_american curve newton) "american" p = Ok q -> camber_max q <> 0 ->
  exists xs, List.length xs = List.length (xup p) /\
    (forall j, (j < List.length (xup p))%nat -> lower_abscissa q p f j (nth j xs 0)) /\
    forall i, (i < List.length (xup p))%nat ->
      (station_used q p xs i < List.length (xup p))%nat /\
      thickness_max q * nth i (thickness_percentage q) 0 =
      2 * pdist (nth (station_used q p xs i) xs 0, f (nth (station_used q p xs i) xs 0)) (camber_point q (station_used q p xs i)).
Proof. exact american_thickness. Qed.
Print Assumptions C92_american_thickness.

Example C92_example : finds_roots (checked [25 / 16; 2]) /\ graph_of flat (xdown vault) (ydown vault) (fun _ => 0) /\ uniform vault /\
  exists q, generate_parameters (thickness_american flat (checked [25 / 16; 2])) "american" vault = Ok q /\
    camber_max q = 3 / 4 /\ thickness_max q = 15 / 8.
Proof.
  split; [exact (checked_roots _)|]. split; [intros ts; reflexivity|]. split; [repeat split|]. exact vault_parameters.
Qed.

(** ** C93 *)
Theorem C93_shift_invariance_refuted : exists p v f, forall curve newton,
  graph_of curve (xdown p) (ydown p) f ->
  graph_of curve (xdown (translate v p)) (ydown (translate v p)) (fun x => f (x - fst v) + snd v) ->
  (forall F, newton F [] = Ok []) ->
  exists q q', generate_parameters (thickness_american curve newton) "american" p = Ok q /\
    generate_parameters (thickness_american curve newton) "american" (translate v p) = Ok q' /\
    thickness_max q * nth 0 (thickness_percentage q) 0 = 0 /\ thickness_max q' * nth 0 (thickness_percentage q') 0 = 1 / 2.
Proof. exact shift_matters. Qed.
Print Assumptions C93_shift_invariance_refuted.

Example C93_example : exists curve (newton : (list R -> res (list R)) -> list R -> res (list R)), forall d, graph_of curve (xdown (lens d)) (ydown (lens d)) (fun x => (x - d - 1) * (x - d - 1)) /\
  (forall F, newton F [] = Ok []).
Proof.
  exists (fun x _ ts => Ok (map (fun t => (t - hd 0 x - 1) * (t - hd 0 x - 1)) ts)), (fun (_ : list R -> res (list R)) x => Ok x).
  intros d. split; [intros ts; reflexivity|reflexivity].
Qed.

(** ** C94 *)
Theorem C94_lower_points_on_the_curve_refuted : exists q o curve f p i, normalised q /\ orth_camber_coordinates q = Ok o /\
  graph_of curve (xdown o) (ydown o) f /\ (forall j, (j < List.length (xdown o))%nat -> snd (down_at o j) = f (fst (down_at o j))) /\
  coordinates_american curve q = Ok p /\ (i < List.length (xdown p))%nat /\ snd (down_at p i) <> f (fst (down_at p i)).
Proof. exact arch_off_curve. Qed.
Print Assumptions C94_lower_points_on_the_curve_refuted.

Theorem C94_american_round_trip_refuted : exists q, normalised q /\ forall curve american convention p q',
  coordinates_american curve q = Ok p -> generate_parameters american convention p = Ok q' -> chord_percentage q' <> chord_percentage q.
Proof. exact arch_moves. Qed.
Print Assumptions C94_american_round_trip_refuted.
