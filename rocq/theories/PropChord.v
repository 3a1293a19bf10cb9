(** Properties C80 - C83: the sections of the reverse propeller. *)
From Coq Require Import Reals List ZArith Lra Lia.
From Verif Require Import Base ProfileModel ProfileSpec BladeModel BladeSpec BladeProofs5 ReverseModel ChordModel ChordSpec ChordProofs ChordProofs2.
Import ListNotations.
Open Scope R_scope.

(** ** C80 *)
Theorem C80_whole_section : forall r xmin xmax blade f, within xmin xmax blade -> Rabs xmin <= xmax - xmin ->
  lateral_face r xmin xmax = Ok f -> forall p, blade p -> (f p <-> on_cylinder r p).
Proof. exact whole_section. Qed.
Print Assumptions C80_whole_section.

Theorem C80_no_cylinder : forall r xmin xmax, r <= 0 \/ xmax <= xmin -> lateral_face r xmin xmax = Err RuntimeError.
Proof. exact lateral_fails. Qed.
Print Assumptions C80_no_cylinder.

Theorem C80_coverage : forall r xmin xmax f, lateral_face r xmin xmax = Ok f ->
  ((forall p, (let '(x, _, _) := p in xmin <= x <= xmax) -> on_cylinder r p -> f p) <-> Rabs xmin <= xmax - xmin).
Proof. exact covers_iff. Qed.
Print Assumptions C80_coverage.

Theorem C80_whole_section_refuted : exists r xmin xmax blade f p, within xmin xmax blade /\ lateral_face r xmin xmax = Ok f /\
  blade p /\ on_cylinder r p /\ ~ f p.
Proof. exact section_lost. Qed.
Print Assumptions C80_whole_section_refuted.

Example C80_example : exists f, lateral_face 2 (-1) 1 = Ok f /\ Rabs (-1) <= 1 - (-1) /\
  within (-1) 1 (fun p => p = (1 / 2, 2, 0)) /\ on_cylinder 2 (1 / 2, 2, 0).
Proof.
  destruct (lateral_ok 2 (-1) 1) as (f & E & _); [lra|lra|]. exists f. split; auto.
  split; [unfold Rabs; destruct (Rcase_abs (-1)); lra|]. split; [|cbn; ring]. intros x y z H. injection H as -> _ _. lra.
Qed.

(** ** C81 *)
Theorem C81_chord_exists : forall r le te, 0 < r -> on_cylinder r le -> on_cylinder r te -> exists g, geodesic_of r le te = Ok g.
Proof. exact geodesic_ok. Qed.
Print Assumptions C81_chord_exists.

Theorem C81_chord_on_cylinder : forall r g s, on_cylinder r (chord_point r g s).
Proof. exact chord_on_cylinder. Qed.
Print Assumptions C81_chord_on_cylinder.

Theorem C81_ends : forall r le te g, 0 < r -> on_cylinder r le -> on_cylinder r te -> geodesic_of r le te = Ok g ->
  (chord_point r g 0 = le <-> 0 <= snd le) /\ (chord_point r g 1 = te <-> 0 <= snd te).
Proof. exact chord_ends_iff. Qed.
Print Assumptions C81_ends.

Theorem C81_straight_when_unrolled : forall r le te g s, 0 < r -> on_cylinder r le -> on_cylinder r te -> geodesic_of r le te = Ok g ->
  0 <= s <= 1 -> unroll r (chord_point r g s) = between (unroll r (front_point le)) (unroll r (front_point te)) s.
Proof. exact chord_unrolled. Qed.
Print Assumptions C81_straight_when_unrolled.

Theorem C81_tangent : forall r g s, let '(dx, dy, dz) := tangent_vector r g s in
  derivable_pt_lim (fun s => fst (fst (chord_point r g s))) s dx /\
  derivable_pt_lim (fun s => snd (fst (chord_point r g s))) s dy /\
  derivable_pt_lim (fun s => snd (chord_point r g s)) s dz.
Proof. exact chord_derivative. Qed.
Print Assumptions C81_tangent.

Theorem C81_constant_speed : forall r g s, dot3 (tangent_vector r g s) (tangent_vector r g s) = g_lam g * g_lam g + (r * g_a g) * (r * g_a g).
Proof. exact tangent_length. Qed.
Print Assumptions C81_constant_speed.

Theorem C81_ends_refuted : exists r le te g, 0 < r /\ on_cylinder r le /\ on_cylinder r te /\ geodesic_of r le te = Ok g /\
  chord_point r g 0 <> le /\ chord_point r g 1 <> te /\ (forall s, 0 <= s <= 1 -> 0 <= snd (chord_point r g s)).
Proof. exact chord_misses. Qed.
Print Assumptions C81_ends_refuted.

(** The cut is a plane curve of the cylinder, not the perpendicular of the
    unrolled chord. *)
Theorem C81_cutting_plane : forall r g s x d, 0 < r ->
  let t := g_a g * s + g_b g in
  on_plane (chord_point r g s) (tangent_vector r g s) (x, r * sin (t + d), r * cos (t + d)) <->
  g_lam g * (x - (g_lam g * s + g_mu g)) + r * g_a g * (r * sin d) = 0.
Proof. exact cutting_plane. Qed.
Print Assumptions C81_cutting_plane.

Theorem C81_cut_not_perpendicular : forall r g s x d, 0 < r -> g_a g <> 0 -> d <> 0 ->
  let t := g_a g * s + g_b g in
  on_plane (chord_point r g s) (tangent_vector r g s) (x, r * sin (t + d), r * cos (t + d)) ->
  g_lam g * (x - (g_lam g * s + g_mu g)) + r * g_a g * (r * d) <> 0.
Proof. exact cut_not_perpendicular. Qed.
Print Assumptions C81_cut_not_perpendicular.

Example C81_example : on_cylinder 5 (0, 3, 4) /\ on_cylinder 5 (1, -3, 4) /\ (exists g, geodesic_of 5 (0, 3, 4) (1, -3, 4) = Ok g) /\
  (forall d, on_plane (chord_point 5 (mkGeodesic 1 0 1 0) 0) (tangent_vector 5 (mkGeodesic 1 0 1 0) 0) (- (25 * sin d), 5 * sin (1 * 0 + 0 + d), 5 * cos (1 * 0 + 0 + d))).
Proof.
  split; [cbn; ring|]. split; [cbn; ring|]. split.
  - apply geodesic_ok; [lra|cbn; ring|cbn; ring].
  - intros d. apply (cutting_plane 5 (mkGeodesic 1 0 1 0) 0); [lra|]. cbn [g_lam g_mu g_a g_b]. ring.
Qed.

(** ** C82 *)
Theorem C82_camber_line : forall tops bottoms middle n r le te l, (2 <= n)%nat -> camber_points tops bottoms middle n r le te = Ok l ->
  List.length l = n /\ first l = Ok le /\ final l = Ok te /\
  ((forall p nv t b m, middle p nv t b = Ok m -> on_cylinder r m) -> on_cylinder r le -> on_cylinder r te -> Forall (on_cylinder r) l).
Proof. exact camber_shape. Qed.
Print Assumptions C82_camber_line.

Theorem C82_stations : forall tops bottoms middle n r le te l g, (2 <= n)%nat ->
  camber_points tops bottoms middle n r le te = Ok l -> geodesic_of r le te = Ok g ->
  forall i, (1 <= i <= n - 2)%nat ->
    let pt_ k := chord_point r g (INR (S k) / INR (n - 1)) in
    let nv k := unit_of (tangent_vector r g (INR (S k) / INR (n - 1))) in
    exists t b m, nth_error l i = Some m /\ middle (pt_ (i - 1)%nat) (nv (i - 1)%nat) t b = Ok m /\
      last_found (fun k => tops (pt_ k) (nv k)) (i - 1) t /\ last_found (fun k => bottoms (pt_ k) (nv k)) (i - 1) b.
Proof. exact camber_station. Qed.
Print Assumptions C82_stations.

Theorem C82_first_cut_empty : forall tops bottoms middle n r le te g, (3 <= n)%nat -> geodesic_of r le te = Ok g -> (g_lam g <> 0 \/ g_a g <> 0) ->
  let p := chord_point r g (1 / INR (n - 1)) in let nv := unit_of (tangent_vector r g (1 / INR (n - 1))) in
  (tops p nv = [] \/ bottoms p nv = []) -> camber_points tops bottoms middle n r le te = Err NameError.
Proof. exact camber_first_miss. Qed.
Print Assumptions C82_first_cut_empty.

Theorem C82_coinciding_edges : forall tops bottoms middle n r le te g, (3 <= n)%nat -> geodesic_of r le te = Ok g -> g_lam g = 0 -> g_a g = 0 ->
  camber_points tops bottoms middle n r le te = Err RuntimeError.
Proof. exact camber_degenerate. Qed.
Print Assumptions C82_coinciding_edges.

(** It exists as soon as the first cut meets both wires. *)
Theorem C82_succeeds : forall tops bottoms middle n r le te g, (3 <= n)%nat -> geodesic_of r le te = Ok g -> (g_lam g <> 0 \/ g_a g <> 0) ->
  (forall p nv t b, exists m, middle p nv t b = Ok m) ->
  let p := chord_point r g (1 / INR (n - 1)) in let nv := unit_of (tangent_vector r g (1 / INR (n - 1))) in
  tops p nv <> [] -> bottoms p nv <> [] -> exists l, camber_points tops bottoms middle n r le te = Ok l.
Proof. exact camber_total. Qed.
Print Assumptions C82_succeeds.

(** A cut which meets no wire silently uses the vertices of an earlier one. *)
Theorem C82_own_cut_refuted : exists tops middle n r le te g l i m,
  camber_points tops tops middle n r le te = Ok l /\ geodesic_of r le te = Ok g /\ (1 <= i <= n - 2)%nat /\
  nth_error l i = Some m /\ forall nv, tops (chord_point r g (INR i / INR (n - 1))) nv = [].
Proof.
  destruct stale_vertex as (l & E & N & T).
  exists two_cuts, keep_top, 4%nat, 1, (0, 0, 1), (1, 0, 1), (mkGeodesic 1 0 0 0), l, 2%nat, (7, 0, 1).
  split; auto. split.
  - unfold geodesic_of, fdiv. destruct (Req_EM_T 1 0); [lra|]. cbn [bind]. replace (0 / 1) with 0 by field. rewrite arcsin_ok by lra. cbn [bind].
    rewrite asin_0. do 2 f_equal; ring.
  - split; [lia|]. split; auto. intros nv. replace (INR 2 / INR (4 - 1)) with (2 / 3) by (simpl; field). exact T.
Qed.
Print Assumptions C82_own_cut_refuted.

Example C82_example : (exists l, camber_points two_cuts two_cuts keep_top 4 1 (0, 0, 1) (1, 0, 1) = Ok l) /\ n_camber_points = 500%nat /\
  geodesic_of 1 (0, 0, 1) (0, 0, 1) = Ok (mkGeodesic (0 - 0) 0 (asin (0 / 1) - asin (0 / 1)) (asin (0 / 1))).
Proof.
  split; [destruct stale_vertex as (l & E & _); eauto|]. split; [reflexivity|].
  unfold geodesic_of, fdiv. destruct (Req_EM_T 1 0); [lra|]. cbn [bind]. rewrite arcsin_ok by lra. reflexivity.
Qed.

(** ** C83 *)
Theorem C83_edges : forall (E : Type) (l top bottom : list E), split_edges 0 l = (top, bottom) ->
  l = alternate top bottom /\ (List.length bottom <= List.length top <= S (List.length bottom))%nat.
Proof. exact @edges_split. Qed.
Print Assumptions C83_edges.

Example C83_example : split_edges 0 [1%nat; 2%nat; 3%nat; 4%nat; 5%nat] = ([1%nat; 3%nat; 5%nat], [2%nat; 4%nat]).
Proof. reflexivity. Qed.
