(** C99, C100: the camber curve of ReversePropeller and the points on the plane. *)
From Coq Require Import Reals List Permutation.
From Verif Require Import Base ProfileModel ProfileSpec BladeModel BladeSpec ReverseModel ReverseSpec ReverseProofs7 ChordSpec CamberModel CamberSpec
  CamberProofs CamberProofs2 CamberProofs3.
Import ListNotations.
Open Scope R_scope.

(** The edges of a section. *)
Theorem C99_edges : forall w c k, camber_of w c = Ok k <->
  exists le te, start_der c <> (0, 0, 0) /\ end_der c <> (0, 0, 0) /\ c_first c <> c_last c /\ c_length c <> 0 /\
    found_at_start w c le /\ found_at_end w c te /\ le <> start_of c /\ te <> end_of c /\
    first_segment k = backward c /\ last_segment k = forward c /\
    c_at c (kept_from k) = start_of c /\ c_at c (kept_to k) = end_of c /\
    kept_from k - c_first c = 5 / 1000 * (c_last c - c_first c) /\ c_last c - kept_to k = 15 / 1000 * (c_last c - c_first c) /\
    ((axial te <= axial le /\ leading k = le /\ trailing k = te /\ first_edge k = (te, end_of c) /\ last_edge k = (le, start_of c)) \/
     (axial le < axial te /\ leading k = te /\ trailing k = le /\ first_edge k = (le, start_of c) /\ last_edge k = (te, end_of c))).
Proof. exact camber_found. Qed.
Print Assumptions C99_edges.
Theorem C99_order : forall w c k, camber_of w c = Ok k -> axial (trailing k) <= axial (leading k).
Proof. exact camber_order. Qed.
Print Assumptions C99_order.
(** Trailing edge, one end of the kept part, the other end, leading edge. *)
Theorem C99_path : forall w c k, camber_of w c = Ok k ->
  exists x y, first_edge k = (trailing k, x) /\ last_edge k = (leading k, y) /\
  ((x = c_at c (kept_from k) /\ y = c_at c (kept_to k)) \/ (x = c_at c (kept_to k) /\ y = c_at c (kept_from k))).
Proof. exact camber_path. Qed.
Print Assumptions C99_path.
Theorem C99_prolongations : forall w c k, camber_of w c = Ok k ->
  fst (first_segment k) = c_at c (kept_from k) /\ fst (last_segment k) = c_at c (kept_to k) /\
  dist3 (fst (first_segment k)) (snd (first_segment k)) = Rabs (c_length c) / 40 /\
  dist3 (fst (last_segment k)) (snd (last_segment k)) = Rabs (c_length c) / 40.
Proof. exact camber_prolongations. Qed.
Print Assumptions C99_prolongations.
Theorem C99_on_the_section : forall W w c k, on_wire W w -> camber_of w c = Ok k -> W (leading k) /\ W (trailing k).
Proof. exact camber_on_wire. Qed.
Print Assumptions C99_on_the_section.
Example C99_example : exists k, camber_of ends straight = Ok k /\ leading k = (100, 0, 50) /\ trailing k = (4 / 10, 0, 50) /\
  first_edge k = ((4 / 10, 0, 50), (1 / 2, 0, 50)) /\ last_edge k = ((100, 0, 50), (98 + 5 / 10, 0, 50)).
Proof. exact ends_camber. Qed.

(** Only the vertices near the start of the curve have an influence ... *)
Theorem C99_vertices : forall len at_ near vs vs' c,
  (forall v, last_close (start_of c) (c_length c / 400) vs v <-> last_close (start_of c) (c_length c / 400) vs' v) ->
  camber_of (mkWire len at_ vs near) c = camber_of (mkWire len at_ vs' near) c.
Proof. exact camber_vertices. Qed.
Print Assumptions C99_vertices.
(** ... so that a vertex at the end of the curve is not taken, although nearer. *)
Theorem C99_vertex_at_the_end_refuted : exists w c k v, camber_of w c = Ok k /\ In v (w_vertices w) /\ dist3 v (end_of c) < c_length c / 400 /\
  leading k <> v /\ trailing k <> v /\ dist3 v (end_of c) < dist3 (leading k) (end_of c) /\ dist3 v (end_of c) < dist3 (trailing k) (end_of c).
Proof. exact trailing_vertex. Qed.
Print Assumptions C99_vertex_at_the_end_refuted.
Theorem C99_nothing_found : forall w c, camber_of w c = Err AttributeError <->
  start_der c <> (0, 0, 0) /\ end_der c <> (0, 0, 0) /\ c_first c <> c_last c /\ c_length c <> 0 /\
  ((forall v, ~ found_at_start w c v) \/ (forall v, ~ found_at_end w c v)).
Proof. exact camber_attribute_iff. Qed.
Print Assumptions C99_nothing_found.
Theorem C99_errors : forall w c, is_ok (camber_of w c) \/ camber_of w c = Err RuntimeError \/ camber_of w c = Err AttributeError.
Proof. exact camber_errors. Qed.
Print Assumptions C99_errors.
Example C99_error_example : camber_of (mkWire 1 (fun _ => (0, 0, 0)) [] (fun _ => [])) straight = Err AttributeError.
Proof. exact no_solution_example. Qed.

(** Points taken on the section: 1/n of the length apart, the end left out ... *)
Theorem C100_section_points : forall n w i, (i < n)%nat -> 0 < w_length w ->
  List.length (open_sample n w) = n /\ nth_error (open_sample n w) i = Some (w_at w (INR i * (w_length w / INR n))) /\
  0 <= INR i * (w_length w / INR n) < w_length w.
Proof. intros n w i H L. exact (conj (open_length n w) (conj (open_nth n w i H) (open_short n w i H L))). Qed.
Print Assumptions C100_section_points.
(** ... or 1/(n-1) apart, from the first point to the last. *)
Theorem C100_airfoil_points : forall n len at_ l, (2 <= n)%nat -> closed_sample n len at_ = Ok l ->
  List.length l = n /\ (forall i, (i < n)%nat -> nth_error l i = Some (at_ (INR i * (len / INR (n - 1))))) /\
  nth_error l 0 = Some (at_ 0) /\ nth_error l (n - 1) = Some (at_ len).
Proof. intros n len at_ l N H. exact (conj (proj1 (closed_ok _ _ _ _ H)) (conj (proj2 (closed_ok _ _ _ _ H)) (closed_ends _ _ _ _ N H))). Qed.
Print Assumptions C100_airfoil_points.
Example C100_sample_example : exists l, closed_sample 1000 (w_length ends) (w_at ends) = Ok l.
Proof. exact (closed_total 1000 _ _ (proj1 (PeanoNat.Nat.leb_le 2 1000) eq_refl)). Qed.
(** Plane and cylinder. *)
Theorem C100_wind_unroll : forall r p, 0 < r -> on_cylinder r p ->
  wind r (unroll_positive r p) = Ok p /\ 0 <= snd (unroll_positive r p) < 2 * PI * r.
Proof. intros r p H C. exact (conj (wind_unroll r p H C) (unroll_range r p H)). Qed.
Print Assumptions C100_wind_unroll.
Theorem C100_unroll_wind : forall r a p, 0 < r -> wind r a = Ok p -> (unroll_positive r p = a <-> 0 <= snd a < 2 * PI * r).
Proof. exact unroll_wind_iff. Qed.
Print Assumptions C100_unroll_wind.
Theorem C100_distances : forall r p q, 0 < r -> on_cylinder r p -> on_cylinder r q ->
  dist3 p q <= pdist (unroll_positive r p) (unroll_positive r q).
Proof. exact unroll_distance. Qed.
Print Assumptions C100_distances.
(** The plane is cut open at the half plane y = 0, z > 0. *)
Theorem C100_torn : forall r eps, 0 < r -> 0 < eps -> exists p q, on_cylinder r p /\ on_cylinder r q /\ dist3 p q < eps /\
  PI * r <= pdist (unroll_positive r p) (unroll_positive r q).
Proof. exact torn. Qed.
Print Assumptions C100_torn.
(** A section from its wire. *)
Theorem C100_section : forall cubic wires voronoi spline join n radius s,
  section_of_wire cubic wires voronoi spline join n radius = Ok s ->
  exists w c k len at_ T sample air cam cand, wires radius = Ok w /\
  open_sample 1200 w = sample /\ closed_sample 1000 (w_length w) (w_at w) = Ok air /\
  camber_candidates voronoi radius sample = Ok cand /\ spline (map (wrap radius) cand) = Ok c /\ camber_of w c = Ok k /\
  join c k = Ok (len, at_) /\ closed_sample 500 len at_ = Ok cam /\
  let le := unroll_positive radius (leading k) in let te := unroll_positive radius (trailing k) in
  0 < pdist le te /\ mirror_similarity (/ pdist le te) T /\ T le = (0, 0) /\ T te = (1, 0) /\
  s_chord s = pdist le te / 1000 /\ s_airfoil s = map (fun p => T (unroll_positive radius p)) air /\
  (exists m, Permutation (s_camber s) m /\ ordered lex (s_camber s) /\ pinned (map (fun p => T (unroll_positive radius p)) cam) m).
Proof. exact section_wire. Qed.
Print Assumptions C100_section.
Theorem C100_section_exists : forall cubic wires voronoi spline join n radius w vs, total_interpolant cubic -> (2 <= n)%nat -> radius <> 0 ->
  wires radius = Ok w -> voronoi (map (unroll_positive radius) (open_sample 1200 w)) = Ok vs ->
  (forall pts, exists c k full, spline pts = Ok c /\ camber_of w c = Ok k /\ join c k = Ok full /\
     snd (unroll_positive radius (leading k)) <> snd (unroll_positive radius (trailing k))) ->
  exists s, section_of_wire cubic wires voronoi spline join n radius = Ok s.
Proof. exact section_wire_succeeds. Qed.
Print Assumptions C100_section_exists.
Example C100_example : exists s, section_of_wire table (fun _ => Ok tilted) (fun _ => Ok [(1, 2); (30, 40)]) (fun _ => Ok straight)
  (fun _ _ => Ok (120, fun s => (s * 10 / 12, 0, 50))) 3 50 = Ok s.
Proof. exact tilted_section. Qed.
