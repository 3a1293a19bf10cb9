(** Properties C42 - C52: the blade. *)
From Coq Require Import String Reals List ZArith Lra Lia.
From Verif Require Import Base ProfileModel ProfileSpec ProfileProofs ProfileProofs4 BladeModel BladeSpec
  BladeProofs BladeProofs2 BladeProofs3 BladeProofs4 BladeProofs5 BladeProofs6 BladeProofs7 BladeProofs8 ErrorProofs.
Import ListNotations.
Open Scope R_scope.

(** ** C42 *)
Theorem C42_construction : forall ss rs cs ps ks sk th ca,
  let same := List.length rs = List.length ss /\ List.length cs = List.length ss /\
     List.length ps = List.length ss /\ List.length ks = List.length ss /\ List.length sk = List.length ss in
  (same -> exists b, new_blade ss rs cs ps ks sk th ca = Ok b /\
     sections b = ss /\ radii b = rs /\ chords b = cs /\ pitch b = ps /\ rake b = ks /\ skew b = sk /\
     thickness b = th /\ camber b = ca /\ coordinates b = NoCoords /\
     upper_face b = None /\ lower_face b = None /\ tip_face b = None /\ root_face b = None) /\
  (~ same -> new_blade ss rs cs ps ks sk th ca = Err ValueError).
Proof. exact new_blade_ok. Qed.
Print Assumptions C42_construction.

Example C42_example : (exists b, new_blade [0%nat; 1%nat] [1; 2] [1; 1] [1; 1] [0; 0] [0; 0] None None = Ok b) /\
  new_blade [0%nat; 1%nat] [1; 2] [1; 1] [1] [0; 0] [0; 0] None None = Err ValueError.
Proof. split; [eexists|]; reflexivity. Qed.

(** ** C43 *)
Theorem C43_pitch_angles : forall b, consistent b -> Forall (fun r => r <> 0) (radii b) ->
  exists l, pitch_angles b = Ok l /\ List.length l = List.length (sections b) /\
    forall i s r c P k sk, station b i s r c P k sk ->
      exists a, nth_error l i = Some a /\ - (PI / 2) < a < PI / 2 /\ tan a = P / (2 * PI * r).
Proof. exact pitch_angles_ok. Qed.
Print Assumptions C43_pitch_angles.

Theorem C43_induced_rake : forall b, consistent b -> Forall (fun r => r <> 0) (radii b) ->
  exists l, induced_rake b = Ok l /\ List.length l = List.length (sections b) /\
    forall i s r c P k sk, station b i s r c P k sk ->
      nth_error l i = Some (sk * (PI / 180) * (P / (2 * PI))).
Proof. exact induced_rake_ok. Qed.
Print Assumptions C43_induced_rake.

Example C43_example : consistent two_blade /\ Forall (fun r => r <> 0) (radii two_blade) /\
  station two_blade 1 1 2 (1 / 4) 4 (1 / 5) 10.
Proof. destruct two_blade_good as (A & _ & _ & B & _ & _ & _ & C). auto. Qed.

(** ** C44 *)
Theorem C44_points_on_cylinder : forall refl st b st' b' up down, consistent b ->
  apply_transformations refl st b = (st', b', Ok tt) -> coordinates b' = Built up down ->
  forall i s r c P k sk x y z, station b i s r c P k sk ->
   (exists l, (nth_error up (List.length (sections b) - 1 - i) = Some l \/
               nth_error down (List.length (sections b) - 1 - i) = Some l) /\ In (x, y, z) l) ->
   y * y + z * z = r * r /\ In x (xup (st' s) ++ xdown (st' s)).
Proof. exact apply_on_cylinder. Qed.
Print Assumptions C44_points_on_cylinder.

(** Winding is an isometry of the plane onto the cylinder: arc length. *)
Theorem C44_winding_arc_length : forall r x1 y1 x2 y2, r <> 0 -> let d := (y2 - y1) / r in
  wrap r (x2, y2) = (x2, cos d * snd (fst (wrap r (x1, y1))) + sin d * snd (wrap r (x1, y1)),
                         cos d * snd (wrap r (x1, y1)) - sin d * snd (fst (wrap r (x1, y1)))) /\
  Rabs r * Rabs d = Rabs (y2 - y1).
Proof. exact wrap_turn. Qed.
Print Assumptions C44_winding_arc_length.

Theorem C44_winding_preserves_speed : forall r (x y : R -> R) t dx dy, r <> 0 ->
  derivable_pt_lim x t dx -> derivable_pt_lim y t dy ->
  exists vx vy vz, derivable_pt_lim (fun s => fst (fst (wrap r (x s, y s)))) t vx /\
    derivable_pt_lim (fun s => snd (fst (wrap r (x s, y s)))) t vy /\
    derivable_pt_lim (fun s => snd (wrap r (x s, y s))) t vz /\
    norm3 (vx, vy, vz) = pnorm (dx, dy).
Proof. exact wrap_speed. Qed.
Print Assumptions C44_winding_preserves_speed.

(** Straight-line distances can only shrink. *)
Theorem C44_winding_chord_length : forall r x1 y1 x2 y2, r <> 0 ->
  dist3 (wrap r (x1, y1)) (wrap r (x2, y2)) =
  sqrt ((x1 - x2) * (x1 - x2) + (2 * r * sin ((y1 - y2) / (2 * r))) * (2 * r * sin ((y1 - y2) / (2 * r)))).
Proof. exact wrap_dist. Qed.
Print Assumptions C44_winding_chord_length.

Theorem C44_winding_contracts : forall r a b, r <> 0 -> dist3 (wrap r a) (wrap r b) <= pdist a b.
Proof. exact wrap_dist_le. Qed.
Print Assumptions C44_winding_contracts.

Example C44_example : exists st' b' up down, apply_transformations true foil_store two_blade = (st', b', Ok tt) /\
  coordinates b' = Built up down.
Proof.
  destruct (two_blade_applied true) as (st' & b' & H). destruct two_blade_good as (C & _).
  destruct (apply_sections _ _ _ _ _ C H) as (_ & _ & up & down & E & _). exists st', b', up, down. auto.
Qed.

(** ** C45 *)
Theorem C45_section_placement : forall refl st b st' b', consistent b -> NoDup (sections b) ->
  Forall (fun r => r <> 0) (radii b) -> thickness b = None -> camber b = None ->
  (forall s, In s (sections b) -> uniform (st s)) ->
  apply_transformations refl st b = (st', b', Ok tt) ->
  (forall i s r c P k sk, station b i s r c P k sk ->
     exists ref, reference_point (st s) = Ok ref /\
       moved (fun a => seat r P k sk refl (sized c ref a)) (st s) (st' s)) /\
  (forall s, ~ In s (sections b) -> st' s = st s).
Proof. exact apply_places. Qed.
Print Assumptions C45_section_placement.

Theorem C45_placement_succeeds : forall refl st b m, consistent b -> sections b <> [] -> NoDup (sections b) ->
  Forall (fun r => r <> 0) (radii b) -> thickness b = None -> camber b = None ->
  (forall s, In s (sections b) -> uniform (st s) /\ List.length (xup (st s)) = m /\
     exists ref, reference_point (st s) = Ok ref) ->
  exists st' b', apply_transformations refl st b = (st', b', Ok tt).
Proof. exact apply_succeeds. Qed.
Print Assumptions C45_placement_succeeds.

(** Closed unit profiles: direction of the chord, position of the mid-chord in
    the plane and in space. *)
Theorem C45_chord_and_mid_chord : forall refl st b st' b', consistent b -> NoDup (sections b) ->
  Forall (fun r => r <> 0) (radii b) -> thickness b = None -> camber b = None ->
  (forall s, In s (sections b) -> uniform (st s)) ->
  apply_transformations refl st b = (st', b', Ok tt) ->
  forall i s r c P k sk le te, station b i s r c P k sk ->
    first (upper (st s)) = Ok le -> first (lower (st s)) = Ok le ->
    final (upper (st s)) = Ok te -> final (lower (st s)) = Ok te -> psub te le = (1, 0) ->
    exists le' te', first (upper (st' s)) = Ok le' /\ first (lower (st' s)) = Ok le' /\
      final (upper (st' s)) = Ok te' /\ final (lower (st' s)) = Ok te' /\
      psub te' le' = pscale (if refl then - c else c)
         (sin (atan (P / (2 * PI * r))), cos (atan (P / (2 * PI * r)))) /\
      pscale (1 / 2) (padd le' te') =
         (- (k + sk * (PI / 180) * P / (2 * PI)), - (r * (sk * (PI / 180)))) /\
      wrap r (pscale (1 / 2) (padd le' te')) =
         (- (k + sk * (PI / 180) * P / (2 * PI)), - (r * sin (sk * (PI / 180))), r * cos (sk * (PI / 180))).
Proof. exact placed_edges. Qed.
Print Assumptions C45_chord_and_mid_chord.

(** With fewer lower than upper points in its sections the placement stops with
    an IndexError at the first section; the blade and the other sections have
    not changed by then.  Whatever the numbers, more lower points do no harm here. *)
Theorem C45_fewer_lower_points : forall (n m : nat) b (refl : bool) st, (m < n)%nat -> consistent b -> sections b <> [] ->
  Forall (fun r => r <> 0) (radii b) -> thickness b = None -> camber b = None ->
  (forall s, In s (sections b) -> counted n m (st s) /\ exists ref, reference_point (st s) = Ok ref) ->
  exists st', apply_transformations refl st b = (st', b, Err IndexError) /\ forall s, nth_error (sections b) 0 <> Some s -> st' s = st s.
Proof. exact transform_short. Qed.
Print Assumptions C45_fewer_lower_points.

Theorem C45_more_lower_points : forall (n m : nat) b (refl : bool) st, (n <= m)%nat -> consistent b -> sections b <> [] -> NoDup (sections b) ->
  Forall (fun r => r <> 0) (radii b) -> thickness b = None -> camber b = None ->
  (forall s, In s (sections b) -> counted n m (st s) /\ exists ref, reference_point (st s) = Ok ref) ->
  exists st' up down, apply_transformations refl st b = (st', set_coords (Built up down) b, Ok tt) /\
    List.length up = List.length (sections b) /\ List.length down = List.length (sections b) /\
    Forall (fun l => List.length l = n) up /\ Forall (fun l => List.length l = m) down.
Proof. exact apply_counted. Qed.
Print Assumptions C45_more_lower_points.

Example C45_example : consistent two_blade /\ sections two_blade <> [] /\ NoDup (sections two_blade) /\
  Forall (fun r => r <> 0) (radii two_blade) /\ thickness two_blade = None /\ camber two_blade = None /\
  (forall s, In s (sections two_blade) -> uniform (foil_store s) /\ List.length (xup (foil_store s)) = 3%nat /\
     closed (foil_store s)) /\
  first (upper foil3) = Ok (0, 0) /\ final (upper foil3) = Ok (1, 0) /\ psub (1, 0) (0, 0) = (1, 0).
Proof.
  destruct two_blade_good as (A & B & C & D & E & F & G & _). repeat (split; [solve [auto]|]).
  unfold psub; cbn. f_equal; lra.
Qed.

(** ** C46 *)
Theorem C46_shape_preserved : forall refl st b st' b', consistent b -> NoDup (sections b) ->
  Forall (fun r => r <> 0) (radii b) -> thickness b = None -> camber b = None ->
  (forall s, In s (sections b) -> uniform (st s)) ->
  apply_transformations refl st b = (st', b', Ok tt) ->
  forall i s r c P k sk, station b i s r c P k sk ->
    List.length (points (st' s)) = List.length (points (st s)) /\
    forall m n a a' d d', nth_error (points (st s)) m = Some a -> nth_error (points (st s)) n = Some d ->
      nth_error (points (st' s)) m = Some a' -> nth_error (points (st' s)) n = Some d' ->
      pdist a' d' = Rabs c * pdist a d.
Proof. exact apply_shape. Qed.
Print Assumptions C46_shape_preserved.

(** reflect=True gives the point reflection of the section in its mid-chord. *)
Theorem C46_reflect_option : forall st b st1 b1 st2 b2, consistent b -> NoDup (sections b) ->
  Forall (fun r => r <> 0) (radii b) -> thickness b = None -> camber b = None ->
  (forall s, In s (sections b) -> uniform (st s)) ->
  apply_transformations true st b = (st1, b1, Ok tt) -> apply_transformations false st b = (st2, b2, Ok tt) ->
  forall i s r c P k sk, station b i s r c P k sk ->
    points (st1 s) = map (psub (pscale 2 (- (k + sk * (PI / 180) * P / (2 * PI)), - (r * (sk * (PI / 180)))))) (points (st2 s)).
Proof. exact apply_reflected. Qed.
Print Assumptions C46_reflect_option.

Example C46_example : forall refl, exists st' b', apply_transformations refl foil_store two_blade = (st', b', Ok tt).
Proof. exact two_blade_applied. Qed.

(** ** C47 *)
Theorem C47_sections_from_last_to_first : forall refl st b st' b', consistent b ->
  apply_transformations refl st b = (st', b', Ok tt) ->
  same_parameters b b' /\ same_faces b b' /\
  exists up down, coordinates b' = Built up down /\
    List.length up = List.length (sections b) /\ List.length down = List.length (sections b) /\
    forall i s r c P k sk, station b i s r c P k sk ->
      nth_error up (List.length (sections b) - 1 - i) = Some (map (wrap r) (upper (st' s))) /\
      nth_error down (List.length (sections b) - 1 - i) = Some (map (wrap r) (lower (st' s))).
Proof. exact apply_sections. Qed.
Print Assumptions C47_sections_from_last_to_first.

(** The tip face is spanned by the first section, the root face by the last. *)
Theorem C47_root_and_tip_exchanged : forall surface refl st b st' b', consistent b ->
  build surface refl st b = (st', b', Ok tt) ->
  exists s0 r0 c0 P0 k0 sk0 s1 r1 c1 P1 k1 sk1 ft fr,
    station b 0 s0 r0 c0 P0 k0 sk0 /\ station b (List.length (sections b) - 1) s1 r1 c1 P1 k1 sk1 /\
    tip_face b' = Some ft /\ root_face b' = Some fr /\
    surface [map (fun a => scale3 1000 (wrap r0 a)) (upper (st' s0)); map (fun a => scale3 1000 (wrap r0 a)) (lower (st' s0))] = Ok ft /\
    surface [map (fun a => scale3 1000 (wrap r1 a)) (upper (st' s1)); map (fun a => scale3 1000 (wrap r1 a)) (lower (st' s1))] = Ok fr.
Proof. exact build_root_tip. Qed.
Print Assumptions C47_root_and_tip_exchanged.

Theorem C47_build_succeeds : forall surface refl st b m, (forall g, exists f, surface g = Ok f) ->
  consistent b -> sections b <> [] -> NoDup (sections b) ->
  Forall (fun r => r <> 0) (radii b) -> thickness b = None -> camber b = None ->
  (forall s, In s (sections b) -> uniform (st s) /\ List.length (xup (st s)) = m /\
     exists ref, reference_point (st s) = Ok ref) ->
  exists st' b', build surface refl st b = (st', b', Ok tt).
Proof. exact build_succeeds. Qed.
Print Assumptions C47_build_succeeds.

(** The faces of root and tip need as many lower as upper points: with more of
    them [build] raises a ValueError when the upper and lower faces are already there. *)
Theorem C47_more_lower_points : forall surface (n m : nat) b (refl : bool) st, (forall g, exists f, surface g = Ok f) -> (n < m)%nat ->
  consistent b -> sections b <> [] -> NoDup (sections b) ->
  Forall (fun r => r <> 0) (radii b) -> thickness b = None -> camber b = None ->
  (forall s, In s (sections b) -> counted n m (st s) /\ exists ref, reference_point (st s) = Ok ref) ->
  exists st' up down b', build surface refl st b = (st', b', Err ValueError) /\ coordinates b' = Built up down /\
    (exists u, surface (grid_map (scale3 1000) up) = Ok u /\ upper_face b' = Some u) /\
    (exists l, surface (grid_map (scale3 1000) down) = Ok l /\ lower_face b' = Some l) /\
    tip_face b' = tip_face b /\ root_face b' = root_face b.
Proof. exact build_counted. Qed.
Print Assumptions C47_more_lower_points.

Example C47_example_unequal : consistent odd_blade /\ Forall (fun r => r <> 0) (radii odd_blade) /\
  (forall s, In s (sections odd_blade) -> counted 2 3 odd_foil /\ exists ref, reference_point odd_foil = Ok ref) /\
  forall refl, exists st' b', build point_surface refl (fun _ => odd_foil) odd_blade = (st', b', Err ValueError) /\ tip_face b' = None.
Proof.
  assert (C : consistent odd_blade) by (unfold consistent; cbn; auto 10).
  assert (F : Forall (fun r => r <> 0) (radii odd_blade)) by (repeat constructor; cbn; lra).
  assert (U : forall s, In s (sections odd_blade) -> counted 2 3 odd_foil /\ exists ref, reference_point odd_foil = Ok ref)
    by (intros s _; split; [unfold counted; cbn; auto|exists (1 / 2, 0); exact odd_reference]).
  split; [exact C|]. split; [exact F|]. split; [exact U|]. intros refl.
  destruct (build_counted point_surface 2 3 odd_blade refl (fun _ => odd_foil)) as (st' & up & down & b' & A & _ & _ & _ & B & _);
    [intros g; eexists; reflexivity|lia|exact C|discriminate|repeat constructor; auto|exact F|reflexivity|reflexivity|exact U|].
  exists st', b'. split; [exact A|exact B].
Qed.

Example C47_example : forall refl, exists st' b', build point_surface refl foil_store two_blade = (st', b', Ok tt).
Proof. exact two_blade_built. Qed.

(** ** C48 *)
Theorem C48_sections_are_consumed : forall refl st b st' b', consistent b ->
  Forall (fun r => r <> 0) (radii b) -> thickness b = None -> camber b = None ->
  (forall s, In s (sections b) -> uniform (st s)) ->
  apply_transformations refl st b = (st', b', Ok tt) ->
  forall s, visits b refl s (seq 0 (List.length (sections b))) (st s) (st' s).
Proof. exact apply_visits. Qed.
Print Assumptions C48_sections_are_consumed.

Theorem C48_shared_section : forall refl st b st' b' s, consistent b -> sections b = [s; s] ->
  Forall (fun r => r <> 0) (radii b) -> thickness b = None -> camber b = None -> uniform (st s) ->
  apply_transformations refl st b = (st', b', Ok tt) ->
  exists r0 c0 P0 k0 sk0 r1 c1 P1 k1 sk1 ref0 ref1 q,
    station b 0 s r0 c0 P0 k0 sk0 /\ station b 1 s r1 c1 P1 k1 sk1 /\
    reference_point (st s) = Ok ref0 /\ moved (fun a => seat r0 P0 k0 sk0 refl (sized c0 ref0 a)) (st s) q /\
    reference_point q = Ok ref1 /\ moved (fun a => seat r1 P1 k1 sk1 refl (sized c1 ref1 a)) q (st' s) /\
    coordinates b' = Built [map (wrap r1) (upper (st' s)); map (wrap r0) (upper (st' s))]
                           [map (wrap r1) (lower (st' s)); map (wrap r0) (lower (st' s))].
Proof. exact apply_shared. Qed.
Print Assumptions C48_shared_section.

(** A second call never leaves a section as the first one did. *)
Theorem C48_second_call_differs : forall refl refl' st b st1 b1 st2 b2, consistent b -> NoDup (sections b) ->
  Forall (fun r => r <> 0) (radii b) -> thickness b = None -> camber b = None ->
  (forall s, In s (sections b) -> uniform (st s)) ->
  apply_transformations refl st b = (st1, b1, Ok tt) ->
  apply_transformations refl' st1 b1 = (st2, b2, Ok tt) ->
  forall i s r c P k sk a d, station b i s r c P k sk -> c <> 0 ->
    In a (points (st s)) -> In d (points (st s)) -> a <> d -> st2 s <> st1 s.
Proof. exact apply_twice_differs. Qed.
Print Assumptions C48_second_call_differs.

Theorem C48_second_call_of_closed_sections : forall refl refl' st b st1 b1 m, consistent b -> sections b <> [] ->
  NoDup (sections b) -> Forall (fun r => r <> 0) (radii b) -> thickness b = None -> camber b = None ->
  (forall s, In s (sections b) -> uniform (st s) /\ List.length (xup (st s)) = m /\ closed (st s)) ->
  apply_transformations refl st b = (st1, b1, Ok tt) ->
  exists st2 b2, apply_transformations refl' st1 b1 = (st2, b2, Ok tt).
Proof. exact apply_again. Qed.
Print Assumptions C48_second_call_of_closed_sections.

Example C48_example : exists st1 b1 st2 b2, apply_transformations true foil_store two_blade = (st1, b1, Ok tt) /\
  apply_transformations true st1 b1 = (st2, b2, Ok tt) /\ st2 1%nat <> st1 1%nat.
Proof.
  destruct two_blade_good as (C & NE & ND & F & T & K & U & S).
  destruct (two_blade_applied true) as (st1 & b1 & H1).
  destruct (apply_again true true foil_store two_blade st1 b1 3 C NE ND F T K U H1) as (st2 & b2 & H2).
  exists st1, b1, st2, b2. split; auto. split; auto.
  apply (apply_twice_differs true true foil_store two_blade st1 b1 st2 b2 C ND F T K (fun s H => proj1 (U s H)) H1 H2
    _ _ _ _ _ _ _ (0, 0) (1, 0) S); [lra| | |].
  - left; reflexivity.
  - right; right; left; reflexivity.
  - intros Q. injection Q as Q. lra.
Qed.

(** ** C49 *)
Theorem C49_thickness_override : forall refl st b st' b' ts, consistent b -> NoDup (sections b) ->
  Forall (fun r => r <> 0) (radii b) -> thickness b = Some ts -> camber b = None ->
  (forall s, In s (sections b) -> uniform (st s)) ->
  apply_transformations refl st b = (st', b', Ok tt) ->
  forall i s r c P k sk, station b i s r c P k sk ->
    exists ref t p1 q old, reference_point (st s) = Ok ref /\ nth_error ts i = Some t /\
      moved (sized c ref) (st s) p1 /\ max_thickness None p1 = Ok old /\
      (old <> 0 -> max_thickness None q = Ok (Rabs t)) /\
      (old = 0 -> yup q = zeros (List.length (yup p1)) /\ ydown q = zeros (List.length (ydown p1))) /\
      xup q = xup p1 /\ xdown q = xdown p1 /\
      (exists m, yup q = vscale m (yup p1) /\ ydown q = vscale m (ydown p1)) /\
      moved (seat r P k sk refl) q (st' s).
Proof. exact apply_thickness. Qed.
Print Assumptions C49_thickness_override.

Theorem C49_camber_override : forall refl st b st' b' cs, consistent b -> NoDup (sections b) ->
  Forall (fun r => r <> 0) (radii b) -> camber b = Some cs ->
  (forall s, In s (sections b) -> uniform (st s)) ->
  apply_transformations refl st b = (st', b', Ok tt) ->
  forall i s r c P k sk, station b i s r c P k sk -> (S i < List.length (sections b))%nat ->
    c <> 0 -> xup (st s) = xdown (st s) -> NoDup (xup (st s)) -> level (st s) ->
    exists ref f q, reference_point (st s) = Ok ref /\ nth_error cs i = Some f /\
      max_camber (Some 500%Z) q = Ok f /\
      xup q = map (fun x => c * (x - fst ref)) (xup (st s)) /\ xdown q = xup q /\
      (thickness b = None -> gap (yup q) (ydown q) = vscale (Rabs c) (gap (yup (st s)) (ydown (st s)))) /\
      moved (seat r P k sk refl) q (st' s).
Proof. exact apply_camber. Qed.
Print Assumptions C49_camber_override.

Theorem C49_last_camber_ignored : forall b cs1 cs2 refl st st1 b1 o1 st2 b2 o2,
  (forall i, (S i < List.length (sections b))%nat -> nth_error cs1 i = nth_error cs2 i) ->
  apply_transformations refl st (with_camber cs1 b) = (st1, b1, o1) ->
  apply_transformations refl st (with_camber cs2 b) = (st2, b2, o2) ->
  st1 = st2 /\ o1 = o2 /\ coordinates b1 = coordinates b2.
Proof. exact last_camber_ignored. Qed.
Print Assumptions C49_last_camber_ignored.

Example C49_example :
  (exists st' b', apply_transformations true ov_store (ov_blade (Some [2; 5]) None) = (st', b', Ok tt)) /\
  (exists st' b', apply_transformations true ov_store (ov_blade None (Some [7])) = (st', b', Ok tt)) /\
  level foil /\ NoDup (xup foil) /\ xup foil = xdown foil.
Proof.
  split; [apply ov_thickness_applied|]. split; [apply ov_camber_applied|]. split; [|split; [apply foil_ok|reflexivity]].
  exists 0, 0, 0. repeat split. lra.
Qed.

(** ** C50 *)
Theorem C50_rotate_coordinates : forall a ax b, generated b -> is_axis ax ->
  exists b', blade_rotate None (Some a) ax b = (b', Ok tt) /\ coords_moved (turn ax a) b b' /\
    faces_moved (turn ax (if String.eqb ax "y" then - a else a)) b b' /\ same_parameters b b' /\ generated b'.
Proof. exact blade_rotate_ok. Qed.
Print Assumptions C50_rotate_coordinates.

Theorem C50_turn_is_isometry : forall ax a p q, dist3 (turn ax a p) (turn ax a q) = dist3 p q.
Proof. exact turn_dist. Qed.
Print Assumptions C50_turn_is_isometry.

Theorem C50_turns_add : forall ax a b p, turn ax b (turn ax a p) = turn ax (a + b) p.
Proof. exact turn_turn. Qed.
Print Assumptions C50_turns_add.

Theorem C50_full_turn : forall ax p, turn ax (2 * PI) p = p.
Proof. exact turn_full. Qed.
Print Assumptions C50_full_turn.

Theorem C50_x_keeps_axial_and_radius : forall a x y z,
  exists y' z', turn "x" a (x, y, z) = (x, y', z') /\ y' * y' + z' * z' = y * y + z * z.
Proof. exact turn_x_radius. Qed.
Print Assumptions C50_x_keeps_axial_and_radius.

Theorem C50_rotations_add : forall ax a c b b1 b2 b3, generated b -> is_axis ax ->
  blade_rotate None (Some a) ax b = (b1, Ok tt) -> blade_rotate None (Some c) ax b1 = (b2, Ok tt) ->
  blade_rotate None (Some (a + c)) ax b = (b3, Ok tt) ->
  coordinates b2 = coordinates b3 /\ faces_moved (fun p => p) b3 b2.
Proof. exact blade_rotate_add. Qed.
Print Assumptions C50_rotations_add.

Theorem C50_degrees : forall d ax b,
  blade_rotate (Some d) None ax b = blade_rotate None (Some (d * (PI / 180))) ax b.
Proof. exact blade_rotate_deg. Qed.
Print Assumptions C50_degrees.

Theorem C50_invalid_calls : forall deg rad ax b, coordinates b <> Failed ->
  (coordinates b = NoCoords \/ (deg <> None /\ rad <> None) \/ (deg = None /\ rad = None) \/ ~ is_axis ax) ->
  blade_rotate deg rad ax b = (b, Err ValueError).
Proof. exact blade_rotate_err. Qed.
Print Assumptions C50_invalid_calls.

(** Without faces (apply_transformations only) rotate raises, but only after it
    has rotated the coordinates. *)
Theorem C50_rotate_without_faces : forall a ax b up down, coordinates b = Built up down -> upper_face b = None ->
  is_axis ax ->
  exists b', blade_rotate None (Some a) ax b = (b', Err TypeError) /\ coords_moved (turn ax a) b b' /\ same_faces b b'.
Proof. exact blade_rotate_nonatomic. Qed.
Print Assumptions C50_rotate_without_faces.

Example C50_example : (exists b, generated b) /\ is_axis "y" /\ ~ is_axis "X".
Proof.
  split; [apply two_blade_generated|]. split; [right; left; reflexivity|]. intros [H|[H|H]]; discriminate.
Qed.

(** ** C51 *)
Theorem C51_motions_move_faces_and_coordinates_alike : forall ms b, generated b -> Forall agreeing ms ->
  exists b' T, do_motions ms b = (b', Ok tt) /\
    similarity (ratios ms) T /\ coords_moved T b b' /\ faces_moved T b b' /\ generated b'.
Proof. exact do_motions_ok. Qed.
Print Assumptions C51_motions_move_faces_and_coordinates_alike.

(** Without coordinates nothing can be scaled; without faces scale raises, but only
    after it has scaled the coordinates. *)
Theorem C51_scale_without_coordinates : forall k b, coordinates b = NoCoords -> blade_scale k b = (b, Err TypeError).
Proof. exact scale_without_coordinates. Qed.
Print Assumptions C51_scale_without_coordinates.

Theorem C51_scale_without_faces : forall k b up down, coordinates b = Built up down -> upper_face b = None -> k <> 0 ->
  exists b', blade_scale k b = (b', Err TypeError) /\ coords_moved (scale3 k) b b' /\ same_faces b b'.
Proof. exact scale_without_faces. Qed.
Print Assumptions C51_scale_without_faces.

Theorem C51_build_agrees : forall surface refl st b st' b', build surface refl st b = (st', b', Ok tt) ->
  faces_agree surface b' /\ generated b' /\ same_parameters b b'.
Proof. exact build_agrees. Qed.
Print Assumptions C51_build_agrees.

Theorem C51_agreement_is_kept : forall surface refl st b st' b0 ms, equivariant surface ->
  build surface refl st b = (st', b0, Ok tt) -> Forall agreeing ms ->
  exists b', do_motions ms b0 = (b', Ok tt) /\ faces_agree surface b'.
Proof. exact build_motions. Qed.
Print Assumptions C51_agreement_is_kept.

Theorem C51_y_rotation_keeps_agreement_refuted : exists st' b0 b',
  build point_surface false plate_store plate_blade = (st', b0, Ok tt) /\
  blade_rotate None (Some (PI / 2)) "y" b0 = (b', Ok tt) /\ ~ faces_agree point_surface b'.
Proof. exact y_rotation_disagrees. Qed.
Print Assumptions C51_y_rotation_keeps_agreement_refuted.

Theorem C51_mirror_keeps_agreement_refuted : exists st' b0 b',
  build point_surface false plate_store plate_blade = (st', b0, Ok tt) /\
  blade_mirror [[0; 0; 0]; [0; 0; 1]] [] b0 = (b', Ok tt) /\ ~ faces_agree point_surface b'.
Proof. exact mirror_disagrees. Qed.
Print Assumptions C51_mirror_keeps_agreement_refuted.

Example C51_example : equivariant point_surface /\
  (exists st' b', build point_surface true foil_store two_blade = (st', b', Ok tt)) /\
  Forall agreeing [Turn "x" 1; Resize (-2); TurnDeg "z" 30].
Proof.
  split; [apply point_surface_equivariant|]. split; [apply two_blade_built|].
  repeat constructor; cbn; auto; lra.
Qed.

Example C51_example_scale : blade_scale 2 two_blade = (two_blade, Err TypeError) /\
  let b := set_coords (Built [[(1, 2, 3)]] [[(1, 2, 0)]]) two_blade in
  exists b', blade_scale 2 b = (b', Err TypeError) /\ coordinates b' = Built [[(2, 4, 6)]] [[(2, 4, 0)]].
Proof.
  split; [apply C51_scale_without_coordinates; reflexivity|]. intros b.
  destruct (C51_scale_without_faces 2 b _ _ eq_refl eq_refl ltac:(lra)) as (b' & E & (u & d & X & Y) & _). exists b'. split; [exact E|].
  rewrite Y. injection X as <- <-. cbn. repeat f_equal; lra.
Qed.

(** ** C52 *)
Theorem C52_mirror_point_and_normal : forall o v b, generated b -> v <> zero3 ->
  exists b', blade_mirror [as_list o; as_list v] [] b = (b', Ok tt) /\ faces_moved (reflection o v) b b' /\
    coordinates b' = coordinates b /\ same_parameters b b' /\ generated b'.
Proof. exact blade_mirror_normal. Qed.
Print Assumptions C52_mirror_point_and_normal.

Theorem C52_mirror_three_points : forall p1 p2 p3 b, generated b -> cross3 (sub3 p2 p1) (sub3 p3 p2) <> zero3 ->
  exists b', blade_mirror [as_list p1; as_list p2; as_list p3] [] b = (b', Ok tt) /\
    faces_moved (reflection p1 (cross3 (sub3 p2 p1) (sub3 p3 p2))) b b' /\
    coordinates b' = coordinates b /\ same_parameters b b' /\ generated b'.
Proof. exact blade_mirror_points. Qed.
Print Assumptions C52_mirror_three_points.

Theorem C52_three_points_span_the_plane : forall a b c, let n := cross3 (sub3 b a) (sub3 c b) in
  on_plane a n a /\ on_plane a n b /\ on_plane a n c.
Proof. exact points_on_plane. Qed.
Print Assumptions C52_three_points_span_the_plane.

Theorem C52_reflection_is_involution : forall o n p, n <> zero3 -> reflection o n (reflection o n p) = p.
Proof. exact reflection_involutive. Qed.
Print Assumptions C52_reflection_is_involution.

Theorem C52_reflection_fixes_plane : forall o n p, on_plane o n p -> reflection o n p = p.
Proof. exact reflection_fixes. Qed.
Print Assumptions C52_reflection_fixes_plane.

Theorem C52_reflection_exchanges_sides : forall o n t, n <> zero3 ->
  reflection o n (add3 o (scale3 t n)) = add3 o (scale3 (- t) n).
Proof. exact reflection_flips. Qed.
Print Assumptions C52_reflection_exchanges_sides.

Theorem C52_reflection_is_isometry : forall o n p q, n <> zero3 ->
  dist3 (reflection o n p) (reflection o n q) = dist3 p q.
Proof. exact reflection_dist. Qed.
Print Assumptions C52_reflection_is_isometry.

Theorem C52_mirror_twice : forall o v b b1 b2, generated b -> v <> zero3 ->
  blade_mirror [as_list o; as_list v] [] b = (b1, Ok tt) -> blade_mirror [as_list o; as_list v] [] b1 = (b2, Ok tt) ->
  faces_moved (fun p => p) b b2 /\ coordinates b2 = coordinates b.
Proof. exact mirror_twice. Qed.
Print Assumptions C52_mirror_twice.

(** Keyword forms; the order of point1, point2, point3 matters. *)
Theorem C52_keywords_normal : forall o v b,
  blade_mirror [] [("point", as_list o); ("normal", as_list v)]%string b = blade_mirror [as_list o; as_list v] [] b /\
  blade_mirror [] [("normal", as_list v); ("point", as_list o)]%string b = blade_mirror [as_list o; as_list v] [] b.
Proof. exact mirror_kw_normal. Qed.
Print Assumptions C52_keywords_normal.

Theorem C52_keywords_points : forall p1 p2 p3 b,
  blade_mirror [] [("point1", as_list p1); ("point2", as_list p2); ("point3", as_list p3)]%string b =
  blade_mirror [as_list p1; as_list p2; as_list p3] [] b.
Proof. exact mirror_kw_points. Qed.
Print Assumptions C52_keywords_points.

Theorem C52_keywords_out_of_order : forall p1 p2 p3 b, generated b ->
  blade_mirror [] [("point2", as_list p2); ("point1", as_list p1); ("point3", as_list p3)]%string b = (b, Err ValueError).
Proof. exact mirror_kw_order. Qed.
Print Assumptions C52_keywords_out_of_order.

Theorem C52_wrong_number_of_arguments : forall args kw b, coordinates b <> Failed ->
  (coordinates b = NoCoords \/ (List.length args + List.length kw <> 2 /\ List.length args + List.length kw <> 3)%nat) ->
  blade_mirror args kw b = (b, Err ValueError).
Proof. exact mirror_count. Qed.
Print Assumptions C52_wrong_number_of_arguments.

(** One, two, four or more numbers for a point or a normal. *)
Theorem C52_wrong_number_of_coordinates : forall a b, generated b -> a <> [] -> List.length a <> 3%nat ->
  (forall v, blade_mirror [a; v] [] b = (b, Err TypeError)) /\ (forall o, blade_mirror [as_list o; a] [] b = (b, Err TypeError)) /\
  (forall v w, blade_mirror [a; v; w] [] b = (b, Err TypeError)) /\ (forall o w, blade_mirror [as_list o; a; w] [] b = (b, Err TypeError)) /\
  forall o q, blade_mirror [as_list o; as_list q; a] [] b = (b, Err TypeError).
Proof. exact mirror_coordinates. Qed.
Print Assumptions C52_wrong_number_of_coordinates.

Theorem C52_degenerate_planes : forall o b, generated b ->
  blade_mirror [as_list o; as_list zero3] [] b = (b, Err RuntimeError) /\
  blade_mirror [as_list o; as_list o; as_list o] [] b = (b, Err RuntimeError).
Proof. exact mirror_degenerate. Qed.
Print Assumptions C52_degenerate_planes.

Example C52_example : (exists b, generated b) /\ (1, 2, 0) <> zero3 /\
  cross3 (sub3 (1, 0, 0) (0, 0, 0)) (sub3 (0, 1, 0) (1, 0, 0)) <> zero3 /\ on_plane (0, 0, 1) (0, 0, 2) (5, 7, 1) /\
  ([1; 2] <> [] /\ List.length [1; 2] <> 3%nat).
Proof.
  split; [apply two_blade_generated|]. split; [intros Q; injection Q; lra|]. split.
  - intros Q. apply (f_equal snd) in Q. cbn in Q. lra.
  - split; [unfold on_plane, dot3, sub3; ring|split; discriminate].
Qed.
