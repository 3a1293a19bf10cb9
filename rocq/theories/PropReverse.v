(** C59, C60, C63, C73, C74: reading a propeller back from its shape. *)
From Coq Require Import Reals List Bool Lra Permutation String.
From Coq Require Import List.
From Verif Require Import Base ProfileModel ProfileSpec CustomModel.
From Verif Require CustomSpec.
From Verif Require Import BladeModel BladeSpec BladeProofs6 PathModel ReverseModel ReverseSpec ReverseProofs3 ReverseProofs4 ReverseProofs5 ReverseProofs6
  ReverseProofs7 ReconstructModel ReconstructProofs ReconstructProofs2 ReconstructProofs3.
Import ListNotations.
Open Scope R_scope.

(** Unrolling a cylinder of radius 1000 r (mm) inverts the winding of the blade. *)
Theorem C59_unroll : forall r a, 0 < r -> - PI < snd a / r <= PI -> unroll (1000 * r) (scale3 1000 (wrap r a)) = pscale 1000 a.
Proof. exact unroll_wrap. Qed.
Print Assumptions C59_unroll.
Theorem C59_bladex_plane : forall cubic slice n radius s, section_bladex cubic slice n radius = Ok s ->
  exists c T, slice radius n = Ok c /\
  let le := unroll radius (c_le c) in let te := unroll radius (c_te c) in
  0 < pdist le te /\ mirror_similarity (/ pdist le te) T /\ T le = (0, 0) /\ T te = (1, 0) /\
  s_le s = (0, 0) /\ s_te s = (1, 0) /\ s_mid s = (1 / 2, 0) /\ s_chord s = pdist le te / 1000 /\
  s_airfoil s = map (fun p => T (unroll_positive radius p)) (c_airfoil c) /\
  (exists m, Permutation (s_camber s) m /\ ordered lex (s_camber s) /\
     ((2 <= List.length (firstn n (c_camber c)))%nat -> pinned (map (fun p => T (unroll_positive radius p)) (firstn n (c_camber c))) m)) /\
  ((2 <= List.length (c_top c))%nat -> (2 <= List.length (c_bottom c))%nat ->
   exists top bottom, upside (map (fun p => T (unroll radius p)) (c_top c)) (map (fun p => T (unroll radius p)) (c_bottom c)) top bottom /\
     surface_from cubic n top (s_top s) (s_yup s) /\ surface_from cubic n bottom (s_bottom s) (s_ydown s)).
Proof. exact bladex_plane. Qed.
Print Assumptions C59_bladex_plane.
Theorem C59_voronoi_plane : forall cubic sample around voronoi cl n radius s,
  section_voronoi cubic sample around voronoi cl n radius = Ok s ->
  exists pts cand spline le0 te0 full le3 te3 cam3 air3 T fc up down,
  sample radius = Ok pts /\ camber_candidates voronoi radius pts = Ok cand /\
  Forall2 (fun p q => q = (fst p, radius * sin (snd p / radius), radius * cos (snd p / radius))) cand spline /\
  cl radius spline = Ok (le0, te0, full) /\ ((le3 = le0 /\ te3 = te0 /\ fst (fst te0) <= fst (fst le0)) \/ (le3 = te0 /\ te3 = le0 /\ fst (fst le0) < fst (fst te0))) /\
  full le3 te3 = Ok cam3 /\ around radius = Ok air3 /\
  let le := unroll_positive radius le3 in let te := unroll_positive radius te3 in
  0 < pdist le te /\ mirror_similarity (/ pdist le te) T /\ T le = (0, 0) /\ T te = (1, 0) /\
  s_le s = (0, 0) /\ s_te s = (1, 0) /\ s_mid s = (1 / 2, 0) /\ s_chord s = pdist le te / 1000 /\
  s_airfoil s = map (fun p => T (unroll_positive radius p)) air3 /\
  (exists m, Permutation (s_camber s) m /\ ordered lex (s_camber s) /\
     ((2 <= List.length cam3)%nat -> pinned (map (fun p => T (unroll_positive radius p)) cam3) m)) /\
  cubic (map fst (s_camber s)) (map snd (s_camber s)) = Ok fc /\
  (forall p, In p up <-> In p (s_airfoil s) /\ 5 / 1000 < fst p < 995 / 1000 /\ exists y, fc (fst p) = Ok y /\ y < snd p) /\
  (forall p, In p down <-> In p (s_airfoil s) /\ 5 / 1000 < fst p < 995 / 1000 /\ exists y, fc (fst p) = Ok y /\ snd p <= y) /\
  surface_from cubic n ((0, 0) :: (1, 0) :: up) (s_top s) (s_yup s) /\
  surface_from cubic n ((0, 0) :: (1, 0) :: down) (s_bottom s) (s_ydown s).
Proof. exact voronoi_plane. Qed.
Print Assumptions C59_voronoi_plane.
Theorem C59_bladex_profile : forall cubic slice n radius s, section_bladex cubic slice n radius = Ok s ->
  (forall c, slice radius n = Ok c -> (2 <= List.length (c_top c))%nat /\ (2 <= List.length (c_bottom c))%nat) ->
  s_x s = linspace 0 1 n /\ let p := mkProfile (s_x s) (s_x s) (s_yup s) (s_ydown s) in
  uniform p /\ first (upper p) = Ok (0, 0) /\ first (lower p) = Ok (0, 0) /\ final (upper p) = Ok (1, 0) /\ final (lower p) = Ok (1, 0) /\
  update_edges p = Ok ((0, 0), (1, 0)).
Proof. exact bladex_profile. Qed.
Print Assumptions C59_bladex_profile.
Theorem C59_voronoi_profile : forall cubic sample around voronoi cl n radius s,
  section_voronoi cubic sample around voronoi cl n radius = Ok s ->
  s_x s = linspace 0 1 n /\ let p := mkProfile (s_x s) (s_x s) (s_yup s) (s_ydown s) in
  uniform p /\ first (upper p) = Ok (0, 0) /\ first (lower p) = Ok (0, 0) /\ final (upper p) = Ok (1, 0) /\ final (lower p) = Ok (1, 0) /\
  update_edges p = Ok ((0, 0), (1, 0)).
Proof. exact voronoi_profile. Qed.
Print Assumptions C59_voronoi_profile.
(** Edges at the same angle make numpy divide by zero. *)
Theorem C59_level_chord : forall cubic slice n radius c, (2 <= n <= 500)%nat -> slice radius n = Ok c ->
  snd (unroll radius (c_le c)) = snd (unroll radius (c_te c)) -> section_bladex cubic slice n radius = Err NonFinite.
Proof. exact bladex_flat. Qed.
Print Assumptions C59_level_chord.
Theorem C59_lists : forall cubic slice rl n v, reverse_bladex cubic slice rl n = Ok v ->
  radii_list v = rl /\
  (forall j x, nth_error rl j = Some x -> exists s, section_bladex cubic slice n x = Ok s /\
     nth_error (pitch_list v) j = Some (s_pitch s) /\ nth_error (pitch_angles_list v) j = Some (angle (s_frame s)) /\
     nth_error (skew_angles_list v) j = Some (s_skew_angle s) /\ nth_error (skew_list v) j = Some (s_skew s) /\
     nth_error (rake_list v) j = Some (s_rake s) /\ nth_error (chord_length_list v) j = Some (s_chord s) /\
     nth_error (r_xup v) j = Some (s_x s) /\ nth_error (r_xdown v) j = Some (s_x s) /\
     nth_error (r_yup v) j = Some (s_yup s) /\ nth_error (r_ydown v) j = Some (s_ydown s)) /\
  List.length (pitch_list v) = List.length rl /\ List.length (pitch_angles_list v) = List.length rl /\
  List.length (skew_angles_list v) = List.length rl /\ List.length (skew_list v) = List.length rl /\
  List.length (rake_list v) = List.length rl /\ List.length (chord_length_list v) = List.length rl /\
  List.length (r_xup v) = List.length rl /\ List.length (r_xdown v) = List.length rl /\
  List.length (r_yup v) = List.length rl /\ List.length (r_ydown v) = List.length rl.
Proof. exact bladex_lists. Qed.
Print Assumptions C59_lists.
Theorem C59_bladex_succeeds : forall cubic slice n radius c, total_interpolant cubic -> (2 <= n <= 500)%nat -> slice radius n = Ok c -> radius <> 0 ->
  snd (unroll radius (c_le c)) <> snd (unroll radius (c_te c)) -> c_camber c <> [] ->
  (2 <= List.length (c_top c))%nat -> (2 <= List.length (c_bottom c))%nat -> exists s, section_bladex cubic slice n radius = Ok s.
Proof. exact bladex_succeeds. Qed.
Print Assumptions C59_bladex_succeeds.
Theorem C59_voronoi_succeeds : forall cubic sample around voronoi cl n radius pts cand spline le0 te0 full le3 te3 cam3 air3,
  total_interpolant cubic -> (2 <= n)%nat -> sample radius = Ok pts -> camber_candidates voronoi radius pts = Ok cand ->
  mapM (wind radius) cand = Ok spline -> cl radius spline = Ok (le0, te0, full) -> order_edges le0 te0 = (le3, te3) -> full le3 te3 = Ok cam3 ->
  around radius = Ok air3 -> radius <> 0 -> snd (unroll_positive radius le3) <> snd (unroll_positive radius te3) -> cam3 <> [] ->
  exists s, section_voronoi cubic sample around voronoi cl n radius = Ok s.
Proof. exact voronoi_succeeds. Qed.
Print Assumptions C59_voronoi_succeeds.
(** A run of the constructor on the outer section of a generated blade. *)
Example C59_example : exists st' b' up down ru rd a z v,
  apply_transformations false foil_store two_blade = (st', b', Ok tt) /\ coordinates b' = Built up down /\
  nth_error up 0 = Some ru /\ nth_error down 0 = Some rd /\ first ru = Ok a /\ final ru = Ok z /\
  reverse_bladex table (fun _ _ => Ok (cut_of ru rd a z)) [1000 * 2] 3 = Ok v.
Proof. exact two_blade_read. Qed.

Theorem C60_parameters : forall refl st b st' b' up down, consistent b -> NoDup (sections b) ->
  Forall (fun r => r <> 0) (radii b) -> thickness b = None -> camber b = None ->
  (forall s, In s (sections b) -> uniform (st s)) ->
  apply_transformations refl st b = (st', b', Ok tt) -> coordinates b' = Built up down ->
  forall i s r c P k sk le te L, station b i s r c P k sk ->
    first (upper (st s)) = Ok le -> first (lower (st s)) = Ok le ->
    final (upper (st s)) = Ok te -> final (lower (st s)) = Ok te -> psub te le = (L, 0) ->
    0 < r -> r * Rabs (sk * (PI / 180)) + Rabs (c * L) / 2 < PI * r ->
  forall row a z, nth_error up (List.length (sections b) - 1 - i) = Some row -> first row = Ok a -> final row = Ok z ->
  forall cubic slice rl n v j ct, reverse_bladex cubic slice rl n = Ok v -> nth_error rl j = Some (1000 * r) ->
    slice (1000 * r) n = Ok ct ->
    (c_le ct = scale3 1000 a /\ c_te ct = scale3 1000 z) \/ (c_le ct = scale3 1000 z /\ c_te ct = scale3 1000 a) ->
  nth_error (pitch_list v) j = Some (Rabs P) /\ nth_error (skew_angles_list v) j = Some sk /\
  nth_error (rake_list v) j = Some k /\ nth_error (chord_length_list v) j = Some (Rabs (c * L)) /\
  nth_error (skew_list v) j = Some (- (r * (sk * (PI / 180)))).
Proof. exact parameters_recovered. Qed.
Print Assumptions C60_parameters.
Theorem C60_profile : forall refl st b st' b' up down, consistent b -> NoDup (sections b) ->
  Forall (fun r => r <> 0) (radii b) -> thickness b = None -> camber b = None ->
  (forall s, In s (sections b) -> uniform (st s)) ->
  apply_transformations refl st b = (st', b', Ok tt) -> coordinates b' = Built up down ->
  forall i s r c P k sk le te L, station b i s r c P k sk ->
    first (upper (st s)) = Ok le -> first (lower (st s)) = Ok le ->
    final (upper (st s)) = Ok te -> final (lower (st s)) = Ok te -> psub te le = (L, 0) -> 0 < L -> c <> 0 -> 0 < r ->
    (forall a, In a (upper (st s)) \/ In a (lower (st s)) ->
       r * Rabs (sk * (PI / 180)) + Rabs c * pdist a (pscale (1 / 2) (padd le te)) < PI * r) ->
    (forall a, In a (upper (st s)) -> snd le <= snd a) -> (exists a, In a (upper (st s)) /\ snd le < snd a) ->
  forall rowu rowd, nth_error up (List.length (sections b) - 1 - i) = Some rowu ->
    nth_error down (List.length (sections b) - 1 - i) = Some rowd ->
  forall cubic slice rl n v j, true_slice slice n r rowu rowd -> reverse_bladex cubic slice rl n = Ok v -> nth_error rl j = Some (1000 * r) ->
  exists t yu yd, section_bladex cubic slice n (1000 * r) = Ok t /\
  surface_from cubic n (map (in_chord le L) (upper (st s))) (s_top t) yu /\
  surface_from cubic n (map (in_chord le L) (lower (st s))) (s_bottom t) yd /\
  nth_error (r_xup v) j = Some (linspace 0 1 n) /\ nth_error (r_xdown v) j = Some (linspace 0 1 n) /\
  nth_error (r_yup v) j = Some yu /\ nth_error (r_ydown v) j = Some yd /\
  (interpolates cubic ->
   (ordered (fun a b : pt => fst a < fst b) (upper (st s)) -> map (fun a => fst (in_chord le L a)) (upper (st s)) = linspace 0 1 n ->
    yu = map (fun a => snd (in_chord le L a)) (upper (st s))) /\
   (ordered (fun a b : pt => fst a < fst b) (lower (st s)) -> map (fun a => fst (in_chord le L a)) (lower (st s)) = linspace 0 1 n ->
    yd = map (fun a => snd (in_chord le L a)) (lower (st s)))).
Proof. exact profile_recovered. Qed.
Print Assumptions C60_profile.
(** The class ReversePropeller expects the blade turned by half a revolution and gives the opposite skew. *)
Theorem C60_turned_blade : forall refl st b st' b' up down, consistent b -> NoDup (sections b) ->
  Forall (fun r => r <> 0) (radii b) -> thickness b = None -> camber b = None ->
  (forall s, In s (sections b) -> uniform (st s)) ->
  apply_transformations refl st b = (st', b', Ok tt) -> coordinates b' = Built up down ->
  forall i s r c P k sk le te L, station b i s r c P k sk ->
    first (upper (st s)) = Ok le -> first (lower (st s)) = Ok le ->
    final (upper (st s)) = Ok te -> final (lower (st s)) = Ok te -> psub te le = (L, 0) ->
    0 < r -> r * Rabs (sk * (PI / 180)) + Rabs (c * L) / 2 < PI * r ->
  forall row a z, nth_error up (List.length (sections b) - 1 - i) = Some row -> first row = Ok a -> final row = Ok z ->
  forall cubic sample around voronoi cl rl n v j, reverse_voronoi cubic sample around voronoi cl rl n = Ok v ->
    nth_error rl j = Some (1000 * r) ->
    (forall spline x y full, cl (1000 * r) spline = Ok (x, y, full) ->
      (x = scale3 1000 (turn "x" PI a) /\ y = scale3 1000 (turn "x" PI z)) \/
      (x = scale3 1000 (turn "x" PI z) /\ y = scale3 1000 (turn "x" PI a))) ->
  nth_error (pitch_list v) j = Some (Rabs P) /\ nth_error (skew_angles_list v) j = Some (- sk) /\
  nth_error (rake_list v) j = Some k /\ nth_error (chord_length_list v) j = Some (Rabs (c * L)) /\
  nth_error (skew_list v) j = Some (- (r * (sk * (PI / 180)))).
Proof. exact parameters_turned_x. Qed.
Print Assumptions C60_turned_blade.
Example C60_turned_example : exists st' b' up down row a z cubic sample around voronoi cl v,
  apply_transformations false foil_store plain_blade = (st', b', Ok tt) /\ coordinates b' = Built up down /\
  nth_error up 0 = Some row /\ first row = Ok a /\ final row = Ok z /\
  reverse_voronoi cubic sample around voronoi cl [1000 * 1] 3 = Ok v /\
  (forall spline x y full, cl (1000 * 1) spline = Ok (x, y, full) -> x = scale3 1000 (turn "x" PI a) /\ y = scale3 1000 (turn "x" PI z)).
Proof. exact turned_read_x. Qed.
(** On the blade as generated ReversePropeller can find a wrong chord (1/2 here). *)
Theorem C60_unturned_refuted : exists st' b' up down row a z cubic sample around voronoi cl v ch,
  apply_transformations false foil_store plain_blade = (st', b', Ok tt) /\ coordinates b' = Built up down /\
  nth_error up 0 = Some row /\ first row = Ok a /\ final row = Ok z /\
  reverse_voronoi cubic sample around voronoi cl [1000 * 1] 3 = Ok v /\
  (forall spline x y full, cl (1000 * 1) spline = Ok (x, y, full) -> x = scale3 1000 a /\ y = scale3 1000 z) /\
  chord_length_list v = [ch] /\ 3 < ch.
Proof. exact straddling_chord. Qed.
Print Assumptions C60_unturned_refuted.
(** The blade made from what was read is the original one, point by point. *)
Theorem C60_reconstruction : forall american,
  forall st b st' b' up down n cubic slice v o l,
  consistent b -> sections b <> [] -> NoDup (sections b) -> thickness b = None -> camber b = None -> (2 <= n)%nat ->
  Forall (fun c => 0 < c) (chords b) -> Forall (fun r => 0 < r) (radii b) -> Forall (fun P => 0 <= P) (pitch b) ->
  (forall s, In s (sections b) -> unit_foil n (st s) /\ CustomSpec.consistent (st s)) ->
  apply_transformations true st b = (st', b', Ok tt) -> coordinates b' = Built up down ->
  (forall i s r c P k sk, station b i s r c P k sk -> forall a, In a (upper (st s)) \/ In a (lower (st s)) ->
       r * Rabs (sk * (PI / 180)) + c * pdist a (1 / 2, 0) < PI * r) ->
  interpolates cubic ->
  (forall i s r c P k sk rowu rowd, station b i s r c P k sk -> nth_error up (List.length (sections b) - 1 - i) = Some rowu ->
     nth_error down (List.length (sections b) - 1 - i) = Some rowd -> true_slice slice n r rowu rowd) ->
  reverse_bladex cubic slice (map (fun r => 1000 * r) (radii b)) n = Ok v ->
  values o = v -> num_sections o = Some (List.length (sections b)) -> recons_sections o = Some l -> List.length l = List.length (sections b) ->
  exists o' st2 b2, reconstruct_blade american o = (o', Err AttributeError) /\ recons_blade o' = Some (st2, b2) /\
    coordinates b2 = Built up down /\ radii b2 = radii b /\ chords b2 = chords b /\ pitch b2 = pitch b /\ rake b2 = rake b /\ skew b2 = skew b.
Proof. exact reconstruction. Qed.
Print Assumptions C60_reconstruction.
Example C60_reconstruction_example : forall american, exists st' b' up down slice v o l o' st2 b2,
  apply_transformations true foil_store two_blade = (st', b', Ok tt) /\ coordinates b' = Built up down /\
  reverse_bladex table slice (map (fun r => 1000 * r) (radii two_blade)) 3 = Ok v /\
  values o = v /\ num_sections o = Some 2%nat /\ recons_sections o = Some l /\ List.length l = 2%nat /\ recons_blade o = None /\
  reconstruct_blade american o = (o', Err AttributeError) /\ recons_blade o' = Some (st2, b2) /\ coordinates b2 = Built up down.
Proof. exact round_trip_example. Qed.

(** Without assignments to the attributes every call fails, in every order. *)
Theorem C63_methods_fail : forall american make_propeller v cs,
  Forall (fun c => match c with CallSections | CallBlade | CallPropeller _ _ => True | _ => False end) cs ->
  history american make_propeller cs (fresh v) = (fresh v, map (fun _ => Err AttributeError) cs).
Proof. exact methods_fail. Qed.
Print Assumptions C63_methods_fail.
Theorem C63_blade_never : forall american o, exists o' e, reconstruct_blade american o = (o', Err e).
Proof. exact blade_never. Qed.
Print Assumptions C63_blade_never.
(** When a blade has been stored, the profiles of the object are its sections. *)
Theorem C63_stored_blade : forall american o o' e st2 b2, recons_blade o = None -> reconstruct_blade american o = (o', Err e) -> recons_blade o' = Some (st2, b2) ->
  values o' = values o /\ num_sections o' = num_sections o /\
  exists l, recons_sections o' = Some l /\ List.length l = List.length (sections b2) /\
    forall i s, nth_error (sections b2) i = Some s -> nth_error l i = Some (Some (st2 s)).
Proof. exact blade_shares. Qed.
Print Assumptions C63_stored_blade.
Theorem C63_propeller_never : forall make_propeller sh n o, exists e, reconstruct_propeller make_propeller sh n o = (o, Err e).
Proof. exact propeller_never. Qed.
Print Assumptions C63_propeller_never.
(** With the two attributes assigned by the user reconstruct_sections works. *)
Theorem C63_sections : forall american ps o l,
  num_sections o = Some (List.length ps) -> recons_sections o = Some l -> List.length l = List.length ps ->
  (forall j p, nth_error ps j = Some p -> exists xu yu xd yd q,
     nth_error (r_xup (values o)) j = Some xu /\ nth_error (r_yup (values o)) j = Some yu /\
     nth_error (r_xdown (values o)) j = Some xd /\ nth_error (r_ydown (values o)) j = Some yd /\
     custom_profile american [("xup"%string, KArr xu); ("yup"%string, KArr yu); ("xdown"%string, KArr xd); ("ydown"%string, KArr yd)] = Ok (p, q)) ->
  reconstruct_sections american o = (mkRObject (values o) (num_sections o) (Some (map Some ps)) (recons_blade o), Ok (map Some ps)).
Proof. exact sections_from_rows. Qed.
Print Assumptions C63_sections.
(** If the list assigned by the user is too short it is filled before the failure. *)
Theorem C63_sections_short : forall american ps o l,
  num_sections o = Some (List.length ps) -> recons_sections o = Some l -> (List.length l < List.length ps)%nat ->
  (forall j p, nth_error ps j = Some p -> exists xu yu xd yd q,
     nth_error (r_xup (values o)) j = Some xu /\ nth_error (r_yup (values o)) j = Some yu /\
     nth_error (r_xdown (values o)) j = Some xd /\ nth_error (r_ydown (values o)) j = Some yd /\
     custom_profile american [("xup"%string, KArr xu); ("yup"%string, KArr yu); ("xdown"%string, KArr xd); ("ydown"%string, KArr yd)] = Ok (p, q)) ->
  reconstruct_sections american o =
    (mkRObject (values o) (num_sections o) (Some (map Some (firstn (List.length l) ps))) (recons_blade o), Err IndexError).
Proof. exact sections_short. Qed.
Print Assumptions C63_sections_short.
Example C63_short_example : forall american, exists o, num_sections o = Some 2%nat /\ recons_sections o = Some [None] /\
  reconstruct_sections american o = (mkRObject (values o) (num_sections o) (Some [Some foil3]) None, Err IndexError).
Proof. exact short_example. Qed.
(** With num_sections alone both calls fail and leave the object as it is. *)
Theorem C63_no_list : forall american o n xu yu xd yd pq, num_sections o = Some n -> recons_sections o = None ->
  (n = 0%nat \/ nth_error (r_xup (values o)) 0 = Some xu /\ nth_error (r_yup (values o)) 0 = Some yu /\
     nth_error (r_xdown (values o)) 0 = Some xd /\ nth_error (r_ydown (values o)) 0 = Some yd /\
     custom_profile american [("xup"%string, KArr xu); ("yup"%string, KArr yu); ("xdown"%string, KArr xd); ("ydown"%string, KArr yd)] = Ok pq) ->
  reconstruct_sections american o = (o, Err AttributeError) /\ reconstruct_blade american o = (o, Err AttributeError).
Proof. exact no_list. Qed.
Print Assumptions C63_no_list.
Example C63_no_list_example : forall american, exists o, num_sections o = Some 1%nat /\ recons_sections o = None /\
  reconstruct_sections american o = (o, Err AttributeError) /\ reconstruct_blade american o = (o, Err AttributeError).
Proof. exact no_list_example. Qed.
Example C63_example : forall american make_propeller v,
  history american make_propeller [CallBlade; CallPropeller "s.iges" 4; CallSections] (fresh v) =
    (fresh v, [Err AttributeError; Err AttributeError; Err AttributeError]).
Proof. exact fails_example. Qed.
Example C63_sections_example : forall american, exists o l, num_sections o = Some 1%nat /\ recons_sections o = Some l /\
  snd (reconstruct_sections american o) = Ok [Some foil3].
Proof. exact sections_example. Qed.

(** Candidates for the camber line: the Voronoi vertices in the section, by abscissa. *)
Theorem C73_candidates : forall voronoi radius pts, 
  let poly := map (unroll_positive radius) pts in
  (forall cand, camber_candidates voronoi radius pts = Ok cand ->
   exists vs, voronoi poly = Ok vs /\
     selected_by_x (fun p => point_inside_polygon (fst p) (snd p) poly true = Ok true) vs cand) /\
  (forall vs, pts <> [] -> voronoi poly = Ok vs -> exists cand, camber_candidates voronoi radius pts = Ok cand).
Proof. exact candidates_selected. Qed.
Print Assumptions C73_candidates.
Example C73_example : exists pts cand,
  map (unroll_positive 1) pts = [(0, 0); (4, 0); (0, 2)] /\
  camber_candidates (fun _ => Ok [(2, 1 / 2); (9, 1); (1, 1)]) 1 pts = Ok cand /\ cand = [(1, 1); (2, 1 / 2)].
Proof. exact candidates_example. Qed.

(** radii_list an array: the first index; a list: never an index. *)
Theorem C74_array : forall rl radius, (forall i, display_index NdArray rl radius = Ok i <->
    nth_error rl i = Some radius /\ forall j, (j < i)%nat -> nth_error rl j <> Some radius) /\
  (display_index NdArray rl radius = Err ValueError <-> ~ In radius rl).
Proof. exact display_array. Qed.
Print Assumptions C74_array.
Theorem C74_list : forall rl radius, (forall i, display_index PyList rl radius <> Ok i) /\
  (display_index PyList rl radius = Err ValueError <-> ~ In radius rl).
Proof. exact display_list. Qed.
Print Assumptions C74_list.
Example C74_example : display_index NdArray [25; 50; 75; 50] 50 = Ok 1%nat /\ display_index NdArray [25; 50; 75] 60 = Err ValueError /\
  display_index PyList [25; 50; 75] 50 = Err OtherException.
Proof. exact display_example. Qed.
