(** Properties C55 - C58: the propeller. *)
From Coq Require Import String Reals List ZArith Lra Lia Sorting.Sorted Sorting.Permutation.
From Verif Require Import Base ProfileModel ProfileSpec BladeModel BladeSpec BladeProofs BladeProofs2 BladeProofs3 BladeProofs4 BladeProofs5 BladeProofs6 ObjModel ObjSpec ObjProofs
  PropellerModel PropellerSpec PropellerProofs PropellerProofs2.
Import ListNotations.
Open Scope R_scope.

(** ** C55 *)
(** The caller keeps the built, unrotated blade; blade [i] is it turned by i 2 pi / n. *)
Theorem C55_blades : forall S T surface (sh : T) st b n refl st' b', build surface refl st b = (st', b', Ok tt) ->
  exists p : propeller S T, new_propeller surface sh st b (PyInt (Z.of_nat n)) refl = (st', b', Ok p) /\
    shaft p = sh /\ List.length (blades p) = n /\ cached_solid p = None /\ cached_shape p = None /\
    shaft_solid p = None /\ blades_solid p = None /\
    forall i o, nth_error (blades p) i = Some o -> fst o = st' /\ same_parameters b' (snd o) /\ generated (snd o) /\
      coords_moved (turn "x" (INR i * (2 * PI / INR n))) b' (snd o) /\
      faces_moved (turn "x" (INR i * (2 * PI / INR n))) b' (snd o).
Proof. exact new_propeller_ok. Qed.
Print Assumptions C55_blades.

Theorem C55_between_two_blades : forall S T surface (sh : T) st b n refl st' b' (p : propeller S T) i j oi oj,
  new_propeller surface sh st b (PyInt (Z.of_nat n)) refl = (st', b', Ok p) ->
  nth_error (blades p) i = Some oi -> nth_error (blades p) j = Some oj ->
  coords_moved (turn "x" ((INR j - INR i) * (2 * PI / INR n))) (snd oi) (snd oj) /\
  faces_moved (turn "x" ((INR j - INR i) * (2 * PI / INR n))) (snd oi) (snd oj).
Proof. exact between_blades. Qed.
Print Assumptions C55_between_two_blades.

(** Turning the propeller by 2 pi / n puts every blade on the next, the last on the first. *)
Theorem C55_rotational_symmetry : forall S T surface (sh : T) st b n refl st' b' (p : propeller S T) i oi oj,
  new_propeller surface sh st b (PyInt (Z.of_nat n)) refl = (st', b', Ok p) ->
  nth_error (blades p) i = Some oi -> nth_error (blades p) (Nat.modulo (i + 1) n) = Some oj ->
  coords_moved (turn "x" (2 * PI / INR n)) (snd oi) (snd oj) /\ faces_moved (turn "x" (2 * PI / INR n)) (snd oi) (snd oj).
Proof. exact next_blade. Qed.
Print Assumptions C55_rotational_symmetry.

Theorem C55_congruent : forall S T surface (sh : T) st b n refl st' b' (p : propeller S T) i j oi oj,
  new_propeller surface sh st b (PyInt (Z.of_nat n)) refl = (st', b', Ok p) ->
  nth_error (blades p) i = Some oi -> nth_error (blades p) j = Some oj ->
  forall t1 s1 m1 t2 s2 m2 a1 a2, blade_point (snd oi) t1 s1 m1 a1 -> blade_point (snd oi) t2 s2 m2 a2 ->
    exists c1 c2, blade_point (snd oj) t1 s1 m1 c1 /\ blade_point (snd oj) t2 s2 m2 c2 /\ dist3 c1 c2 = dist3 a1 a2.
Proof. exact congruent_blades. Qed.
Print Assumptions C55_congruent.

(** Corresponding points of all blades balance about the axis. *)
Theorem C55_balanced : forall S T surface (sh : T) st b n refl st' b' (p : propeller S T) top s m x y z, (2 <= n)%nat ->
  new_propeller surface sh st b (PyInt (Z.of_nat n)) refl = (st', b', Ok p) -> blade_point b' top s m (x, y, z) ->
  exists qs, Forall2 (fun o q => blade_point (snd o) top s m q) (blades p) qs /\ sum3 qs = (INR n * x, 0, 0).
Proof. exact balanced. Qed.
Print Assumptions C55_balanced.

(** Building consumed the profiles: a second propeller made from the same blade is another one. *)
Theorem C55_second_propeller_differs : forall S T surface (sh sh' : T) st b n n' refl refl' st1 b1 (p1 : propeller S T) st2 b2 (p2 : propeller S T),
  consistent b -> NoDup (sections b) ->
  Forall (fun r => r <> 0) (radii b) -> thickness b = None -> camber b = None ->
  (forall s, In s (sections b) -> uniform (st s)) ->
  new_propeller surface sh st b n refl = (st1, b1, Ok p1) ->
  new_propeller surface sh' st1 b1 n' refl' = (st2, b2, Ok p2) ->
  forall i s r c P rk sk a d, station b i s r c P rk sk -> c <> 0 ->
    In a (ProfileSpec.points (st s)) -> In d (ProfileSpec.points (st s)) -> a <> d ->
    forall o1 o2, In o1 (blades p1) -> In o2 (blades p2) -> fst o2 s <> fst o1 s.
Proof. exact second_propeller. Qed.
Print Assumptions C55_second_propeller_differs.

Theorem C55_no_blades : forall S T surface (sh : T) st b z refl st' b',
  build surface refl st b = (st', b', Ok tt) -> (z <= 0)%Z ->
  new_propeller (solid := S) surface sh st b (PyInt z) refl = (st', b', Ok (mkProp sh [] None None None None)).
Proof. exact new_propeller_int. Qed.
Print Assumptions C55_no_blades.

(** The blade has been built (and its profiles changed) when the number is rejected. *)
Theorem C55_float_number : forall S T surface (sh : T) st b x refl st' b',
  build surface refl st b = (st', b', Ok tt) ->
  new_propeller (solid := S) surface sh st b (PyFloat x) refl = (st', b', Err TypeError).
Proof. exact new_propeller_float. Qed.
Print Assumptions C55_float_number.

Theorem C55_build_failure : forall S T surface (sh : T) st b n refl st' b' e,
  build surface refl st b = (st', b', Err e) ->
  new_propeller (solid := S) surface sh st b n refl = (st', b', Err e).
Proof. exact new_propeller_failure. Qed.
Print Assumptions C55_build_failure.

Example C55_example : exists st' b' (p : propeller unit unit) o0 o1 o2 q,
  build point_surface true foil_store two_blade = (st', b', Ok tt) /\
  new_propeller point_surface tt foil_store two_blade (PyInt 3) true = (st', b', Ok p) /\ blades p = [o0; o1; o2] /\
  coords_moved (turn "x" (2 * PI / 3)) (snd o2) (snd o0) /\ blade_point b' true 0 0 q.
Proof.
  destruct (two_blade_built true) as (st' & b' & H). destruct (new_propeller_ok unit unit _ tt _ _ 3 _ _ _ H) as (p & E & _ & L & _ & _ & _ & _ & K).
  destruct (blades p) as [|o0 [|o1 [|o2 [|]]]] eqn:EB; try discriminate L.
  assert (Q : exists q, blade_point b' true 0 0 q).
  { destruct two_blade_good as (C & _ & ND & F & TH & CA & U & ST).
    pose proof H as HB. apply build_inv in HB as (b1 & up & down & HA & HC & HM).
    destruct (apply_sections _ _ _ _ _ C HA) as (_ & _ & up' & down' & HC' & L1 & L2 & W).
    rewrite HC in HC'. injection HC' as <- <-.
    destruct (W 1%nat 1%nat 2 (1/4) 4 (1/5) 10 ST) as (W1 & _). cbn [two_blade sections List.length Nat.sub] in W1.
    destruct (apply_places _ _ _ _ _ C ND F TH CA (fun s I => proj1 (U s I)) HA) as (A & _).
    destruct (A _ _ _ _ _ _ _ ST) as (ref & _ & _ & MU & _).
    apply make_faces_inv in HM as (fu & fl & ft & fr & lu & ld & su & sd & -> & _).
    destruct (upper (st' 1%nat)) as [|a l] eqn:EU. { discriminate MU. }
    exists (wrap 2 a). exists up, down, (map (wrap 2) (a :: l)). split; [exact HC|]. split; [|reflexivity]. exact W1. }
  destruct Q as (q & Q). exists st', b', p, o0, o1, o2, q. split; [exact H|]. split; [exact E|]. split; [exact EB|]. split; [|exact Q].
  pose proof (next_blade unit unit _ _ _ _ 3 _ _ _ _ 2 o2 o0 E) as N. rewrite EB in N. specialize (N eq_refl eq_refl).
  replace (INR 3) with 3 in N by (cbn [INR]; ring). apply N.
Qed.

(** ** C56 *)
(** Once built, the solid is returned by every later access, whatever happens in between and whatever
    the CAD kernel would compute now. *)
Theorem C56_solid_built_once : forall S T (k : cad S T) p p' s h k', get_solid k p = (p', Ok s) ->
  perform k' Solid_ (after h p') = (after h p', [], Ok (Solid s)).
Proof. exact solid_once. Qed.
Print Assumptions C56_solid_built_once.

Theorem C56_shape_built_once : forall S T (k : cad S T) p p' s h k' name, get_shape k p = (p', Ok s) ->
  perform k' Shape_ (after h p') = (after h p', [], Ok (Solid s)) /\
  perform k' (ExportIges name) (after h p') = (after h p', if writable k' name then [(name, Iges s)] else [], Ok Nothing) /\
  perform k' (ExportStl name) (after h p') = (after h p', if writable k' name then [(name, Stl s)] else [], if writable k' name then Ok Nothing else Err IOError).
Proof. exact shape_once. Qed.
Print Assumptions C56_shape_built_once.

(** The first successful access fuses the shaft and the blades present at that moment. *)
Theorem C56_first_access : forall S T (k : cad S T) p p' s, cached_solid p = None -> get_solid k p = (p', Ok s) ->
  exists s0 bs, make_shaft k (shaft p) = Ok s0 /\ fuse k s0 bs = Some s /\
    Forall2 (fun o x => exists u l t r, four_faces (snd o) u l t r /\ make_solid k [u; l; t; r] = Ok x) (blades p) bs.
Proof. exact solid_first. Qed.
Print Assumptions C56_first_access.

Theorem C56_shape_is_the_sewn_solid : forall S T (h : list (cad S T * access S T)) p,
  (forall t, cached_shape p = Some t -> exists (k : cad S T) s, cached_solid p = Some s /\ t = sew k s) ->
  forall t, cached_shape (after h p) = Some t -> exists (k : cad S T) s, cached_solid (after h p) = Some s /\ t = sew k s.
Proof. exact shape_is_sewn. Qed.
Print Assumptions C56_shape_is_the_sewn_solid.

Theorem C56_failure_caches_nothing : forall S T (k : cad S T) p p' e,
  get_solid k p = (p', Err e) \/ get_shape k p = (p', Err e) -> p' = p.
Proof. exact failed_keeps. Qed.
Print Assumptions C56_failure_caches_nothing.

(** Every way the first access can fail: the shaft, a blade without faces or without solid (the first
    such blade decides), the fusion. *)
Theorem C56_first_access_fails : forall S T (k : cad S T) p, cached_solid p = None ->
  (forall e, make_shaft k (shaft p) = Err e -> get_solid k p = (p, Err e)) /\
  (forall s l o l' xs, make_shaft k (shaft p) = Ok s -> blades p = l ++ o :: l' -> Forall2 (has_solid k) l xs ->
     (~ has_faces (snd o) -> get_solid k p = (p, Err TypeError)) /\
     (forall u w t r e, four_faces (snd o) u w t r -> make_solid k [u; w; t; r] = Err e -> get_solid k p = (p, Err e))) /\
  (forall s xs, make_shaft k (shaft p) = Ok s -> Forall2 (has_solid k) (blades p) xs -> fuse k s xs = None -> get_solid k p = (p, Err RuntimeError)).
Proof. exact solid_fails. Qed.
Print Assumptions C56_first_access_fails.

Theorem C56_tmp_stl_fails : forall S T (k : cad S T) name p o, In o (blades p) -> ~ has_faces (snd o) ->
  perform k (TmpStl name) p = (p, [], Err TypeError).
Proof. exact tmp_fails. Qed.
Print Assumptions C56_tmp_stl_fails.
(** A blade that was constructed but not built. *)
Example C56_fails_example : exists (o : own_blade), ~ has_faces (snd o).
Proof. exists (fun _ => foil3, two_blade). intros (H & _). apply H. reflexivity. Qed.

(** tmp_stl, in contrast, writes the blades as they are now. *)
Theorem C56_tmp_stl_is_current : forall S T (k : cad S T) name p, writable k name = true ->
  (forall o, In o (blades p) -> has_faces (snd o)) ->
  exists l, perform k (TmpStl name) p = (p, [(name, StlCompound l)], Ok Nothing) /\
    Forall2 (fun o x => exists u l t r, four_faces (snd o) u l t r /\ x = sew_faces k [u; l; r; t]) (blades p) l.
Proof. exact tmp_current. Qed.
Print Assumptions C56_tmp_stl_is_current.

(** Displaying writes nothing; it succeeds exactly if a window can be opened and the shape obtained. *)
Theorem C56_display : forall S T (k : cad S T) p, exists p' o, perform k Display p = (p', [], o) /\
  (o = Ok Nothing <-> window k = Ok tt /\ exists x, snd (get_shape k p) = Ok x) /\
  (forall e, o = Err e <-> window k = Err e \/ (window k = Ok tt /\ snd (get_shape k p) = Err e)) /\
  (window k <> Ok tt -> p' = p) /\ (window k = Ok tt -> p' = fst (get_shape k p)).
Proof. exact display_outcome. Qed.
Print Assumptions C56_display.

(** A propeller without blades, whose blades are exchanged after the first export. *)
Example C56_example : forall o : own_blade,
  let k := mkCad (fun s : nat => Ok s) (fun fs => Ok (List.length fs)) (fun s l => Some (s + List.length l)%nat)
             (fun s => (10 * s)%nat) (@List.length face) (fun _ => true) (fun _ => Err Unmodelled) (Ok tt) in
  let p : propeller nat nat := mkProp 7%nat [] None None None None in
  exists p', get_shape k p = (p', Ok 70%nat) /\
    perform k (ExportStl "out.stl") (after [(k, AssignBlades [o]); (k, AssignShaft 8%nat)] p') =
      (after [(k, AssignBlades [o]); (k, AssignShaft 8%nat)] p', [("out.stl"%string, Stl 70%nat)], Ok Nothing).
Proof. intros o k p. eexists. split; reflexivity. Qed.

(** ** C57 *)
Theorem C57_blades_and_stem : forall sh bl kw nb ns, valid_mesh sh -> valid_mesh bl -> NoDup (map fst kw) ->
  region_name kw "blades_name" "blades" nb -> region_name kw "shaft_name" "shaft" ns ->
  exists o pb ps, merge_meshes sh bl "blades_and_stem" kw = Ok o /\ polygons o = pb ++ ps /\
    StronglySorted lt3 (vertices o) /\ (forall v, In v (vertices o) <-> In v (points sh ++ points bl)) /\
    drawn o bl (cells bl) pb /\ drawn o sh (cells sh) ps /\
    in_region o nb 0 (List.length pb) /\ in_region o ns (List.length pb) (List.length (polygons o)).
Proof. exact merge_stem_named. Qed.
Print Assumptions C57_blades_and_stem.

(** Head: the shaft triangles not beyond the blades on the side where the shaft extends further. *)
Theorem C57_by_coords : forall sh bl kw nh nt nb, valid_mesh sh -> valid_mesh bl -> NoDup (map fst kw) ->
  region_name kw "shafthead_name" "shaftHead" nh -> region_name kw "shafttail_name" "shaftTail" nt -> region_name kw "blades_name" "blades" nb ->
  exists o ph pt pb ch ct lo hi beyond below, merge_meshes sh bl "by_coords" kw = Ok o /\ polygons o = ph ++ pt ++ pb /\
    StronglySorted lt3 (vertices o) /\ (forall v, In v (vertices o) <-> In v (points sh ++ points bl)) /\
    extent bl lo hi /\ number_of (fun x => hi < x) (points sh) beyond /\ number_of (fun x => x < hi) (points sh) below /\
    (let head := all_corners sh (fun x => ((below <= beyond)%nat -> x <= hi) /\ ((beyond < below)%nat -> lo <= x)) in
     picked head (cells sh) ch /\ picked (fun t => ~ head t) (cells sh) ct) /\ Permutation (ch ++ ct) (cells sh) /\
    drawn o sh ch ph /\ drawn o sh ct pt /\ drawn o bl (cells bl) pb /\
    in_region o nh 0 (List.length ph) /\
    in_region o nt (List.length ph) (List.length ph + List.length pt) /\
    in_region o nb (List.length ph + List.length pt) (List.length (polygons o)).
Proof. exact merge_coords_named. Qed.
Print Assumptions C57_by_coords.

Theorem C57_vertices_distinct : forall l, StronglySorted lt3 l -> NoDup l.
Proof. exact sorted3_nodup. Qed.
Print Assumptions C57_vertices_distinct.

Theorem C57_polygon_determines_triangle : forall o q c c', obj_corners o q c -> obj_corners o q c' -> c = c'.
Proof. exact corners_unique. Qed.
Print Assumptions C57_polygon_determines_triangle.

Theorem C57_blades_alone : forall bl, valid_mesh bl ->
  exists o, blades_object bl = Ok o /\ StronglySorted lt3 (vertices o) /\ (forall v, In v (vertices o) <-> In v (points bl)) /\
    drawn o bl (cells bl) (polygons o) /\ in_region o "blades" 0 (List.length (polygons o)) /\ regions o = ["blades"%string].
Proof. exact blades_alone. Qed.
Print Assumptions C57_blades_alone.

Theorem C57_unknown_selector : forall sh bl sel kw, cells sh <> [] -> cells bl <> [] ->
  sel <> "blades_and_stem"%string -> sel <> "by_coords"%string -> merge_meshes sh bl sel kw = Err ValueError.
Proof. exact merge_unknown. Qed.
Print Assumptions C57_unknown_selector.

Theorem C57_bad_index : forall sh bl kw, cells sh <> [] -> cells bl <> [] ->
  Exists (fun t => ~ in_range (List.length (points bl)) t) (cells bl) ->
  merge_meshes sh bl "blades_and_stem" kw = Err IndexError.
Proof. exact bad_index. Qed.
Print Assumptions C57_bad_index.

(** A shaft from -3 to 1 and blades between -1 and 0: the triangle at the far end is tail. *)
Example C57_example :
  let sh := mkMesh [(-3, 0, 0); (-3, 1, 0); (-3, 0, 1); (0, 0, 0); (1, 0, 0); (0, 1, 0); (0, 0, 0)] [(0, 1, 2); (3, 4, 5); (6, 5, 4)]%nat in
  let bl := mkMesh [(-1, 0, 0); (0, 0, 0); (0, 5, 0)] [(0, 1, 2)]%nat in
  let kw := [("shaft_name", "hub"); ("blades_name", "wing")]%string in
  NoDup (map fst kw) /\ region_name kw "blades_name" "blades" "wing" /\ region_name kw "shafttail_name" "shaftTail" "shaftTail" /\
  valid_mesh sh /\ valid_mesh bl /\ extent bl (-1) 0 /\
  all_corners sh (fun x => -1 <= x) (3, 4, 5)%nat /\ ~ all_corners sh (fun x => -1 <= x) (0, 1, 2)%nat.
Proof.
  cbv zeta. split; [repeat constructor; cbn; intros H; repeat (destruct H as [H|H]; [discriminate|]); exact H|].
  split; [left; cbn; auto|]. split; [right; split; [reflexivity|cbn; intros v H; repeat (destruct H as [H|H]; [discriminate|]); exact H]|].
  split; [split; [discriminate|]; repeat constructor|]. split; [split; [discriminate|]; repeat constructor|].
  split; [|split].
  - split; [exists (-1, 0, 0); cbn; auto|]. split; [exists (0, 0, 0); cbn; auto|].
    intros p [<-|[<-|[<-|[]]]]; cbn; lra.
  - exists (0, 0, 0), (1, 0, 0), (0, 1, 0). cbn. repeat split; lra.
  - intros (a & b & c & (A & B & C) & S & _). cbn in A. injection A as <-. cbn in S. lra.
Qed.

(** ** C58 *)
Theorem C58_obj_exports_unusable : forall S T surface (sh : T) st b n refl st' b' (p : propeller S T) h k name sel kw,
  new_propeller surface sh st b n refl = (st', b', Ok p) -> only_methods h ->
  perform k (GenerateObj name sel kw) (after h p) = (after h p, [], Err AttributeError) /\
  perform k (GenerateObjBlades name) (after h p) = (after h p, [], Err AttributeError).
Proof. exact obj_unusable. Qed.
Print Assumptions C58_obj_exports_unusable.

(** With the two attributes assigned by the user the file is the merged mesh of C57. *)
Theorem C58_assigned_attributes : forall S T (k : cad S T) p name sel kw ss bs ms mb o, shaft_solid p = Some ss -> blades_solid p = Some bs ->
  (forall f, writable k f = true) -> mesh_of k ss = Ok ms -> mesh_of k bs = Ok mb -> merge_meshes ms mb sel kw = Ok o ->
  perform k (GenerateObj name sel kw) p =
    (p, [("/tmp/temp_shaft.stl"%string, Stl ss); ("/tmp/temp_blades.stl"%string, Stl bs); (name, Obj o)], Ok Nothing).
Proof. exact obj_assigned. Qed.
Print Assumptions C58_assigned_attributes.

(** When merging fails (unknown selector) the two temporary files remain and the file is not written. *)
Theorem C58_failed_merge : forall S T (k : cad S T) p name sel kw ss bs ms mb e, shaft_solid p = Some ss -> blades_solid p = Some bs ->
  (forall f, writable k f = true) -> mesh_of k ss = Ok ms -> mesh_of k bs = Ok mb -> merge_meshes ms mb sel kw = Err e ->
  perform k (GenerateObj name sel kw) p =
    (p, [("/tmp/temp_shaft.stl"%string, Stl ss); ("/tmp/temp_blades.stl"%string, Stl bs)], Err e).
Proof. exact obj_failed. Qed.
Print Assumptions C58_failed_merge.

Theorem C58_shaft_only : forall S T (k : cad S T) p name sel kw ss ms, shaft_solid p = Some ss -> blades_solid p = None ->
  (forall f, writable k f = true) -> mesh_of k ss = Ok ms ->
  perform k (GenerateObj name sel kw) p = (p, [("/tmp/temp_shaft.stl"%string, Stl ss)], Err AttributeError).
Proof. exact obj_half_assigned. Qed.
Print Assumptions C58_shaft_only.

Theorem C58_blades_assigned : forall S T (k : cad S T) p name bs mb o, blades_solid p = Some bs ->
  (forall f, writable k f = true) -> mesh_of k bs = Ok mb -> blades_object mb = Ok o ->
  perform k (GenerateObjBlades name) p = (p, [("/tmp/temp_blades.stl"%string, Stl bs); (name, Obj o)], Ok Nothing).
Proof. exact obj_blades_assigned. Qed.
Print Assumptions C58_blades_assigned.

Example C58_example : exists st' b' (p : propeller nat nat),
  new_propeller point_surface 7%nat foil_store two_blade (PyInt 2) false = (st', b', Ok p) /\
  forall k, only_methods [(k, Shape_); (k, ExportStl "a.stl"); (k, AssignShaft 9%nat)] /\
    (exists ss bs, shaft_solid (after [(k, AssignShaftSolid 1%nat); (k, AssignBladesSolid 2%nat)] p) = Some ss /\
                   blades_solid (after [(k, AssignShaftSolid 1%nat); (k, AssignBladesSolid 2%nat)] p) = Some bs).
Proof.
  destruct (two_blade_built false) as (st' & b' & H). destruct (new_propeller_ok nat nat _ 7%nat _ _ 2 _ _ _ H) as (p & E & _).
  exists st', b', p. split; [exact E|]. intros k. split; [repeat constructor|]. exists 1%nat, 2%nat. split; reflexivity.
Qed.
