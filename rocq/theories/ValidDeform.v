(** The model against tests/test_deform.py. *)
From Coq Require Import Reals String List ZArith Lra Lia.
From Verif Require Import Base SolveModel BsplineModel LstsqModel LstsqProofs LstsqSpec TextModel ParamsModel DeformModel Enclose.
Import ListNotations.
Open Scope R_scope.

(** With six control points and degree 5 there is one interval and the basis
    consists of the Bernstein polynomials. *)
Lemma one_interval : forall x, fpbspl (knot 6 5) x 5 5 =
  [(1 - x) ^ 5; 5 * x * (1 - x) ^ 4; 10 * x ^ 2 * (1 - x) ^ 3; 10 * x ^ 3 * (1 - x) ^ 2; 5 * x ^ 4 * (1 - x); x ^ 5].
Proof.
  intros x. cbv [fpbspl raise_degree knot Nat.min Nat.sub Nat.add INR].
  repeat (destruct (Req_EM_T _ _); [exfalso; lra|]). repeat (f_equal; try field).
Qed.
(** parameters.prm: radii and pitch. *)
Definition file_radii : list R := [3/10; 4/10; 5/10; 6/10; 7/10; 8/10; 9/10; 1].
Definition file_pitch : list R := [14/10; 15/10; 158/100; 16/10; 164/100; 161/100; 15/10; 13/10].
(** The values of the basis at the eight abscissae, in units of 1/7^5. *)
Definition columns : list (list Z) :=
  [[16807; 7776; 3125; 1024; 243; 32; 1; 0];
   [0; 6480; 6250; 3840; 1620; 400; 30; 0];
   [0; 2160; 5000; 5760; 4320; 2000; 360; 0];
   [0; 360; 2000; 4320; 5760; 5000; 2160; 0];
   [0; 30; 400; 1620; 3840; 6250; 6480; 0];
   [0; 1; 32; 243; 1024; 3125; 7776; 16807]]%Z.
Definition column (i : nat) : list R := map (fun z => IZR z / 16807) (nth i columns []).
Lemma one_column : forall i, (i < 6)%nat -> bspline1 (one_hot 6 i) 8 5 = Ok (column i).
Proof.
  intros i I. unfold bspline1. replace (List.length (one_hot 6 i)) with 6%nat by (unfold one_hot; rewrite map_length, seq_length; reflexivity).
  change (Z.to_nat 5) with 5%nat. change (Z.to_nat 8) with 8%nat. cbn [Z.ltb Z.compare Nat.ltb Nat.leb Nat.sub andb INR].
  f_equal. unfold linspace. cbn [seq map Nat.sub INR]. unfold splev1.
  replace (List.length (one_hot 6 i)) with 6%nat by (unfold one_hot; rewrite map_length, seq_length; reflexivity).
  cbn [Nat.sub span skipn]. rewrite !one_interval.
  destruct i as [|[|[|[|[|[|i]]]]]]; [..|lia]; cbv [one_hot seq map Nat.eqb dot column columns nth]; repeat (apply f_equal2; [field; lra|]); reflexivity.
Qed.
Definition near_pt (p : pt) (z : Z * Z) : Prop := near (fst p) (fst z) /\ near (snd p) (snd z).
(** test_deform.py 133-147: pitch_control_points_no_rbf.npy in units of 10^-10. *)
Example recorded_no_rbf : forall n, n = None \/ n = Some (PyInt (-1)) ->
  exists cv, optimum_control_points file_radii file_pitch 5 6 n = Ok cv /\
    Forall2 near_pt cv [(3000000000, 14000000000); (4400000000, 16085220356); (5800000000, 15306995420);
                        (7200000000, 17804445420); (8600000000, 16501153690); (10000000000, 13000000000)]%Z.
Proof.
  intros n N. unfold optimum_control_points, fit_data. replace (0 <? rbf_count n)%Z with false by (destruct N; subst; reflexivity).
  cbn [bind]. change (6 <? 2)%Z with false. change (Z.to_nat 6) with 6%nat. change (List.length file_radii) with 8%nat.
  change (Z.of_nat 8) with 8%Z. cbn [seq mapM bind]. rewrite !one_column by lia. cbn [bind first final removelast tl].
  unfold fit, file_radii, file_pitch. cbn [first final bind]. unfold vzip, column. cbn [List.length Nat.eqb map nth columns].
  cbn [bind map2 List.length Nat.eqb first final].
  match goal with |- context [with_ends _ _ (lstsq ?c ?b1) (lstsq ?c ?b2)] =>
    pose proof (lstsq_normal c b1) as E1; pose proof (lstsq_normal c b2) as E2;
    set (u := lstsq c b1) in *; set (v := lstsq c b2) in * end.
  clearbody u v. cbv zeta in E1, E2.
  destruct E1 as (L1 & E1 & _); [cbn [List.length]; repeat (apply Forall_cons; [exact eq_refl|]); apply Forall_nil|]. destruct E2 as (L2 & E2 & _); [cbn [List.length]; repeat (apply Forall_cons; [exact eq_refl|]); apply Forall_nil|].
  cbn [List.length] in *.
  destruct u as [|u1 [|u2 [|u3 [|u4 [|]]]]]; try discriminate L1. destruct v as [|v1 [|v2 [|v3 [|v4 [|]]]]]; try discriminate L2.
  cbv [comb vscale map2 map zeros repeat] in E1, E2.
  inversion_clear E1 as [|? ? A1 E1']. inversion_clear E1' as [|? ? A2 E1'']. inversion_clear E1'' as [|? ? A3 E1']. inversion_clear E1' as [|? ? A4 _].
  inversion_clear E2 as [|? ? B1 E2']. inversion_clear E2' as [|? ? B2 E2'']. inversion_clear E2'' as [|? ? B3 E2']. inversion_clear E2' as [|? ? B4 _].
  cbn [dot] in *.
  eexists. split; [reflexivity|].
  unfold with_ends. cbn [combine app].
  assert (u1 = 11 / 25) by (clear - A1 A2 A3 A4; lra).
  assert (u2 = 29 / 50) by (clear - A1 A2 A3 A4; lra).
  assert (u3 = 18 / 25) by (clear - A1 A2 A3 A4; lra).
  assert (u4 = 43 / 50) by (clear - A1 A2 A3 A4; lra).
  assert (v1 = 15803729 / 9825000) by (clear - B1 B2 B3 B4; lra).
  assert (v2 = 5013041 / 3275000) by (clear - B1 B2 B3 B4; lra).
  assert (v3 = 46647647 / 26200000) by (clear - B1 B2 B3 B4; lra).
  assert (v4 = 32424767 / 19650000) by (clear - B1 B2 B3 B4; lra).
  clear A1 A2 A3 A4 B1 B2 B3 B4. subst.
  repeat (apply Forall2_cons; [split; unfold near; cbn [fst snd]; apply Rabs_le; split; lra|]). apply Forall2_nil.
Qed.
