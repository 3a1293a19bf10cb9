(** Five-digit NACA foils in binary64. *)
From Coq Require Import Reals ZArith List Lra Lia Bool Sorted.
From Flocq Require Import Core BinarySingleNaN.
From Verif Require Import Base PpgFloatModel PpgFloatProofs ProfileModel FloatModel FloatSpec FloatProofs ShapeFloatModel ShapeFloatSpec ShapeFloatProofs SectionFloatModel SectionFloatSpec SectionFloatProofs SectionFloatProofs4 NacaModel NacaSpec NacaBounds NacaProofs NacaProofs2 NacaFloatModel NacaFloatSpec NacaFloatProofs NacaFloatProofs2 NacaFloatProofs3 NacaFloatProofs4 NacaFloatProofs5 NacaFloatProofs7 NacaFiveModel NacaFiveSpec NacaFiveProofs.
Import ListNotations.
Open Scope R_scope.

(** ** The tables *)
Lemma table_bounds : forall (reflex : bool) b m k, tabulated reflex b -> Rabs (m - junction5 reflex b) <= / 2 ^ 30 -> Rabs (k - strength5 reflex b) <= / 2 ^ 10 ->
  0 <= k <= 400 /\ 1 / 100 <= m <= 1 / 2 /\ k * m ^ 2 <= 5 / 4.
Proof.
  intros reflex b m k T HM HK. apply Rabs_le_inv in HM. apply Rabs_le_inv in HK.
  assert (S : forall m0 k0, 5 / 100 <= m0 <= 45 / 100 -> 3 <= k0 <= 362 -> (k0 + / 2 ^ 10) * (m0 + / 2 ^ 30) ^ 2 <= 5 / 4 -> m0 - / 2 ^ 30 <= m <= m0 + / 2 ^ 30 -> k0 - / 2 ^ 10 <= k <= k0 + / 2 ^ 10 -> 0 <= k <= 400 /\ 1 / 100 <= m <= 1 / 2 /\ k * m ^ 2 <= 5 / 4).
  { intros m0 k0 A B C D E. split; [lra|]. split; [lra|]. eapply Rle_trans; [|exact C]. apply Rmult_le_compat; try lra. apply pow2_ge_0. apply pow_incr. lra. }
  unfold tabulated in T. destruct reflex; unfold strength5, junction5 in *.
  - rewrite k_ref in HK by lia. rewrite m_ref in HM by lia. assert (b = 2 \/ b = 3 \/ b = 4 \/ b = 5)%nat as C by lia. destruct C as [->|[->|[->| ->]]]; cbn [nth Nat.sub] in *.
    + apply (S (13 / 100) (5199 / 100)); lra.
    + apply (S (217 / 1000) (15793 / 1000)); lra.
    + apply (S (318 / 1000) (163 / 25)); lra.
    + apply (S (441 / 1000) (3191 / 1000)); lra.
  - rewrite k_std in HK by lia. rewrite m_std in HM by lia. assert (b = 1 \/ b = 2 \/ b = 3 \/ b = 4 \/ b = 5)%nat as C by lia. destruct C as [->|[->|[->|[->| ->]]]]; cbn [nth Nat.sub] in *.
    + apply (S (58 / 1000) (1807 / 5)); lra.
    + apply (S (126 / 1000) (1291 / 25)); lra.
    + apply (S (2025 / 10000) (15957 / 1000)); lra.
    + apply (S (29 / 100) (6643 / 1000)); lra.
    + apply (S (391 / 1000) (323 / 100)); lra.
Qed.

(** ** The digits *)
Lemma place : forall b, (b <= 9)%nat -> let p := fdiv64 (fmul five64 (of_int (Z.of_nat b))) hundred64 in
  finite p = true /\ Rabs (val p - 5 * INR b / 100) <= / 2 ^ 50 /\ Beqb p zero64 = Nat.eqb b 0.
Proof.
  intros b B p. destruct (of_int_val (Z.of_nat b) ltac:(lia)) as (VB & FB). rewrite <- INR_IZR_INZ in VB. destruct five_val as (V5 & F5). destruct hundred_val as (V & F). pose proof huge_big. pose proof (pos_INR b) as P.
  assert (B9 : INR b <= 9) by (replace 9 with (INR 9) by (cbn; lra); apply le_INR; auto).
  assert (N5 : near (5 * INR b) 46 (fmul five64 (of_int (Z.of_nat b)))) by (rewrite <- V5, <- VB; apply near_mul with (k1 := 0) (k2 := 0) (U := 5) (V := 9); auto using near_exact; try lra; rewrite ?V5, ?VB; apply Rabs_le; lra).
  assert (N : near (5 * INR b / 100) 1 p). { unfold p. rewrite <- V. apply near_div with (k := 46) (U := 45); auto; rewrite ?V; try lra. apply Rabs_le; lra. }
  destruct N as (FP & E). split; auto. assert (E' : Rabs (val p - 5 * INR b / 100) <= / 2 ^ 50) by (rewrite eps_val in E; lra). split; auto.
  assert (EB : Beqb p zero64 = Req_bool (val p) 0) by (apply (@Beqb_correct 53 1024); auto). destruct (Nat.eqb_spec b 0) as [Z|Z].
  - unfold p. rewrite Z. vm_compute. reflexivity.
  - rewrite EB. apply Req_bool_false. assert (1 <= INR b) by (apply (le_INR 1); lia). apply Rabs_le_inv in E'. lra.
Qed.
Lemma kind : forall reflex, (if Beqb (of_int (Z.of_nat (third reflex))) one64 then Ok true else if Beqb (of_int (Z.of_nat (third reflex))) zero64 then Ok false else Err ValueError) = Ok reflex.
Proof. intros []; vm_compute; reflexivity. Qed.
Lemma lift : forall a, digit a -> near (INR a / 2) 10 (fdiv64 (fmul (of_int (Z.of_nat a)) c15_64) c30_64) /\ 0 <= INR a / 2 <= 9 / 2.
Proof.
  intros a A. unfold digit in A. destruct (of_int_val (Z.of_nat a) ltac:(lia)) as (VA & FA). rewrite <- INR_IZR_INZ in VA. destruct c15_val as (V & F). destruct c30_val as (V3 & F3). pose proof (pos_INR a).
  assert (A9 : INR a <= 9) by (replace 9 with (INR 9) by (cbn; lra); apply le_INR; auto). split; [|lra].
  replace (INR a / 2) with (INR a * val c15_64 / val c30_64) by (rewrite V, V3; field). apply near_div with (k := 137 / 100) (U := 136 / 100); auto; rewrite ?V3; try lra.
  - rewrite <- VA at 1. apply near_mul with (k1 := 0) (k2 := 0) (U := 9) (V := 151 / 1000); auto using near_exact; try lra; rewrite ?VA, ?V; apply Rabs_le; lra.
  - rewrite V. apply Rabs_le. lra.
Qed.

(** ** The foil *)
Definition close5 (a b c d : nat) (cosine : bool) (k m x : R) (xu xd yu yd : b64) : Prop :=
  let h := half4 c d x in let th := angle5 b cosine k m x in let C := camber5 a b cosine k m x in
  near (x - h * sin th) 90 xu /\ near (x + h * sin th) 90 xd /\ near (C + h * cos th) 160 yu /\ near (C - h * cos th) 160 yd.
Definition library5 (reflex : bool) (b : nat) (k m : R) : Prop :=
  b <> 0%nat -> Rabs (m - junction5 reflex b) <= / 2 ^ 30 /\ Rabs (k - strength5 reflex b) <= / 2 ^ 10.
Lemma foil5_points : forall L S a b reflex c d cosine n, naca5_input L S a b reflex c d n ->
  exists XU XD YU YD m k, naca_foil5_64 L S a b (third reflex) c d cosine n = Ok (mkF (map XU (linspace64 n)) (map XD (linspace64 n)) (map YU (linspace64 n)) (map YD (linspace64 n))) /\
    point_facts (thickness_of c d) (cosine = false \/ b = 0%nat) XU XD YU YD /\ library5 reflex b k m /\
    forall x, finite x = true -> 0 <= val x <= 1 -> close5 a b c d cosine k m (val x) (XU x) (XD x) (YU x) (YD x).
Proof.
  intros L S a b reflex c d cosine n (G & GS & A & B & C & D & N & M). pose proof (thick_near L c d) as TN.
  assert (B9 : (b <= 9)%nat) by (destruct B as [->|B]; [lia|]; unfold tabulated in B; destruct reflex; lia).
  destruct (place b B9) as (Fp & Ep & Zp). destruct (lift a A) as (NR & BR). destruct hundred_val as (V100 & F100).
  assert (TB : finite (thickness_of c d) = true /\ 0 <= val (thickness_of c d) <= 1).
  { destruct (thickness_val c d C D) as (ET & RT & _). unfold digit in C, D. destruct (quotient_val (10 * c + d) hundred64 100 F100 V100 ltac:(lra) ltac:(lia)) as (Ft & _). split; [exact Ft|].
    apply Rabs_le_inv in ET. assert (0 <= eps * (INR (10 * c + d) / 100) <= / 1000 * (INR (10 * c + d) / 100)) by (pose proof eps_bounds; split; [apply Rmult_le_pos; lra|apply Rmult_le_compat_r; [lra|rewrite eps_val; lra]]). lra. }
  destruct TB as (Ft & Bt). unfold naca_foil5_64, naca5_64. rewrite kind. cbn [bind]. fold (thickness_of c d). rewrite Zp. set (t := thickness_of c d) in *. destruct b as [|b].
  - cbn [Nat.eqb]. exists (fun x => x), (fun x => x), (half_thickness64 L t), (fun x => fneg (half_thickness64 L t x)), 0, 0. rewrite map_id, map_map. split; auto. split; [apply symmetric_points; auto|]. split; [intros Q; congruence|].
    intros x Fx Bx. destruct (TN x G C D Fx Bx) as (H & HB). unfold close5, angle5, camber5. cbn [Nat.eqb orb]. rewrite sin_0, cos_0, Rmult_0_r, Rmult_1_r, Rminus_0_r, Rplus_0_r, Rplus_0_l.
    assert (X : near (val x) 90 x) by (apply near_weaken with 0; [apply near_exact; auto|lra]). split; [exact X|]. split; [exact X|]. split; [apply near_weaken with 65; [exact H|lra]|].
    destruct H as (F & E). split; [rewrite fneg_finite; auto|]. rewrite fneg_val. replace (- val (half_thickness64 L t x) - (0 - half4 c d (val x))) with (- (val (half_thickness64 L t x) - half4 c d (val x))) by ring. rewrite Rabs_Ropp. pose proof eps_bounds. fold t in E. lra.
  - cbn [Nat.eqb]. destruct B as [B|B]; [discriminate|]. destruct (GS reflex (Datatypes.S b) B) as (GJ & GK). set (p := fdiv64 (fmul five64 (of_int (Z.of_nat (Datatypes.S b)))) hundred64) in *.
    destruct (GJ p Fp Ep) as (Fm & Em). set (m := junction64 S reflex p) in *. destruct (GK m Fm Em) as (Fk & Ek). set (k := strength64 S reflex m) in *.
    destruct (table_bounds _ _ _ _ B Em Ek) as (Bk & Bm & Bkm). unfold real in Bk, Bm, Bkm, Em, Ek. fold (val m) in Bm, Bkm, Em. fold (val k) in Bk, Bkm, Ek.
    destruct (stations_sorted n N M) as (SS & FS). rewrite !(split_map _ _ m) by auto. fold (cam5 L k m).
    pose proof (cam5_near L k m G Fk Fm Bk Bm Bkm) as CN. pose proof (angles5 L k m G Fk Fm Bk Bm Bkm) as AN.
    assert (CZ : forall x, finite x = true -> val x = 0 -> val (cam5 L k m x) = 0) by (intros; apply (cam5_zero L k m); auto).
    assert (CO : val (cam5 L k m one64) = 0) by (apply (cam5_one L k m); auto).
    assert (CS : forall x, finite x = true -> 0 <= val x <= 1 -> small 1 (cam5 L k m x)). { intros x Fx Bx. destruct (CN x Fx Bx) as (NC & BC). apply small_weaken with (1 / 2 + / 1000); [|lra]. apply (near_size _ _ _ _ NC); [lra|exact BC]. }
    destruct cosine.
    + set (r := fdiv64 (fmul (of_int (Z.of_nat a)) c15_64) c30_64) in *. rewrite !map_map. repeat (rewrite ?vzip_maps, ?vzip_left; cbn [bind]). do 4 eexists. exists (val m), (val k). split; [reflexivity|]. cbv beta.
      set (zc := fun x => fmul r (cam5 L k m x)).
      assert (ZN : forall x, finite x = true -> 0 <= val x <= 1 -> near (INR a / 2 * camber_line5 (val k) (val m) (val x)) 62 (zc x) /\ Rabs (INR a / 2 * camber_line5 (val k) (val m) (val x)) <= 9 / 4).
      { intros x Fx Bx. destruct (CN x Fx Bx) as (NC & BC). split; [apply near_mul with (k1 := 10) (k2 := 12) (U := 9 / 2) (V := 1 / 2); auto; try lra; apply Rabs_le; lra|].
        rewrite Rabs_mult. apply Rle_trans with (9 / 2 * (1 / 2)); [|lra]. apply Rmult_le_compat; auto using Rabs_pos. apply Rabs_le; lra. }
      assert (SR : small 5 r). { apply small_weaken with (9 / 2 + / 1000); [|lra]. apply (near_size _ _ _ _ NR); [lra|]. apply Rabs_le; lra. }
      assert (ZS : forall x, finite x = true -> 0 <= val x <= 1 -> small 20 (zc x)). { intros x Fx Bx. destruct (ZN x Fx Bx) as (NC & BC). apply small_weaken with (9 / 4 + / 1000); [|lra]. apply (near_size _ _ _ _ NC); [lra|exact BC]. }
      assert (Z0 : forall x, finite x = true -> val x = 0 -> val (zc x) = 0). { intros x Fx V. refine (proj1 (zero_mul 5 _ _ SR _ (CZ x Fx V))). apply CS; auto. lra. }
      assert (Z1 : val (zc one64) = 0). { destruct one_val as (V1 & F1). refine (proj1 (zero_mul 5 _ _ SR _ CO)). apply CS; auto. lra. }
      split; [|split; [intros _; auto|]].
      * pose proof (cosine_points L t G Ft Bt zc ZS Z0 Z1 (sin5 L k m) (cos5 L k m) (fun x Fx Bx => proj2 (proj2 (AN x Fx Bx)))) as (_ & K2 & K3 & _ & K5).
        split; [intros [?|?]; discriminate|]. split; [exact K2|]. split; [exact K3|]. split; [intros [?|?]; discriminate|]. intros T. destruct (K5 T) as (Q1 & Q2 & Q3 & Q4 & Q5 & _). do 5 (split; [assumption|]). intros [?|?]; discriminate.
      * intros x Fx Bx. destruct (TN x G C D Fx Bx) as (H & HB). destruct (ZN x Fx Bx) as (NC & BC). destruct (AN x Fx Bx) as (NS & NN & _).
        unfold close5, angle5, camber5. cbn [Nat.eqb orb negb]. set (th := atan (slope_line5 (val k) (val m) (val x))) in *. set (h := half4 c d (val x)) in *. set (C4 := INR a / 2 * camber_line5 (val k) (val m) (val x)) in *.
        pose proof (SIN_bound th) as SB. pose proof (COS_bound th) as KB.
        assert (HS : Rabs (h * sin th) <= 55 / 100) by (rewrite Rabs_mult, <- (Rmult_1_r (55 / 100)); apply Rmult_le_compat; auto using Rabs_pos; apply Rabs_le; lra).
        assert (HC : Rabs (h * cos th) <= 55 / 100) by (rewrite Rabs_mult, <- (Rmult_1_r (55 / 100)); apply Rmult_le_compat; auto using Rabs_pos; apply Rabs_le; lra).
        assert (N1 : near (h * sin th) 85 (fmul (half_thickness64 L t x) (sin5 L k m x))) by (apply near_mul with (k1 := 65) (k2 := 34) (U := 55 / 100) (V := 1); auto; try lra; apply Rabs_le; lra).
        assert (N2 : near (h * cos th) 85 (fmul (half_thickness64 L t x) (cos5 L k m x))) by (apply near_mul with (k1 := 65) (k2 := 34) (U := 55 / 100) (V := 1); auto; try lra; apply Rabs_le; lra).
        apply Rabs_le_inv in HS. apply Rabs_le_inv in HC. apply Rabs_le_inv in BC.
        split; [apply near_sub with (k1 := 0) (k2 := 85) (W := 2); auto using near_exact; try lra; apply Rabs_le; lra|].
        split; [apply near_add with (k1 := 0) (k2 := 85) (W := 2); auto using near_exact; try lra; apply Rabs_le; lra|].
        split; [apply near_add with (k1 := 62) (k2 := 85) (W := 3); auto; try lra; apply Rabs_le; lra|apply near_sub with (k1 := 62) (k2 := 85) (W := 3); auto; try lra; apply Rabs_le; lra].
    + rewrite !vzip_maps. cbn [bind]. exists (fun x => x), (fun x => x), (fun x => fadd (cam5 L k m x) (half_thickness64 L t x)), (fun x => fsub (cam5 L k m x) (half_thickness64 L t x)), (val m), (val k). rewrite map_id. split; auto.
      split; [|split; [intros _; auto|]].
      * apply linear_points; auto. intros x Fx Bx. apply small_weaken with 1; [auto|lra].
      * intros x Fx Bx. destruct (TN x G C D Fx Bx) as (H & HB). destruct (CN x Fx Bx) as (NC & BC).
        unfold close5, angle5, camber5. cbn [Nat.eqb orb negb]. rewrite sin_0, cos_0, Rmult_0_r, Rmult_1_r, Rminus_0_r, Rplus_0_r, Rmult_1_l.
        set (C4 := camber_line5 (val k) (val m) (val x)) in *. set (h := half4 c d (val x)) in *. apply Rabs_le_inv in BC.
        assert (X : near (val x) 90 x) by (apply near_weaken with 0; [apply near_exact; auto|lra]). split; [exact X|]. split; [exact X|].
        split; [apply near_add with (k1 := 12) (k2 := 65) (W := 2); auto; try lra; apply Rabs_le; lra|apply near_sub with (k1 := 12) (k2 := 65) (W := 2); auto; try lra; apply Rabs_le; lra].
Qed.
