(** The model against tests/test_params.py: the files of the repository are read, and
    written again, by the model; the assertions of the tests hold. *)
From Coq Require Import String List Ascii ZArith.
From Verif Require Import Base TextModel ParamsModel ParamsSpec ValidParamsData.
Import ListNotations.
Open Scope Z_scope.

(** Decimals with at most sixteen places, counted in units of 10^-16; enough for every
    number in these files.  Printed as Python prints them: no trailing zero, at least one place. *)
Fixpoint places (fuel : nat) (acc : Z) (s : list ascii) : option Z :=
  match s, fuel with
  | [], _ => Some (acc * 10 ^ Z.of_nat fuel)
  | _, O => None
  | a :: s', S f => match digit_value a with Some d => places f (10 * acc + d) s' | None => None end
  end.
Fixpoint whole (acc : Z) (s : list ascii) : option Z :=
  match s with
  | [] => Some (acc * 10 ^ 16)
  | a :: s' =>
      if Ascii.eqb a "." then match places 16 0 s' with Some f => Some (acc * 10 ^ 16 + f) | None => None end
      else match digit_value a with Some d => whole (10 * acc + d) s' | None => None end
  end.
Definition read_decimal (s : list ascii) : option Z :=
  match strip s with
  | [] => None
  | a :: s' => if Ascii.eqb a "-" then option_map Z.opp (whole 0 s') else whole 0 (a :: s')
  end.
Fixpoint trim (f : nat) (n : Z) : list ascii :=
  match f with
  | S f' => let d := n / 10 ^ Z.of_nat f' in digit_char d :: (if (n mod 10 ^ Z.of_nat f' =? 0) then [] else trim f' (n mod 10 ^ Z.of_nat f'))
  | O => []
  end.
Definition show_decimal (n : Z) : list ascii :=
  (if n <? 0 then ["-"%char] else []) ++ show_nat (Z.abs n / 10 ^ 16) ++ "."%char :: trim 16 (Z.abs n mod 10 ^ 16).
(** [np.arange(0.3, 1.1, 0.1)] in binary64: 0.3 + i * ((0.3 + 0.1) - 0.3). *)
Definition default_radii : list Z :=
  [3000000000000000; 4000000000000000; 5000000000000000; 6000000000000001;
   7000000000000002; 8000000000000003; 9000000000000001; 10000000000000002].
Definition decimals : codec Z :=
  Build_codec Z show_decimal read_decimal 0 default_radii.
Definition thousandths (l : list Z) : list Z := map (fun z => z * 10 ^ 13) l.
Definition units (l : list Z) : list Z := map (fun z => z * 10 ^ 16) l.

Definition fresh : params Z := new_params Z decimals.
(** test_params.py 6-11 and the values asserted in 167-296. *)
Definition expected : params Z :=
  Build_params Z (Some (thousandths [300; 400; 500; 600; 700; 800; 900; 1000]))
    (Build_dict (Some (thousandths [180; 200; 300; 370; 410; 420; 410; 100]))
       (Some (thousandths [1400; 1500; 1580; 1600; 1640; 1610; 1500; 1300]))
       (Some (thousandths [0; 5; 13; 20; 30; 29; 22; 10]))
       (Some (thousandths [3600; -4400; -7400; -7400; -5000; -1300; 4100; 11400]))
       (Some (thousandths [15; 24; 29; 30; 30; 28; 25; 20])))
    (Build_dict 5 6 4 7 5) (Build_dict 3 5 4 3 2) (Build_dict 500 400 300 200 100)
    (Build_dict (units [1; 2; 3; 4; 5]) (units [1; 2; 3; 4; 5; 6]) (units [1; 2; 3; 4])
       (units [7; 6; 5; 4; 3; 2; 1]) (units [5; 4; 3; 2; 1])).

(** test_params.py 167-296. *)
Example read_recorded : load Z decimals fresh file_parameters = (expected, Ok tt).
Proof. vm_compute. reflexivity. Qed.
(** The model writes that file, byte for byte. *)
Example write_recorded : show_params Z decimals expected = file_parameters.
Proof. vm_compute. reflexivity. Qed.
(** test_params.py 137-165. *)
Example read_corrupted : Forall (fun t => snd (load Z decimals fresh t) = Err ValueError)
  [file_corrupt_1; file_corrupt_2; file_corrupt_3; file_corrupt_4; file_corrupt_5; file_corrupt_6].
Proof. repeat (constructor; [vm_compute; reflexivity|]). constructor. Qed.
(** test_params.py 304-327. *)
Example read_pptc : exists p, load Z decimals fresh file_pptc = (p, Ok tt) /\
  (exists r, radii Z p = Some r /\ nth_error r 1 = Some (35 * 10 ^ 14)) /\
  (exists v, d_pitch (parameters Z p) = Some v /\ nth_error v 9 = Some (1458 * 10 ^ 13)) /\
  d_chord (nbasis Z p) = 10 /\ d_rake (degree Z p) = 3 /\ nth_error (d_camber (deformations Z p)) 5 = Some 0.
Proof.
  eexists. split; [vm_compute; reflexivity|]. cbn [radii parameters nbasis degree deformations d_pitch d_chord d_rake d_camber nth_error].
  split; [eexists; split; reflexivity|]. split; [eexists; split; reflexivity|]. split; [reflexivity|]. split; reflexivity.
Qed.
(** It is written again as it was. *)
Example write_pptc : exists p, load Z decimals fresh file_pptc = (p, Ok tt) /\ show_params Z decimals p = file_pptc.
Proof. eexists. split; [vm_compute; reflexivity|]. vm_compute. reflexivity. Qed.
(** test_params.py 329-372. *)
Definition blank : params Z :=
  Build_params Z (Some default_radii) (same_for_all (Some (repeat 0 8)))
    (same_for_all 10) (same_for_all 3) (same_for_all 500) (same_for_all (repeat 0 10)).
Example read_default : load Z decimals fresh file_default = (blank, Ok tt).
Proof. vm_compute. reflexivity. Qed.
(** test_params.py 130-135: reading a file that does not exist makes one; it is
    bladex/parameter_files/default.prm. *)
Example missing_file : forall f, exists fs', read_parameters Z decimals (fun _ => None) fresh (AStr f) = (fs', (blank, Ok tt)) /\
  fs' f = Some file_default.
Proof.
  intros f.
  assert (W : write_parameters Z decimals (fun _ => None) (set_radii Z fresh (Some (c_arange decimals))) (AStr f) =
              (put (fun _ => None) f file_default, (blank, Ok tt))).
  { unfold write_parameters. assert (C : check_params Z decimals (set_radii Z fresh (Some (c_arange decimals))) = (blank, Ok tt)) by (vm_compute; reflexivity).
    assert (T : show_params Z decimals blank = file_default) by (vm_compute; reflexivity). rewrite C, T. reflexivity. }
  assert (S : put (fun _ => None) f file_default f = Some file_default).
  { unfold put, eqb_str. destruct (list_eq_dec ascii_dec f f); [reflexivity|congruence]. }
  exists (put (fun _ => None) f file_default). split; [|exact S]. unfold read_parameters. rewrite W, S.
  assert (T : load Z decimals blank file_default = (blank, Ok tt)) by (vm_compute; reflexivity). rewrite T. reflexivity.
Qed.

(** test_params.py 124-128, 298-302, 374-377. *)
Example write_not_string : forall fs, write_parameters Z decimals fs fresh AOther = (fs, (fresh, Err TypeError)).
Proof. reflexivity. Qed.
Example read_not_string : forall fs, read_parameters Z decimals fs fresh AOther = (fs, (fresh, Err TypeError)).
Proof. reflexivity. Qed.
Example write_no_radii : forall fs f, write_parameters Z decimals fs fresh (AStr f) = (fs, (fresh, Err ValueError)).
Proof. reflexivity. Qed.
(** test_params.py 379-412: missing distributions become zeros. *)
Definition set_parameters (p : params Z) d := Build_params Z (radii Z p) d (nbasis Z p) (degree Z p) (npoints Z p) (deformations Z p).
Definition five : params Z := set_radii Z fresh (Some (units [1; 2; 3; 4; 5])).
Example write_fills_zeros : forall fs f, exists fs' p, write_parameters Z decimals fs five (AStr f) = (fs', (p, Ok tt)) /\
  parameters Z p = same_for_all (Some (repeat 0 5)).
Proof.
  intros. eexists. exists (set_parameters five (same_for_all (Some (repeat 0 5)))). split; [|reflexivity]. reflexivity.
Qed.
(** test_params.py 461-494: four values for five radii. *)
Example write_inhomogeneous : forall fs f, Forall (fun k =>
  snd (snd (write_parameters Z decimals fs (set_parameter Z five k (units [1; 2; 3; 4])) (AStr f))) = Err ValueError) keys.
Proof. intros. repeat (constructor; [reflexivity|]). constructor. Qed.
(** test_params.py 496-502. *)
Example write_seven_for_six : forall fs f,
  snd (snd (write_parameters Z decimals fs (set_deformations Z (set_nbasis Z five Pitch 6) Pitch (repeat 0 7)) (AStr f))) = Err ValueError.
Proof. intros. reflexivity. Qed.
