(** The model with binary64 numbers against the parameter files of the repository: the
    files are read, and written again, by the model. *)
From Coq Require Import String List Ascii ZArith.
From Verif Require Import Base TextModel ParamsModel ParamsSpec PpgFloatModel FloatModel ReprModel ValidParamsData.
Import ListNotations.

Definition fresh64 : params b64 := new_params b64 codec64.
Definition rewritten (t : list ascii) : option (list ascii) :=
  match load b64 codec64 fresh64 t with
  | (p, Ok _) => Some (show_params b64 codec64 p)
  | _ => None
  end.
(** tests/test_datasets/parameters.prm, bladex/parameter_files/pptc.prm and default.prm are
    written again byte for byte. *)
Example rewrite_parameters : rewritten file_parameters = Some file_parameters.
Proof. vm_compute. reflexivity. Qed.
Example rewrite_pptc : rewritten file_pptc = Some file_pptc.
Proof. vm_compute. reflexivity. Qed.
Example rewrite_default : rewritten file_default = Some file_default.
Proof. vm_compute. reflexivity. Qed.
(** The default radii and zeros, printed by the model: bladex/parameter_files/default.prm. *)
Example write_default :
  match check_params b64 codec64 (set_radii b64 fresh64 (Some (c_arange codec64))) with
  | (p, Ok _) => Some (show_params b64 codec64 p)
  | _ => None
  end = Some file_default.
Proof. vm_compute. reflexivity. Qed.
(** test_params.py 137-165. *)
Example read_corrupted64 : Forall (fun t => snd (load b64 codec64 fresh64 t) = Err ValueError)
  [file_corrupt_1; file_corrupt_2; file_corrupt_3; file_corrupt_4; file_corrupt_5; file_corrupt_6].
Proof. repeat (constructor; [vm_compute; reflexivity|]). constructor. Qed.
