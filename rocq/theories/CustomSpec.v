(** Vocabulary of the CustomProfile properties; nothing here occurs in the model. *)
From Coq Require Import Reals List String.
From Verif Require Import Base ProfileModel ProfileSpec CustomModel.
Import ListNotations.
Open Scope R_scope.

(** The caller passes exactly these keywords. *)
Definition has_keys (kw : kwargs) (names : list string) : Prop :=
  NoDup (map fst kw) /\ forall k, In k (map fst kw) <-> In k names.
(** No scalar in a coordinate call. *)
Definition arrays_or_none (kw : kwargs) : Prop :=
  forall k v, In (k, v) kw -> v = KNone \/ exists l, v = KArr l.
(** Keyword arguments of the two documented calls. *)
Definition coordinate_call (kw : kwargs) (p : profile) : Prop :=
  has_keys kw coord_keys /\
  In ("xup"%string, KArr (xup p)) kw /\ In ("xdown"%string, KArr (xdown p)) kw /\
  In ("yup"%string, KArr (yup p)) kw /\ In ("ydown"%string, KArr (ydown p)) kw.
Definition parameter_call (kw : kwargs) (q : params) : Prop :=
  has_keys kw param_keys /\
  In ("chord_perc"%string, KArr (chord_percentage q)) kw /\
  In ("camber_perc"%string, KArr (camber_percentage q)) kw /\
  In ("thickness_perc"%string, KArr (thickness_percentage q)) kw /\
  In ("camber_max"%string, KNum (camber_max q)) kw /\
  In ("thickness_max"%string, KNum (thickness_max q)) kw /\
  In ("chord_len"%string, KNum (chord_length q)) kw.

(** a agrees with the reference value b. *)
Definition near (a b : R) : Prop := Rabs (a - b) <= 1 / 1000000 + 1 / 100000 * Rabs b.
(** Consistent non-empty coordinate arrays, upper and lower surfaces equally
    long: interior points ordered, end points agreeing. *)
Definition consistent (p : profile) : Prop :=
  (forall i u d, (0 < i)%nat -> (S i < List.length (yup p))%nat ->
     nth_error (yup p) i = Some u -> nth_error (ydown p) i = Some d -> d <= u) /\
  near (hd 0 (xdown p)) (hd 0 (xup p)) /\ near (last (xdown p) 0) (last (xup p) 0) /\
  near (hd 0 (ydown p)) (hd 0 (yup p)) /\ near (last (ydown p) 0) (last (yup p) 0).

(** Non-negative maxima and equally long percentages. *)
Definition consistent_params (q : params) : Prop :=
  0 <= camber_max q /\ 0 <= thickness_max q /\
  List.length (camber_percentage q) = List.length (chord_percentage q) /\
  List.length (thickness_percentage q) = List.length (chord_percentage q).

(** Normalised parameters: chord stations from 0 (smallest) to 1; camber and
    thickness fractions peak at 1, or vanish together with their maximum;
    camber closes at both ends and thickness at the leading edge. *)
Definition normalised (q : params) : Prop :=
  consistent_params q /\ 0 < chord_length q /\
  hd 1 (chord_percentage q) = 0 /\ last (chord_percentage q) 0 = 1 /\
  (forall x, In x (chord_percentage q) -> 0 <= x) /\
  hd 1 (camber_percentage q) = 0 /\ last (camber_percentage q) 1 = 0 /\
  hd 1 (thickness_percentage q) = 0 /\
  ((0 < camber_max q /\ In 1 (camber_percentage q) /\ forall x, In x (camber_percentage q) -> x <= 1) \/
   (camber_max q = 0 /\ forall x, In x (camber_percentage q) -> x = 0)) /\
  ((0 < thickness_max q /\ In 1 (thickness_percentage q) /\ forall x, In x (thickness_percentage q) -> 0 <= x <= 1) \/
   (thickness_max q = 0 /\ forall x, In x (thickness_percentage q) -> x = 0)).

(** Camber point at station i, in absolute coordinates. *)
Definition camber_point (q : params) (i : nat) : pt :=
  (nth i (chord_percentage q) 0 * chord_length q, nth i (camber_percentage q) 0 * camber_max q).
(** Surface points at station i. *)
Definition up_at (p : profile) (i : nat) : pt := (nth i (xup p) 0, nth i (yup p) 0).
Definition down_at (p : profile) (i : nat) : pt := (nth i (xdown p) 0, nth i (ydown p) 0).
Definition pdot (a b : pt) : R := fst a * fst b + snd a * snd b.
(** At station i the two surface points are symmetric about the camber point,
    at the prescribed distance, and the segment joining them is orthogonal to
    the camber segment arriving at the station (vertical at the first one). *)
Definition orthogonal_at (q : params) (p : profile) (i : nat) : Prop :=
  padd (up_at p i) (down_at p i) = pscale 2 (camber_point q i) /\
  pdist (up_at p i) (down_at p i) = thickness_max q * Rabs (nth i (thickness_percentage q) 0) /\
  match i with
  | O => fst (up_at p i) = fst (down_at p i)
  | S j => pdot (psub (up_at p i) (down_at p i)) (psub (camber_point q i) (camber_point q j)) = 0
  end.
(** Point a is point b shifted down and left by 1e-16. *)
Definition nudged (a b : pt) : Prop := psub b a = (/ 10000000000000000, / 10000000000000000).
(** Every percentage an array or None, every other parameter a number or None. *)
Definition sorts_or_none (kw : kwargs) : Prop :=
  (forall k v, In (k, v) kw -> In k ["chord_perc"; "camber_perc"; "thickness_perc"]%string -> v = KNone \/ exists l, v = KArr l) /\
  (forall k v, In (k, v) kw -> In k ["camber_max"; "thickness_max"; "chord_len"]%string -> v = KNone \/ exists x, v = KNum x).
