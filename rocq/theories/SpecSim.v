(** Vocabulary for simulated measurement noise. *)
From Coq Require Import List ZArith Reals.
From Verif Require Import BasePy BaseFld BaseSum BaseMat ModelErrorMetrics ModelNoiseCov SpecNoise.
Import ListNotations.
Local Open Scope R_scope.

(** A standard deviation argument that asks for no noise on [n] variables *)
Definition no_noise (n : nat) (sd : sdarg) : Prop :=
  sd = SdFloat 0 \/ sd = SdScalar 0 \/ sd = SdArray [0] \/ sd = SdArray (repeat 0 n) /\ (0 < n)%nat.

(** The standard deviation an argument asks for, variable by variable *)
Inductive asks (n : nat) : sdarg -> (nat -> R) -> Prop :=
| asks_float : forall x, asks n (SdFloat x) (fun _ => x)
| asks_scalar : forall x, asks n (SdScalar x) (fun _ => x)
| asks_one : forall x, asks n (SdArray [x]) (fun _ => x)
| asks_each : forall l, length l = n -> (1 < n)%nat -> asks n (SdArray l) (vget l).

(** The phasor with polar coordinates (m, f) *)
Definition phasor (m f : R) : C := Cx (m * cos f) (m * sin f).

(** Mean over the samples of the absolute values of a part of variable [i] *)
Definition mean_abs (part : C -> R) (M : mat C) (i : nat) : R := sumn (nr M) (fun t => Rabs (part (get M t i))) / INR (nr M).

(** [N] is [M] with independent Cartesian noise of the given relative accuracy (three standard deviations): [G] and [H] are the draws *)
Definition cartesian_noise (acc : R) (M N : mat C) : Prop :=
  shape N (nr M) (nc M) /\ exists G H : mat R, shape G (nr M) (nc M) /\ shape H (nr M) (nc M) /\
  forall t i, (t < nr M)%nat -> (i < nc M)%nat ->
    re (get N t i) = re (get M t i) + mean_abs re M i * acc / 3 * get G t i /\
    im (get N t i) = im (get M t i) + mean_abs im M i * acc / 3 * get H t i.
(** [N] is [M] with the polar noise the code makes: both deviations relative *)
Definition polar_noise_form (m p : nat -> R) (M N : mat C) : Prop :=
  shape N (nr M) (nc M) /\ exists G H : mat R, shape G (nr M) (nc M) /\ shape H (nr M) (nc M) /\
  forall t i, (t < nr M)%nat -> (i < nc M)%nat ->
    get N t i = phasor (cabs (get M t i) * (1 + m i * get G t i)) (angle (get M t i) * (1 + p i * get H t i)).
