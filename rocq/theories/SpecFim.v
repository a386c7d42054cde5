(** Specification of the uncertainty analysis. *)
From Coq Require Import Arith List Reals.
From Verif Require Import BasePy BaseFld BaseSum BaseMat.
Local Open Scope nat_scope.

Section SpecFim.
Context {K : Type} {O : Ops K}.
(** the columns of a T-by-n array are linearly independent *)
Definition independent_columns (T n : nat) (f : nat -> nat -> K) : Prop :=
  forall u : nat -> K, (forall t, t < T -> sumn n (fun k => (f t k * u k)%K) = 0%K) -> forall k, k < n -> u k = 0%K.
End SpecFim.

(** [x] is [v] minus one number, the mean of all entries *)
Definition minus_one_mean (v x : mat C) : Prop :=
  shape x (nr v) (nc v) /\ exists m : C, (forall t k, t < nr v -> k < nc v -> get x t k = (get v t k - m)%K) /\
    (sumn (nr v) (fun t => sumn (nc v) (fun k => get x t k)) = 0)%K.
(** [x] is [v] minus a number for each column, the mean of the column *)
Definition minus_means (v x : mat C) : Prop :=
  shape x (nr v) (nc v) /\ exists m : nat -> C, (forall t k, t < nr v -> k < nc v -> get x t k = (get v t k - m k)%K) /\
    forall k, k < nc v -> (sumn (nr v) (fun t => get x t k) = 0)%K.

Local Open Scope R_scope.
(** distance of a sample from the parameters, relative to their size *)
Definition size (y : list R) : R := sqrt (sumn (length y) (fun k => vget y k * vget y k)).
Definition distance (s y : list R) : R := sqrt (sumn (length y) (fun k => (vget s k - vget y k) * (vget s k - vget y k))).
(** mean and root mean square of the relative errors of the samples *)
Definition mean_error (samples : list (list R)) (y : list R) : R :=
  sumn (length samples) (fun k => distance (nth k samples nil) y / size y) / INR (length samples).
Definition rms_error (samples : list (list R)) (y : list R) : R :=
  sqrt (sumn (length samples) (fun k => (distance (nth k samples nil) y / size y) * (distance (nth k samples nil) y / size y)) / INR (length samples)).
(** the voltages from which the information is computed *)
Definition centred_data (laplacian : bool) (v x : mat C) : Prop := if laplacian then minus_one_mean v x else minus_means v x.
(** real and imaginary parts of the voltages at the nodes are linearly independent *)
Definition informative (T n : nat) (x : mat C) : Prop :=
  independent_columns T n (fun t k => re (get x t k)) /\ independent_columns T n (fun t k => im (get x t k)).
