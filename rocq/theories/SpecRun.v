(** Vocabulary for the identification runs. *)
From Coq Require Import String.
From Coq Require Import Bool Arith List ZArith Sorted.
From Verif Require Import BasePy BaseFld BaseOrd BaseSum BaseMat BaseLin SpecLS.
Import ListNotations.
Close Scope string_scope.
Local Open Scope K_scope.

Section SpecRun.
Context {K : Type} {O : Ops K}.

(** currents = voltages times Y, up to a constant for each measured current *)
Definition explained (T n m : nat) (V Y I : mat K) (c : nat -> K) : Prop :=
  shape V T n /\ shape Y n m /\ shape I T m /\
  forall t j, (t < T)%nat -> (j < m)%nat -> get I t j = sumn n (fun k => get V t k * get Y k j) + c j.
Definition zero_column_sums (n m : nat) (Y : mat K) : Prop := forall j, (j < m)%nat -> sumn n (fun k => get Y k j) = 0.

(** the same measurements with a constant added to every column *)
Definition shifted (m : mat K) (c : nat -> K) : mat K := mk (nr m) (nc m) (fun t j => get m t j + c j).

(** [idx] lists, in increasing order, the positions of label [p] *)
Definition positions_of (ids : list Z) (p : Z) (idx : list nat) : Prop :=
  StronglySorted lt idx /\ forall a, In a idx <-> nth_error ids a = Some p.
(** [b] is the block of [m] in the rows and columns of label [p] *)
Definition block (ids : list Z) (p : Z) (m b : mat K) : Prop :=
  forall idx, positions_of ids p idx -> shape b (length idx) (length idx) /\
    forall r s, (r < length idx)%nat -> (s < length idx)%nat -> get b r s = get m (nth r idx 0%nat) (nth s idx 0%nat).
(** the columns of label [p] *)
Definition columns_of (ids : list Z) (p : Z) (m b : mat K) : Prop :=
  forall idx, positions_of ids p idx -> shape b (nr m) (length idx) /\
    forall t s, (t < nr m)%nat -> (s < length idx)%nat -> get b t s = get m t (nth s idx 0%nat).
(** nothing between two different labels, nothing for other labels than those listed *)
Definition no_cross (ids : list Z) (labels : list Z) (m : mat K) : Prop :=
  forall a b p q, nth_error ids a = Some p -> nth_error ids b = Some q -> p <> q \/ ~ In p labels -> get m a b = 0.
End SpecRun.

(** contracts of the external routines pinv and svd on the data of one run *)
Definition routines {K : Type} {O : Ops K} {O2 : OrdOps K} (pinv : mat (cplx K) -> mat (cplx K))
  (svd : mat (cplx K) -> mat (cplx K) * list K * mat (cplx K)) (T n m : nat) (V I : mat (cplx K)) : Prop :=
  penrose T n V (pinv V) /\ let '(u, s, vh) := svd (hstack2 V I) in is_svd T (n + m) (hstack2 V I) u s vh.

(** the phases identify_network.py says it supports *)
Definition supported_phases (sequence : bool) : list string :=
  if sequence then ["012"; "0"; "1"; "2"]%string else ["123"; "1"; "2"; "3"]%string.
