(** Vocabulary for resampling: time grids, linear interpolation, averages. *)
From Coq Require Import Arith List Bool.
From Verif Require Import BasePy BaseFld BaseOrd BaseSum BaseMat ModelResample.
Import ListNotations.
Local Open Scope K_scope.

Section Spec.
Context {K : Type} {O : Ops K} {O2 : OrdOps K}.
Notation CK := (cplx K).

(** strictly increasing times *)
Definition increasing (x : list K) : Prop :=
  forall i j, (i < j)%nat -> (j < length x)%nat -> vget x i <! vget x j.

(** every new time lies between the first and the last old time *)
Definition within (old new : list K) : Prop :=
  forall v, In v new -> vget old 0 <=! v /\ v <=! vget old (length old - 1).

(** [w] is the value at time [v] of the broken line through the points (x_i, y_i) *)
Definition interpolates (x : list K) (y : nat -> K) (v w : K) : Prop :=
  exists j, (S j < length x)%nat /\ vget x j <=! v /\ v <=! vget x (S j) /\
    w * (vget x (S j) - vget x j) = y j * (vget x (S j) - v) + y (S j) * (v - vget x j).

(** [out] consists of averages of [f] consecutive values of the broken line at the new times *)
Definition averages (M : mat CK) (old new : list K) (f : nat) (out : mat CK) : Prop :=
  shape out (length new / f) (nc M) /\
  forall t i, (t < length new / f)%nat -> (i < nc M)%nat ->
    exists a b : nat -> K,
      (forall k, (k < f)%nat ->
         interpolates old (fun r => re (get M r i)) (vget new (t * f + k)) (a k) /\
         interpolates old (fun r => im (get M r i)) (vget new (t * f + k)) (b k)) /\
      knat f * re (get out t i) = sumn f a /\ knat f * im (get out t i) = sumn f b.
(** [x] is column [i] of [M] at the new times *)
Definition interpolated (M : mat CK) (old new : list K) (i : nat) (x : list CK) : Prop :=
  length x = length new /\ forall k, (k < length new)%nat ->
    interpolates old (fun r => re (get M r i)) (vget new k) (re (vget x k)) /\
    interpolates old (fun r => im (get M r i)) (vget new k) (im (vget x k)).
(** [a] stands for the values [d i] of the columns *)
Definition given {D : Type} (n : nat) (a : stdarg D) (d : nat -> D) : Prop :=
  match a with StdScalar x => forall i, (i < n)%nat -> d i = x | StdIter l => forall i, (i < n)%nat -> nth_error l i = Some (d i) end.
End Spec.
