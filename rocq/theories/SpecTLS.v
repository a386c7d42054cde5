(** What total least squares is for: the smallest correction of the data. *)
From Coq Require Import Arith List.
From Verif Require Import BasePy BaseFld BaseOrd BaseSum BaseMat ModelLS SpecLS.
Import ListNotations.
Local Open Scope nat_scope.

Section Spec.
Context {K : Type} {O : Ops K} {O2 : OrdOps K}.
Notation CK := (cplx K).
(** with the corrections [dx] of the inputs and [dy] of the outputs the data fulfil x b = y exactly *)
Definition corrects (T n m : nat) (x y b dx dy : mat CK) : Prop :=
  shape b n m /\ shape dx T n /\ shape dy T m /\ mmul (madd x dx) b = madd y dy.
(** the sum of the squares of all corrections *)
Definition effort (dx dy : mat CK) : K := (fro2 dx + fro2 dy)%K.
(** [b] needs the smallest correction of all matrices *)
Definition least_correction (T n m : nat) (x y b : mat CK) : Prop :=
  exists dx dy, corrects T n m x y b dx dy /\
    forall b' dx' dy', corrects T n m x y b' dx' dy' -> effort dx dy <=! effort dx' dy'.
(** the matrix (inputs by outputs) an array of coefficients stands for; the coefficients of a single output are a list *)
Definition stands_for (n m : nat) (r : arr CK) (b : mat CK) : Prop :=
  shape b n m /\ match r with
  | A2 b' => b' = b
  | A1 v => m = 1 /\ length v = n /\ forall i, i < n -> vget v i = get b i 0
  end.
End Spec.
