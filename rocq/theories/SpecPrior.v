(** What a prior is supposed to be: rows of a penalty matrix, each with a target and an
    exponent.  Independent of how the classes build them. *)
From Coq Require Import Arith ZArith List Bool.
From Verif Require Import BasePy BaseFld BaseSum BaseMat BaseOrd ModelPrior.
Import ListNotations.
Local Open Scope K_scope.

Section Spec.
Context {K : Type} {O : Ops K}.

(** one column per parameter, one row per target, one exponent per row *)
Definition well_formed (p : sprior K) (n : nat) : Prop :=
  bn (base p) = n /\ shape (bL (base p)) (length (bmu (base p))) n /\
  length (gamma p) = length (bmu (base p)).

(** row residual at the parameters [x] *)
Definition residual (p : bprior K) (x : list K) (i : nat) : K :=
  sumn (length x) (fun k => get (bL p) i k * vget x k) - vget (bmu p) i.

(** [q] has all rows of [p], unchanged *)
Definition extends (p q : sprior K) : Prop :=
  (length (bmu (base p)) <= length (bmu (base q)))%nat /\
  forall i, (i < length (bmu (base p)))%nat ->
    (forall k, (k < bn (base p))%nat -> get (bL (base q)) i k = get (bL (base p)) i k) /\
    vget (bmu (base q)) i = vget (bmu (base p)) i /\
    nth i (gamma q) 0%nat = nth i (gamma p) 0%nat.

(** a weight or order argument fits [m] rows *)
Definition fits {A} (w : arg A) (m : nat) : Prop :=
  match w with AList l => length l = m | _ => True end.
(** value of the argument for row [i] *)
Definition arg_at {A} (one d : A) (w : arg A) (i : nat) : A :=
  match w with ANone => one | AScalar x => x | AList l => nth i l d end.

(** number of constraints an addition states *)
Definition rows_of (a : addition K) : nat :=
  match a with
  | AddExact i _ _ _ | AddExactAdaptive i _ _ _ | AddSparsity i _ _ | AddAdaptiveSparsity i _ _ => length i
  | AddContrast i _ _ _ | AddRatios i _ _ _ => nr i
  end.

(** as many values, weights and orders as rows of indices *)
Definition balanced (a : addition K) : Prop :=
  match a with
  | AddExact i v w o | AddExactAdaptive i v w o => length v = length i /\ fits w (length i) /\ fits o (length i)
  | AddSparsity i w o => fits w (length i) /\ fits o (length i)
  | AddAdaptiveSparsity i v o => length v = length i /\ fits o (length i)
  | AddContrast i v w o | AddRatios i v w o => length v = nr i /\ fits w (nr i) /\ fits o (nr i)
  end.

(** the position meant by a Python index *)
Definition pos (n : nat) (z : Z) : nat := Z.to_nat (if (z <? 0)%Z then Z.of_nat n + z else z).
Definition in_bounds (n : nat) (z : Z) : Prop := (- Z.of_nat n <= z < Z.of_nat n)%Z.
(** the parameter meant by a Python index *)
Definition sel (x : list K) (z : Z) : K := vget x (pos (length x) z).

(** all indices denote parameters; the parameters of a contrast or ratio are distinct *)
Definition valid_indices (n : nat) (a : addition K) : Prop :=
  match a with
  | AddExact i _ _ _ | AddExactAdaptive i _ _ _ | AddSparsity i _ _ | AddAdaptiveSparsity i _ _ => Forall (in_bounds n) i
  | AddContrast i _ _ _ => wf i /\ Forall (fun r => Forall (in_bounds n) r /\ NoDup (map (pos n) r)) (dat i)
  | AddRatios i _ _ _ => wf i /\ nc i = 2%nat /\ Forall (fun r => Forall (in_bounds n) r /\ NoDup (map (pos n) r)) (dat i)
  end.

(** documented residual of the [i]-th constraint of an addition *)
Definition documented (a : addition K) (x : list K) (i : nat) : K :=
  match a with
  | AddExact ix v w _ => arg_at 1 0 w i * (sel x (nth i ix 0%Z) - vget v i)
  | AddExactAdaptive ix v w _ => arg_at 1 0 w i * (sel x (nth i ix 0%Z) / vget v i - 1)
  | AddSparsity ix w _ => arg_at 1 0 w i * sel x (nth i ix 0%Z)
  | AddAdaptiveSparsity ix v _ => sel x (nth i ix 0%Z) / vget v i
  | AddContrast ix v w _ => arg_at 1 0 w i * (lsum (map (sel x) (nth i (dat ix) [])) / vget v i - 1)
  | AddRatios ix v w _ =>
      arg_at 1 0 w i * (sel x (gget 0%Z ix i 0) - vget v i * sel x (gget 0%Z ix i 1))
  end.

(** values that are divided by are not zero *)
Definition nonzero_values (a : addition K) : Prop :=
  match a with
  | AddExactAdaptive _ v _ _ | AddAdaptiveSparsity _ v _ | AddContrast _ v _ _ => Forall (fun y => y <> 0) v
  | _ => True
  end.

Definition order_of (a : addition K) (i : nat) : nat :=
  match a with
  | AddExact _ _ _ o | AddExactAdaptive _ _ _ o | AddSparsity _ _ o | AddAdaptiveSparsity _ _ o
  | AddContrast _ _ _ o | AddRatios _ _ _ o => arg_at 1%nat 0%nat o i
  end.
End Spec.
