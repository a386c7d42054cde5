(** Contracts of the external routines pinv and svd, and least squares vocabulary. *)
From Coq Require Import Arith List.
From Verif Require Import BasePy BaseFld BaseOrd BaseSum BaseMat BaseLin SpecMatrix.
Import ListNotations.
Local Open Scope K_scope.

Section SpecLS.
Context {K : Type} {O : Ops K}.
Notation CK := (cplx K).

(** the four Penrose equations *)
Definition penrose (T n : nat) (x p : mat CK) : Prop :=
  shape x T n /\ shape p n T /\
  mmul (mmul x p) x = x /\ mmul (mmul p x) p = p /\
  ctr (mmul x p) = mmul x p /\ ctr (mmul p x) = mmul p x.

(** rectangular diagonal matrix of the singular values *)
Definition sigma (T m : nat) (s : list K) : mat CK :=
  mk T m (fun i j => if (i =? j)%nat then cre (vget s i) else 0).

(** a full singular value decomposition: unitary factors, non-negative singular
    values in descending order *)
Definition is_svd {O2 : OrdOps K} (T m : nat) (a u : mat CK) (s : list K) (vh : mat CK) : Prop :=
  shape a T m /\ shape u T T /\ shape vh m m /\
  mmul (ctr u) u = meye T /\ mmul (ctr vh) vh = meye m /\ mmul vh (ctr vh) = meye m /\
  length s = Nat.min T m /\ (forall i, (i < length s)%nat -> kle 0 (vget s i)) /\
  (forall i j, (i <= j)%nat -> (j < length s)%nat -> kle (vget s j) (vget s i)) /\
  a = mmul u (mmul (sigma T m s) vh).

(** squared Frobenius norm *)
Definition fro2 (a : mat CK) : K :=
  sumn (nr a) (fun i => sumn (nc a) (fun j => cnorm2 (get a i j))).
End SpecLS.
