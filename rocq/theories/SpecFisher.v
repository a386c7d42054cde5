(** What the Fisher information of the linear model z = x Y should be, and the quantities in
    terms of which the code's result is described. *)
From Coq Require Import Arith List Bool.
From Verif Require Import BasePy BaseFld BaseOrd BaseSum BaseMat ModelMatrixOps.
Import ListNotations.
Local Open Scope K_scope.

Section Spec.
Context {K : Type} {O : Ops K}.
Notation CK := (cplx K).

(** vec(x Y) = kron(Y^T, I) vec(x): effect of errors on x seen through Y, in real form *)
Definition input_gain (T : nat) (Y : mat CK) : mat K := make_real_matrix (mkron (tr Y) (meye T)).

(** covariance of the residual z - x Y *)
Definition residual_cov (T : nat) (Y : mat CK) (x_cov z_cov : mat K) : mat K :=
  let U := input_gain T Y in madd z_cov (mmul U (mmul x_cov (tr U))).

(** A^T Sigma^-1 A, with A the real form of kron(I, x) *)
Definition is_information (x Y : mat CK) (x_cov z_cov F : mat K) : Prop :=
  let A := make_real_matrix (mkron (meye (nc x)) x) in
  let m := (2 * (nc x * nr x))%nat in
  exists S, shape S m m /\ mmul (residual_cov (nr x) Y x_cov z_cov) S = meye m /\
            F = mmul (tr A) (mmul S A).

(** ** The matrix that is computed instead *)

(** regressor without the cross terms between real and imaginary parts *)
Definition split_regressor (x : mat CK) : mat K :=
  let n := nc x in let T := nr x in
  mblock (mkron (meye n) (mmap re x)) (mzeros (n * T) (n * n))
         (mzeros (n * T) (n * n)) (mkron (meye n) (mmap im x)).

(** real form of the entries of Y, column by column *)
Definition y_real (n : nat) (Y : mat CK) (k : nat) : K :=
  if (k <? n * n)%nat then re (get Y (k mod n) (k / n)) else im (get Y ((k - n * n) mod n) ((k - n * n) / n)).

(** contribution of the input errors to samples k and k' *)
Definition mixed_input (T n : nat) (Y : mat CK) (x_cov : mat K) (k k' : nat) : K :=
  sumn (2 * n) (fun a => sumn (2 * n) (fun b =>
    get x_cov (a * T + k) (b * T + k') * sumn n (fun j => y_real n Y (a * n + j) * y_real n Y (b * n + j)))).

(** place of row c = a*T+k in sample-major order *)
Definition place (T n c : nat) : nat := ((c mod T) * (2 * n) + c / T)%nat.

(** the covariance used for the weights *)
Definition used_cov (T n : nat) (Y : mat CK) (x_cov z_cov : mat K) (c c' : nat) : K :=
  (if (place T n c / T =? place T n c' / T)%nat
   then mixed_input T n Y x_cov (place T n c mod T) (place T n c' mod T) else 0) + get z_cov c c'.

(** [W] consists of four diagonal blocks *)
Definition four_diagonals (m : nat) (W : mat K) : Prop :=
  shape W (2 * m) (2 * m) /\
  forall i j, (i < 2 * m)%nat -> (j < 2 * m)%nat -> i mod m <> j mod m -> get W i j = 0.

(** inverse, block by block, of the covariance with real and imaginary parts exchanged *)
Definition swapped_inverse (m : nat) (V : nat -> nat -> K) (W : mat K) : Prop :=
  four_diagonals m W /\ tr W = W /\
  forall c, (c < m)%nat ->
    get W c c * V (m + c)%nat (m + c)%nat + get W c (m + c) * V c (m + c)%nat = 1 /\
    get W c c * V c (m + c)%nat + get W c (m + c) * V c c = 0 /\
    get W c (m + c) * V (m + c)%nat (m + c)%nat + get W (m + c) (m + c) * V c (m + c)%nat = 0 /\
    get W c (m + c) * V c (m + c)%nat + get W (m + c) (m + c) * V c c = 1.

Context {O2 : OrdOps K}.
(** symmetric positive definite *)
Definition pdef (m : nat) (W : mat K) : Prop :=
  shape W m m /\ tr W = W /\ forall v, length v = m -> v <> vzeros m -> 0 <! vdot v (mvmul W v).
End Spec.
