(** Properties C12-C14: ordinary and total least squares. *)
From Coq Require Import Arith ZArith Lia List Qcanon.
From Verif Require Import BasePy BaseFld BaseOrd BaseSum BaseMat BaseLin BaseEx ModelLS SpecMatrix SpecLS ProofLS ProofTLS.
Import ListNotations.
Close Scope Qc_scope. Close Scope Q_scope. Open Scope nat_scope.

(** ** C12 *)
Theorem C12_ols_exact_on_noise_free_data :
  forall (K : Type) (O : Ops K) (F : Fld K) (O2 : OrdOps K) (OF : OrdFld K)
    (pinv : mat (cplx K) -> mat (cplx K)) (x y : mat (cplx K)) T n m,
  penrose T n x (pinv x) -> inj x -> shape y n m ->
  complex_regression_fit pinv x (mmul x y) = Ok y.
Proof. exact @p_ols_exact. Qed.
Print Assumptions C12_ols_exact_on_noise_free_data.

(** a pseudo-inverse exists for every matrix with independent columns *)
Theorem C12_pseudo_inverse_exists :
  forall (K : Type) (O : Ops K) (F : Fld K) (O2 : OrdOps K) (OF : OrdFld K) (x : mat (cplx K)) T n,
  shape x T n -> inj x -> exists p, penrose T n x p.
Proof. exact @p_pinv_exists. Qed.
Print Assumptions C12_pseudo_inverse_exists.

Definition ex_x : mat (cplx Qc) := czrows [[(1,0)]; [(0,1)]]%Z.
Definition ex_p : mat (cplx Qc) := rows [[Cx (qq 1 2) (zq 0); Cx (zq 0) (qq (-1) 2)]].
Example C12_example : penrose 2 1 ex_x ex_p /\ inj ex_x /\ shape (czrows [[(2,-5);(0,3)]]%Z) 1 2 /\
  complex_regression_fit (fun _ => ex_p) ex_x (mmul ex_x (czrows [[(2,-5);(0,3)]]%Z)) = Ok (czrows [[(2,-5);(0,3)]]%Z).
Proof.
  assert (S1 : shape ex_x 2 1) by (apply shapeb_shape; reflexivity).
  assert (S2 : shape ex_p 1 2) by (apply shapeb_shape; reflexivity).
  split.
  { split; [exact S1|]. split; [exact S2|]. repeat split; apply meqb_eq; vm_compute; reflexivity. }
  split.
  { apply (left_inverse_inj ex_x ex_p 1 2 S1 S2). apply meqb_eq; vm_compute; reflexivity. }
  split; [apply shapeb_shape; reflexivity|apply res_meqb_eq; vm_compute; reflexivity].
Qed.

(** ** C13 *)
Theorem C13_ols_residual_orthogonal :
  forall (K : Type) (O : Ops K) (F : Fld K) (O2 : OrdOps K) (OF : OrdFld K)
    (pinv : mat (cplx K) -> mat (cplx K)) (x z : mat (cplx K)) T n m,
  penrose T n x (pinv x) -> shape z T m ->
  exists b, complex_regression_fit pinv x z = Ok b /\ shape b n m /\
    mmul (ctr x) (msubt z (mmul x b)) = mzeros n m.
Proof. exact @p_ols_orthogonal. Qed.
Print Assumptions C13_ols_residual_orthogonal.

Theorem C13_ols_optimal :
  forall (K : Type) (O : Ops K) (F : Fld K) (O2 : OrdOps K) (OF : OrdFld K)
    (pinv : mat (cplx K) -> mat (cplx K)) (x z w : mat (cplx K)) T n m,
  penrose T n x (pinv x) -> shape z T m -> shape w n m ->
  exists b, complex_regression_fit pinv x z = Ok b /\
    fro2 (msubt z (mmul x w)) = (fro2 (msubt z (mmul x b)) + fro2 (mmul x (msubt b w)))%K /\
    kle (fro2 (msubt z (mmul x b))) (fro2 (msubt z (mmul x w))).
Proof. exact @p_ols_optimal. Qed.
Print Assumptions C13_ols_optimal.

Theorem C13_ols_minimiser_unique :
  forall (K : Type) (O : Ops K) (F : Fld K) (O2 : OrdOps K) (OF : OrdFld K)
    (pinv : mat (cplx K) -> mat (cplx K)) (x z w : mat (cplx K)) T n m,
  penrose T n x (pinv x) -> inj x -> shape z T m -> shape w n m ->
  exists b, complex_regression_fit pinv x z = Ok b /\
    (fro2 (msubt z (mmul x w)) = fro2 (msubt z (mmul x b)) -> w = b).
Proof. exact @p_ols_unique. Qed.
Print Assumptions C13_ols_minimiser_unique.

(** inconsistent data: x = (1, i), z = (1, 1): the fit is (1-i)/2 with residual norm 1 *)
Example C13_example :
  complex_regression_fit (fun _ => ex_p) ex_x (czrows [[(1,0)]; [(1,0)]]%Z) = Ok (rows [[Cx (qq 1 2) (qq (-1) 2)]]) /\
  keqb (fro2 (msubt (czrows [[(1,0)]; [(1,0)]]%Z) (mmul ex_x (rows [[Cx (qq 1 2) (qq (-1) 2)]])))) (zq 1) = true.
Proof. split; [apply res_meqb_eq; vm_compute; reflexivity|vm_compute; reflexivity]. Qed.

(** ** C14 *)
Theorem C14_tls_exact_on_noise_free_data :
  forall (K : Type) (O : Ops K) (F : Fld K) (O2 : OrdOps K) (OF : OrdFld K)
    (svd : mat (cplx K) -> mat (cplx K) * list K * mat (cplx K)) T n m (x y : mat (cplx K)),
  shape x T n -> shape y n m -> inj x ->
  (let '(u, s, vh) := svd (hstack2 x (mmul x y)) in is_svd T (n + m) (hstack2 x (mmul x y)) u s vh) ->
  tls_fit svd x (A2 (mmul x y)) = Ok (if (1 <? m)%nat then A2 y else A1 (concat (dat y))).
Proof. exact @p_tls_exact. Qed.
Print Assumptions C14_tls_exact_on_noise_free_data.

Theorem C14_tls_exact_single_output :
  forall (K : Type) (O : Ops K) (F : Fld K) (O2 : OrdOps K) (OF : OrdFld K)
    (svd : mat (cplx K) -> mat (cplx K) * list K * mat (cplx K)) T n (x : mat (cplx K)) (y : list (cplx K)),
  shape x T n -> length y = n -> inj x ->
  (let '(u, s, vh) := svd (hstack2 x (colm (mvmul x y))) in is_svd T (n + 1) (hstack2 x (colm (mvmul x y))) u s vh) ->
  tls_fit svd x (A1 (mvmul x y)) = Ok (A1 y).
Proof. exact @p_tls_exact_1d. Qed.
Print Assumptions C14_tls_exact_single_output.

(** data (3,4),(0,0): singular values 5 and 0 *)
Definition ex_tx : mat (cplx Qc) := czrows [[(3,0)]; [(0,0)]]%Z.
Definition ex_ty : mat (cplx Qc) := rows [[Cx (qq 4 3) (zq 0)]].
Definition ex_vh : mat (cplx Qc) :=
  rows [[Cx (qq 3 5) (zq 0); Cx (qq 4 5) (zq 0)]; [Cx (qq (-4) 5) (zq 0); Cx (qq 3 5) (zq 0)]].
Example C14_example :
  shape ex_tx 2 1 /\ shape ex_ty 1 1 /\ inj ex_tx /\
  is_svd 2 (1 + 1) (hstack2 ex_tx (mmul ex_tx ex_ty)) (meye 2) [zq 5; zq 0] ex_vh /\
  tls_fit (fun _ => (meye 2, [zq 5; zq 0], ex_vh)) ex_tx (A2 (mmul ex_tx ex_ty)) = Ok (A1 (concat (dat ex_ty))).
Proof.
  assert (S1 : shape ex_tx 2 1) by (apply shapeb_shape; reflexivity).
  assert (S2 : shape ex_ty 1 1) by (apply shapeb_shape; reflexivity).
  assert (I : inj ex_tx).
  { apply (left_inverse_inj ex_tx (rows [[Cx (qq 1 3) (zq 0); Cx (zq 0) (zq 0)]]) 1 2 S1);
    [apply shapeb_shape; reflexivity|apply meqb_eq; vm_compute; reflexivity]. }
  assert (Sv : is_svd 2 (1 + 1) (hstack2 ex_tx (mmul ex_tx ex_ty)) (meye 2) [zq 5; zq 0] ex_vh).
  { split; [apply shapeb_shape; reflexivity|]. split; [apply shape_mk|]. split; [apply shapeb_shape; reflexivity|].
    split; [apply meqb_eq; vm_compute; reflexivity|]. split; [apply meqb_eq; vm_compute; reflexivity|].
    split; [apply meqb_eq; vm_compute; reflexivity|]. split; [reflexivity|]. split; [|split].
    - intros [|[|i]] Hi; [vm_compute; reflexivity|vm_compute; reflexivity|simpl in Hi; exfalso; lia].
    - intros [|[|i]] [|[|j]] Hij Hj; simpl in Hj; try lia; vm_compute; reflexivity.
    - apply meqb_eq; vm_compute; reflexivity. }
  split; [exact S1|]. split; [exact S2|]. split; [exact I|]. split; [exact Sv|].
  exact (C14_tls_exact_on_noise_free_data Qc _ _ _ _ (fun _ => (meye 2, [zq 5; zq 0], ex_vh)) 2 1 1 ex_tx ex_ty S1 S2 I Sv).
Qed.
