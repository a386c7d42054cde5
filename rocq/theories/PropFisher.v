(** C30: Fisher information. *)
From Coq Require Import Arith ZArith List Bool QArith Qcanon.
From Verif Require Import BasePy BaseFld BaseSum BaseMat BaseOrd BaseLin BaseEx ModelMatrixOps SpecFit ProofFitOpt ModelFisher SpecFisher ProofFisher.
Import ListNotations.
Close Scope Qc_scope. Close Scope Q_scope. Open Scope nat_scope.
Local Open Scope K_scope.

Definition c30_eqb (r : res (finfo Qc)) (f : mat Qc) : bool :=
  match r with Ok (Info G _) => meqb G f | _ => false end.
Lemma c30_eqb_ok : forall r f, c30_eqb r f = true -> exists C, r = Ok (Info f C).
Proof. intros [[G C|]|e] f H; cbn in H; try discriminate. apply meqb_eq in H. subst. eauto. Qed.

(** one node, one sample, no errors on the voltage and unit variances on the current *)
Definition c30_x := czrows [[(3, 4)]]%Z.
Definition c30_y := czrows [[(1, 2)]]%Z.
Definition c30_0 := zrows [[0; 0]; [0; 0]]%Z.
Definition c30_1 := zrows [[1; 0]; [0; 1]]%Z.

Lemma c30_psd0 : psd 2 c30_0.
Proof.
  split; [apply shapeb_shape; vm_compute; reflexivity|]. split; [apply meqb_eq; vm_compute; reflexivity|].
  intros v Hv. replace (mvmul c30_0 v) with (vzeros 2 : list Qc).
  - unfold vdot. rewrite sumn_zero; [apply kle_refl|]. intros i Hi. rewrite vget_vzeros. apply Qcmult_0_r.
  - apply vec_ext; [reflexivity|]. intros i Hi. rewrite vget_vzeros, vget_mvmul by exact Hi.
    rewrite sumn_zero; auto. intros j Hj. change (nc c30_0) with 2%nat in Hj. change (length (vzeros 2)) with 2%nat in Hi.
    replace (get c30_0 i j) with (0 : Qc); [apply Qcmult_0_l|].
    destruct i as [|[|i]]; [| |exfalso; apply (Nat.nlt_0_r i); do 2 apply Nat.succ_lt_mono; exact Hi];
    (destruct j as [|[|j]]; [reflexivity|reflexivity|exfalso; apply (Nat.nlt_0_r j); do 2 apply Nat.succ_lt_mono; exact Hj]).
Qed.
Lemma c30_eye : forall k, pdef k (meye k : mat Qc).
Proof.
  intros k. destruct (@psd_meye Qc _ _ _ _ k) as (H1 & H2 & H3). split; [exact H1|split; [exact H2|]].
  intros v Hv Hne. apply klt_spec2. split; auto. intro E. apply Hne. symmetry in E.
  rewrite <- Hv, mvmul_1 in E. apply vec_ext; [rewrite length_vzeros; auto|].
  intros i Hi. rewrite vget_vzeros. apply sqr_zero.
  apply (sumn_nonneg_zero (length v) (fun j => vget v j * vget v j)); auto. intros; apply kle_sqr.
Qed.

Theorem C30_information_refuted : exists (x z Y : mat (cplx Qc)) X Z G C,
  shape x 1 1 /\ shape Y 1 1 /\ psd 2 X /\ pdef 2 Z /\
  fisher_info x z (Some X) (Some Z) Y = Ok (Info G C) /\ ~ is_information x Y X Z G.
Proof.
  destruct (c30_eqb_ok (fisher_info c30_x c30_x (Some c30_0) (Some (meye 2)) c30_y) (zrows [[9; 0]; [0; 16]]%Z)) as (C & HC).
  { vm_compute. reflexivity. }
  exists c30_x, c30_x, c30_y, c30_0, (meye 2), (zrows [[9; 0]; [0; 16]]%Z), C.
  split; [apply shapeb_shape; vm_compute; reflexivity|]. split; [apply shapeb_shape; vm_compute; reflexivity|].
  split; [exact c30_psd0|]. split; [apply c30_eye|]. split; [exact HC|].
  intros (S0 & HS & Hi & HG). cbv zeta in *.
  assert (E : residual_cov (nr c30_x) c30_y c30_0 (meye 2) = meye 2) by (apply meqb_eq; vm_compute; reflexivity).
  rewrite E in Hi. change (2 * (nc c30_x * nr c30_x))%nat with 2%nat in *.
  rewrite mmul_1_l' in Hi by apply HS. subst S0. revert HG. apply meqb_neq. vm_compute. reflexivity.
Qed.

(** ** What is returned: B^T W B where the regressor B has no cross terms between real and
    imaginary parts, and W is the inverse of a covariance with real and imaginary parts exchanged *)
Theorem C30_computed_form : forall K (O : Ops K) (F : Fld K) T n (x z Y : mat (cplx K)) X Z G C,
  shape x T n -> shape Y n n -> shape X (2 * (n * T)) (2 * (n * T)) -> shape Z (2 * (n * T)) (2 * (n * T)) ->
  fisher_info x z (Some X) (Some Z) Y = Ok (Info G C) ->
  shape G (2 * (n * n)) (2 * (n * n)) /\ tr G = G /\ mmul G C = meye (2 * (n * n)) /\ mmul C G = meye (2 * (n * n)) /\
  exists W, swapped_inverse (n * T) (used_cov T n Y X Z) W /\ G = mmul (tr (split_regressor x)) (mmul W (split_regressor x)).
Proof. exact @p_fisher_form. Qed.

Definition c30_x2 := czrows [[(1, 2)]; [(2, -1)]]%Z.
Definition c30_X2 := zrows [[1; 0; 0; 0]; [0; 3; 0; 0]; [0; 0; 2; 0]; [0; 0; 0; 4]]%Z.
Example C30_example : shape c30_x2 2 1 /\ shape c30_y 1 1 /\ shape c30_X2 4 4 /\
  exists C, fisher_info c30_x2 c30_x2 (Some c30_X2) (Some (meye 4)) c30_y = Ok (Info (rows [[qq 1 4; 0]; [0; qq 1 2]]) C).
Proof.
  split; [apply shapeb_shape; vm_compute; reflexivity|]. split; [apply shapeb_shape; vm_compute; reflexivity|].
  split; [apply shapeb_shape; vm_compute; reflexivity|]. apply c30_eqb_ok. vm_compute. reflexivity.
Qed.

(** ** Under valid covariances nothing is divided by zero and the result is positive semidefinite *)
Theorem C30_positive_semidefinite : forall K (O : Ops K) (F : Fld K) (O2 : OrdOps K) (OF : OrdFld K) T n (x z Y : mat (cplx K)) X Z,
  (0 < n * T)%nat -> shape x T n -> shape Y n n -> psd (2 * (n * T)) X -> pdef (2 * (n * T)) Z ->
  exists W, psd (2 * (n * T)) W /\ swapped_inverse (n * T) (used_cov T n Y X Z) W /\
  let B := split_regressor x in let G := mmul (tr B) (mmul W B) in
  psd (2 * (n * n)) G /\
  fisher_info x z (Some X) (Some Z) Y = bind (kinverse G) (fun C => Ok (Info G C)).
Proof. exact @p_fisher_pdef. Qed.

(** ** Measurements without imaginary parts *)
Theorem C30_real_measurements_fail : forall K (O : Ops K) (F : Fld K) (O2 : OrdOps K) (OF : OrdFld K) T n (x z Y : mat (cplx K)) X Z,
  (0 < n * T)%nat -> shape x T n -> shape Y n n -> psd (2 * (n * T)) X -> pdef (2 * (n * T)) Z ->
  (forall i j, (i < T)%nat -> (j < n)%nat -> im (get x i j) = 0) ->
  fisher_info x z (Some X) (Some Z) Y = Err LinAlgError.
Proof. exact @p_fisher_real. Qed.

(** ... although the information they carry is regular *)
Theorem C30_real_measurements_refuted : exists (x z Y : mat (cplx Qc)) X Z G Gi,
  psd 2 X /\ pdef 2 Z /\ is_information x Y X Z G /\ mmul G Gi = meye 2 /\
  fisher_info x z (Some X) (Some Z) Y = Err LinAlgError.
Proof.
  exists (czrows [[(2, 0)]]%Z), (czrows [[(2, 0)]]%Z), c30_y, c30_0, (meye 2), (zrows [[4; 0]; [0; 4]]%Z), (rows [[qq 1 4; 0]; [0; qq 1 4]]).
  split; [exact c30_psd0|]. split; [apply c30_eye|]. split; [|split].
  - exists (meye 2). split; [apply shape_meye|]. split; apply meqb_eq; vm_compute; reflexivity.
  - apply meqb_eq; vm_compute; reflexivity.
  - apply (C30_real_measurements_fail Qc _ _ _ _ 1 1); [auto| | |exact c30_psd0|apply c30_eye|].
    + apply shapeb_shape; vm_compute; reflexivity.
    + apply shapeb_shape; vm_compute; reflexivity.
    + intros [|i] [|j] Hi Hj; try (exfalso; eapply Nat.nlt_0_r; apply Nat.succ_lt_mono; eassumption). reflexivity.
Qed.

(** ** The noise of a sample that carries no information changes the result *)
Theorem C30_unrelated_sample_noise_refuted : exists (x z Y : mat (cplx Qc)) X X' G C G' C',
  (forall j, get x 1 j = 0) /\
  (forall i j, get X i j <> get X' i j -> i mod 2 = 1 /\ j mod 2 = 1)%nat /\
  fisher_info x z (Some X) (Some (meye 4)) Y = Ok (Info G C) /\
  fisher_info x z (Some X') (Some (meye 4)) Y = Ok (Info G' C') /\ G <> G'.
Proof.
  set (x := czrows [[(1, 1)]; [(0, 0)]]%Z). set (y := czrows [[(1, 0)]]%Z).
  set (X := zrows [[1; 0; 0; 0]; [0; 1; 0; 0]; [0; 0; 1; 0]; [0; 0; 0; 1]]%Z).
  set (X' := zrows [[1; 0; 0; 0]; [0; 3; 0; 0]; [0; 0; 1; 0]; [0; 0; 0; 1]]%Z).
  destruct (c30_eqb_ok (fisher_info x x (Some X) (Some (meye 4)) y) (rows [[qq 1 2; 0]; [0; qq 1 2]])) as (C & HC); [vm_compute; reflexivity|].
  destruct (c30_eqb_ok (fisher_info x x (Some X') (Some (meye 4)) y) (rows [[qq 1 4; 0]; [0; qq 1 2]])) as (C' & HC'); [vm_compute; reflexivity|].
  exists x, x, y, X, X', (rows [[qq 1 2; 0]; [0; qq 1 2]]), C, (rows [[qq 1 4; 0]; [0; qq 1 2]]), C'.
  split; [|split; [|split; [exact HC|split; [exact HC'|]]]].
  - intros [|[|j]]; reflexivity.
  - intros i j H. destruct i as [|[|[|[|[|i]]]]]; destruct j as [|[|[|[|[|j]]]]]; try (exfalso; apply H; reflexivity). split; reflexivity.
  - apply meqb_neq. vm_compute. reflexivity.
Qed.

(** ** The covariances are not optional *)
Theorem C30_missing_covariance : forall K (O : Ops K) (x z Y : mat (cplx K)) xc zc, (nc x * nr x <> 0)%nat -> xc = None \/ zc = None ->
  fisher_info x z xc zc Y = Err TypeError.
Proof. exact @p_fisher_missing. Qed.
Example C30_missing_example : (nc c30_x * nr c30_x <> 0)%nat.
Proof. discriminate. Qed.

Print Assumptions C30_information_refuted.
Print Assumptions C30_computed_form.
Print Assumptions C30_positive_semidefinite.
Print Assumptions C30_real_measurements_fail.
Print Assumptions C30_real_measurements_refuted.
Print Assumptions C30_unrelated_sample_noise_refuted.
Print Assumptions C30_missing_covariance.
