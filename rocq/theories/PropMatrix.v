(** Properties C01-C09: vectorisation, real forms, structure matrices, undelete. *)
From Coq Require Import Arith ZArith List Qcanon.
From Verif Require Import BasePy BaseFld BaseSum BaseMat BaseNumpy BaseEx ModelMatrixOps SpecMatrix
  ProofMatrixOps ProofUndelete ProofMatrixProps.
Import ListNotations.
Close Scope Qc_scope. Close Scope Q_scope. Open Scope nat_scope.

(** ** C01 *)
Theorem C01_vectorize_column_major : forall (K : Type) (O : Ops K) (m : mat K),
  length (vectorize_matrix m) = nr m * nc m /\
  forall i j, i < nr m -> j < nc m -> vget (vectorize_matrix m) (j * nr m + i) = get m i j.
Proof. exact @p_vectorize_position. Qed.
Print Assumptions C01_vectorize_column_major.

Theorem C01_unvectorize_vectorize : forall (K : Type) (O : Ops K) (m : mat K), wf m ->
  unvectorize_matrix (vectorize_matrix m) (nr m) (nc m) = Ok m.
Proof. exact @unvectorize_vectorize. Qed.
Print Assumptions C01_unvectorize_vectorize.

Theorem C01_vectorize_unvectorize_and_error : forall (K : Type) (O : Ops K) (v : list K) r c,
  (length v = r * c -> exists m, unvectorize_matrix v r c = Ok m /\ shape m r c /\ vectorize_matrix m = v) /\
  (length v <> r * c -> unvectorize_matrix v r c = Err ValueError).
Proof. exact @p_unvectorize. Qed.
Print Assumptions C01_vectorize_unvectorize_and_error.

Theorem C01_gpu_agrees : forall (K : Type) (O : Ops K) (m : mat K),
  gpu_vectorize_matrix m = vectorize_matrix m.
Proof. exact @gpu_vectorize_eq. Qed.
Print Assumptions C01_gpu_agrees.

Example C01_example :
  let m := zrows [[1; 2; 3]; [4; 5; 6]]%Z in
  wf m /\ vectorize_matrix m = map zq [1; 4; 2; 5; 3; 6]%Z /\
  unvectorize_matrix (map zq [1; 4; 2; 5; 3; 6]%Z) 2 3 = Ok m /\
  unvectorize_matrix (map zq [1; 4; 2]%Z) 2 3 = Err ValueError.
Proof.
  split; [apply wfb_wf; reflexivity|]. split; [apply veqb_eq; vm_compute; reflexivity|].
  split; [apply res_meqb_eq; vm_compute; reflexivity|reflexivity].
Qed.

(** ** C02 *)
Theorem C02_complex_of_real : forall (K : Type) (v : list (cplx K)),
  make_complex_vector (make_real_vector v) = Ok v.
Proof. exact @make_complex_real. Qed.
Print Assumptions C02_complex_of_real.

Theorem C02_real_of_complex : forall (K : Type) (v : list K), Nat.Even (length v) ->
  exists w, make_complex_vector v = Ok w /\ make_real_vector w = v.
Proof. exact @p_make_real_complex. Qed.
Print Assumptions C02_real_of_complex.

(** Odd lengths are refused, except 1 and 3 where numpy broadcasting hides the mistake. *)
Theorem C02_odd_refused_partial : forall (K : Type) (v : list K), Nat.Odd (length v) ->
  length v <> 1 -> length v <> 3 -> make_complex_vector v = Err ValueError.
Proof. exact @make_complex_odd. Qed.
Print Assumptions C02_odd_refused_partial.

Theorem C02_odd_refused_refuted : exists v : list Qc, Nat.Odd (length v) /\
  exists w, make_complex_vector v = Ok w /\ make_real_vector w <> v.
Proof. exact p_odd_refuted. Qed.
Print Assumptions C02_odd_refused_refuted.

Example C02_example :
  make_real_vector [cz 1 2; cz 3 4] = map zq [1; 3; 2; 4]%Z /\
  make_complex_vector (map zq [1; 3; 2; 4]%Z) = Ok [cz 1 2; cz 3 4] /\
  make_complex_vector (map zq [1; 2; 3; 4; 5]%Z) = Err ValueError.
Proof. repeat split. Qed.

(** ** C03 *)
Theorem C03_product : forall (K : Type) (O : Ops K) (F : Fld K) (a b : mat (cplx K)), wf a -> wf b -> nc a = nr b ->
  make_real_matrix (mmul a b) = mmul (make_real_matrix a) (make_real_matrix b).
Proof. exact @make_real_matrix_mmul. Qed.
Print Assumptions C03_product.

Theorem C03_sum : forall (K : Type) (O : Ops K) (F : Fld K) (a b : mat (cplx K)), wf a -> wf b -> nr a = nr b -> nc a = nc b ->
  make_real_matrix (madd a b) = madd (make_real_matrix a) (make_real_matrix b).
Proof. exact @make_real_matrix_madd. Qed.
Print Assumptions C03_sum.

Theorem C03_identity : forall (K : Type) (O : Ops K) (F : Fld K) (n : nat),
  make_real_matrix (meye n : mat (cplx K)) = meye (n + n).
Proof. exact @make_real_matrix_eye. Qed.
Print Assumptions C03_identity.

Theorem C03_conjugate_transpose : forall (K : Type) (O : Ops K) (F : Fld K) (a : mat (cplx K)), wf a ->
  make_real_matrix (ctr a) = tr (make_real_matrix a).
Proof. exact @make_real_matrix_ctr. Qed.
Print Assumptions C03_conjugate_transpose.

Theorem C03_action : forall (K : Type) (O : Ops K) (F : Fld K) (a : mat (cplx K)) (v : list (cplx K)), wf a -> nc a = length v ->
  mvmul (make_real_matrix a) (make_real_vector v) = make_real_vector (mvmul a v).
Proof. exact @make_real_matrix_mvmul. Qed.
Print Assumptions C03_action.

Example C03_example :
  let a := czrows [[(1,2); (0,1)]; [(3,0); (1,-1)]]%Z in
  wf a /\ make_real_matrix a = zrows [[1; 0; -2; -1]; [3; 1; 0; 1]; [2; 1; 1; 0]; [0; -1; 3; 1]]%Z /\
  make_real_matrix (mmul a a) = mmul (make_real_matrix a) (make_real_matrix a).
Proof.
  split; [apply wfb_wf; reflexivity|].
  split; apply meqb_eq; vm_compute; reflexivity.
Qed.

(** ** C04: refuted, slicing with a float bound raises for every matrix *)
Theorem C04_complex_matrix_fails : forall (K : Type) (O : Ops K) (m : mat (cplx K)),
  make_complex_matrix (make_real_matrix m) = Err TypeError.
Proof. exact @p_complex_matrix_refuted. Qed.
Print Assumptions C04_complex_matrix_fails.

Theorem C04_round_trip_refuted : exists m : mat (cplx Qc), wf m /\ make_complex_matrix (make_real_matrix m) <> Ok m.
Proof. exists (czrows [[(1,2)]]%Z). split; [|discriminate]. split; [reflexivity|]. repeat constructor. Qed.
Print Assumptions C04_round_trip_refuted.

(** ** C05 *)
Theorem C05_duplication : forall (K : Type) (O : Ops K) (F : Fld K) (n : nat),
  exists D : mat K, duplication_matrix n = Ok D /\
  shape D (n * n) (n * (n + 1) / 2) /\
  (forall M, symmetric n M -> mvmul D (vech M) = vectorize_matrix M) /\
  (forall v, length v = n * (n + 1) / 2 ->
     exists M, symmetric n M /\ vech M = v /\ mvmul D v = vectorize_matrix M).
Proof. exact @p_duplication. Qed.
Print Assumptions C05_duplication.

Example C05_example :
  let M := zrows [[1; 2; 3]; [2; 4; 5]; [3; 5; 6]]%Z in
  symmetric 3 M /\ vech M = map zq [1; 2; 3; 4; 5; 6]%Z.
Proof. split; [apply symmetricb_ok; vm_compute; reflexivity|apply veqb_eq; vm_compute; reflexivity]. Qed.

(** ** C06 *)
Theorem C06_transformation : forall (K : Type) (O : Ops K) (F : Fld K) (n : nat),
  exists D T : mat K,
  duplication_matrix n = Ok D /\ transformation_matrix n = Ok T /\
  shape T (n * (n + 1) / 2) (n * (n - 1) / 2) /\
  (forall M, laplacian n M -> mvmul T (ve M) = vech M) /\
  (forall w, length w = n * (n - 1) / 2 ->
     exists M, laplacian n M /\ ve M = w /\ mvmul D (mvmul T w) = vectorize_matrix M).
Proof. exact @p_transformation. Qed.
Print Assumptions C06_transformation.

Example C06_example :
  let M := zrows [[5; -2; -3]; [-2; 6; -4]; [-3; -4; 7]]%Z in
  laplacian 3 M /\ ve M = map zq [2; 3; 4]%Z /\ vech M = map zq [5; -2; -3; 6; -4; 7]%Z.
Proof.
  split; [apply laplacianb_ok; vm_compute; reflexivity|].
  split; apply veqb_eq; vm_compute; reflexivity.
Qed.

(** ** C07 *)
Theorem C07_elimination_sym : forall (K : Type) (O : Ops K) (F : Fld K) (n : nat),
  exists D E : mat K,
  duplication_matrix n = Ok D /\ elimination_sym_matrix n = Ok E /\
  (forall M, shape M n n -> mvmul E (vectorize_matrix M) = vech (sym_part n M)) /\
  mmul E D = meye (n * (n + 1) / 2) /\
  (forall M, shape M n n -> mvmul D (mvmul E (vectorize_matrix M)) = vectorize_matrix (sym_part n M)) /\
  tr (mmul D E) = mmul D E /\ mmul (mmul D E) (mmul D E) = mmul D E.
Proof. exact @p_elimination_sym. Qed.
Print Assumptions C07_elimination_sym.

Example C07_example :
  let M := zrows [[1; 4]; [2; 6]]%Z in
  shape M 2 2 /\ vech (sym_part 2 M) = map zq [1; 3; 6]%Z /\
  exists E, elimination_sym_matrix 2 = Ok E /\ mvmul E (vectorize_matrix M) = map zq [1; 3; 6]%Z.
Proof.
  split; [apply shapeb_shape; reflexivity|]. split; [apply veqb_eq; vm_compute; reflexivity|].
  eexists; split; [reflexivity|]. apply veqb_eq; vm_compute; reflexivity.
Qed.

(** ** C08 *)
Theorem C08_elimination_lap : forall (K : Type) (O : Ops K) (F : Fld K) (n : nat),
  exists T E : mat K,
  transformation_matrix n = Ok T /\ elimination_lap_matrix n = Ok E /\
  (forall M, shape M n n -> mvmul E (vech M) = ve M) /\
  mmul E T = meye (n * (n - 1) / 2) /\
  (forall M, laplacian n M -> mvmul T (mvmul E (vech M)) = vech M).
Proof. exact @p_elimination_lap. Qed.
Print Assumptions C08_elimination_lap.

Example C08_example :
  let M := zrows [[5; -2; -3]; [-2; 6; -4]; [-3; -4; 7]]%Z in
  laplacian 3 M /\
  exists E, elimination_lap_matrix 3 = Ok E /\ mvmul E (vech M) = map zq [2; 3; 4]%Z.
Proof.
  split; [apply laplacianb_ok; vm_compute; reflexivity|].
  eexists; split; [reflexivity|]. apply veqb_eq; vm_compute; reflexivity.
Qed.

(** ** C09 *)
Theorem C09_undelete_delete_rows : forall (K : Type) (O : Ops K) (m : mat K) (l : list nat),
  wf m -> NoDup l -> Forall (fun i => i < nr m) l ->
  exists d, np_delete0 m (map Z.of_nat l) = Ok d /\ undelete d (map Z.of_nat l) 0 = zero_rows m l.
Proof. exact @undelete_delete0. Qed.
Print Assumptions C09_undelete_delete_rows.

Theorem C09_undelete_delete_columns : forall (K : Type) (O : Ops K) (m : mat K) (l : list nat),
  wf m -> NoDup l -> Forall (fun i => i < nc m) l ->
  exists d, np_delete1 m (map Z.of_nat l) = Ok d /\ undelete d (map Z.of_nat l) 1 = zero_cols m l.
Proof. exact @undelete_delete1. Qed.
Print Assumptions C09_undelete_delete_columns.

Theorem C09_delete_undelete_rows : forall (K : Type) (O : Ops K) (m : mat K) (l : list nat),
  wf m -> NoDup l -> Forall (fun i => i < nr m + length l) l ->
  np_delete0 (undelete m (map Z.of_nat l) 0) (map Z.of_nat l) = Ok m.
Proof. exact @delete_undelete0. Qed.
Print Assumptions C09_delete_undelete_rows.

Theorem C09_delete_undelete_columns : forall (K : Type) (O : Ops K) (m : mat K) (l : list nat),
  wf m -> NoDup l -> Forall (fun i => i < nc m + length l) l ->
  np_delete1 (undelete m (map Z.of_nat l) 1) (map Z.of_nat l) = Ok m.
Proof. exact @delete_undelete1. Qed.
Print Assumptions C09_delete_undelete_columns.

(** numpy accepts repeated and negative indices in [delete]; there undelete is not the inverse. *)
Theorem C09_repeated_index_refuted : exists (m : mat Qc) (l : list Z) d,
  np_delete0 m l = Ok d /\ nr (undelete d l 0) <> nr m.
Proof. exact p_undelete_repeated_refuted. Qed.
Print Assumptions C09_repeated_index_refuted.

Theorem C09_negative_index_refuted : exists (m : mat Qc) d,
  np_delete0 m [(-1)%Z] = Ok d /\ undelete d [(-1)%Z] 0 <> zero_rows m [nr m - 1].
Proof. exact p_undelete_negative_refuted. Qed.
Print Assumptions C09_negative_index_refuted.

Example C09_example :
  let m := zrows [[1; 2]; [3; 4]; [5; 6]]%Z in
  wf m /\ NoDup [2; 0] /\ Forall (fun i => i < nr m) [2; 0] /\
  undelete (zrows [[3; 4]]%Z) [2; 0]%Z 0 = zrows [[0; 0]; [3; 4]; [0; 0]]%Z.
Proof.
  split; [apply wfb_wf; reflexivity|]. split; [repeat constructor; simpl; intuition discriminate|].
  split; [repeat constructor|]. apply meqb_eq; vm_compute; reflexivity.
Qed.
