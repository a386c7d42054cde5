(** Model of /repo/src/models/matrix_operations.py (and of the functions of
    /repo/src/models/gpu_matrix_operations.py that differ).

    Simplifications: exact arithmetic in a field instead of float64; dtype
    conversions ([astype('int')], [astype('float')]) are the identity because the
    entries involved (0, 1, -1) are representable; sparse and dense variants of
    [make_real_matrix] build the same block matrix and are modelled once. *)
From Coq Require Import Arith ZArith Lia List Bool.
From Verif Require Import BasePy BaseFld BaseSum BaseMat BaseNumpy.
Import ListNotations.

Section MatrixOps.
Context {K : Type} {O : Ops K}.

(** matrix_operations.py:18-26  [np.array(m).flatten('F')]: columns one after the other *)
Definition vectorize_matrix (m : mat K) : list K :=
  flat_map (fun j => map (fun i => get m i j) (range (nr m))) (range (nc m)).

(** gpu_matrix_operations.py:18-28  [cp.array(m.transpose()).flatten()]: rows of the transpose *)
Definition gpu_vectorize_matrix (m : mat K) : list K := concat (dat (tr m)).

(** matrix_operations.py:29-38, gpu_matrix_operations.py:31-40
    [np.reshape(v, shape, 'F')]; a size mismatch is a ValueError.
    (A dimension of -1 is not modelled: no caller passes it.) *)
Definition unvectorize_matrix (v : list K) (r c : nat) : res (mat K) :=
  if (length v =? r * c)%nat then Ok (mk r c (fun i j => vget v (j * r + i))) else Err ValueError.

(** matrix_operations.py:41-48 *)
Definition make_real_vector (v : list (cplx K)) : list K := map re v ++ map im v.

(** matrix_operations.py:51-62; [v_real + 1j * v_imag] broadcasts *)
Definition make_complex_vector (v : list K) : res (list (cplx K)) :=
  let real_elements := (length v / 2)%nat in
  let v_real := firstn real_elements v in
  let v_imag := skipn real_elements v in
  broadcast1 (fun x y => Cx x y) v_real v_imag.

(** matrix_operations.py:65-86, gpu_matrix_operations.py:67-86 *)
Definition make_real_matrix (m : mat (cplx K)) : mat K :=
  mblock (mmap re m) (mopp (mmap im m)) (mmap im m) (mmap re m).

(** matrix_operations.py:89-96, gpu_matrix_operations.py:89-96.
    [m.shape[0]/2] is a float; slicing with it. *)
Definition make_complex_matrix (m : mat K) : res (mat (cplx K)) :=
  let h := py_truediv (Z.of_nat (nr m)) 2 in
  let w := py_truediv (Z.of_nat (nc m)) 2 in
  h1 <- slice_bound_py (nr m) h ;;
  w1 <- slice_bound_py (nc m) w ;;
  Ok (mk h1 w1 (fun i j => Cx (get m i j) (get m (h1 + i) j))).

(** [int(a / 2)] for the integers occurring here *)
Definition half (z : Z) : Z := Z.div z 2.

(** matrix_operations.py:99-115 *)
Definition duplication_matrix (n : nat) : res (mat K) :=
  let nz := Z.of_nat n in
  for_each (range n) (mzeros (n * n) (Z.to_nat (half (nz * (nz + 1))))) (fun res i =>
    for_each (range (i + 1)) res (fun res j =>
      let iz := Z.of_nat i in let jz := Z.of_nat j in
      let u := (jz * nz + iz - half (jz * (jz + 1)))%Z in
      res1 <- set_at res (iz * nz + jz) u 1%K ;;
      set_at res1 (jz * nz + iz) u 1%K)).

(** [sum(n - 2 - x for x in range(k))] *)
Definition sum_n2 (n : Z) (k : nat) : Z := fold_left Z.add (map (fun x => n - 2 - Z.of_nat x)%Z (range k)) 0%Z.

(** matrix_operations.py:118-139; the loop state is (res, row) *)
Definition transformation_matrix (n : nat) : res (mat K) :=
  let nz := Z.of_nat n in
  s <- for_each (range n)
        (mzeros (Z.to_nat (half (nz * (nz + 1)))) (Z.to_nat (half (nz * (nz - 1)))), 0%Z)
        (fun s i =>
          for_each (range (n - i)) s (fun '(res, row) j =>
            let iz := Z.of_nat i in
            res' <- (if (j =? 0)%nat then
                       res1 <- set_row_slice res row (row - iz) (row - iz + nz - iz - 1) 1%K ;;
                       for_each (range i) res1 (fun r k => set_at r row (iz - 1 + sum_n2 nz k) 1%K)
                     else set_at res row (row - iz - 1) (- (1))%K) ;;
            Ok (res', row + 1)%Z)) ;;
  Ok (fst s).

(** matrix_operations.py:142-151; [np.diag(np.divide(1, np.sum(res, axis=1))) @ res] *)
Definition elimination_sym_matrix (n : nat) : res (mat K) :=
  d <- duplication_matrix n ;;
  let r := tr d in
  let sums := mkv (nr r) (fun i => sumn (nc r) (fun j => get r i j)) in
  matmul (mdiag (map (fun x => 1 / x)%K sums)) r.

(** matrix_operations.py:154-168 *)
Definition elimination_lap_matrix (n : nat) : res (mat K) :=
  let nz := Z.of_nat n in
  let idxs := map (fun i => half (nz * (nz + 1)) - half ((Z.of_nat i + 1) * (Z.of_nat i + 2)))%Z (range n) in
  m <- np_delete0 (meye (Z.to_nat (half (nz * (nz + 1))))) idxs ;;
  Ok (mopp m).

(** matrix_operations.py:171-187; [axis] other than 0 and 1 returns [m] unchanged *)
Definition undelete (m : mat K) (idx : list Z) (axis : nat) : mat K :=
  let idx := zsort idx in
  match axis with
  | 0 => fold_left (fun m i =>
           Mat (S (nr m)) (nc m) (linsert (slice_bound (nr m) i) (repeat 0%K (nc m)) (dat m))) idx m
  | 1 => fold_left (fun m i =>
           Mat (nr m) (S (nc m)) (map (linsert (slice_bound (nc m) i) 0%K) (dat m))) idx m
  | _ => m
  end.
End MatrixOps.
