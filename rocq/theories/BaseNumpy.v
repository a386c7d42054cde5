(** numpy/Python primitives used by several models. *)
From Coq Require Import Arith ZArith Lia List Bool.
From Verif Require Import BasePy BaseFld BaseSum BaseMat.
Import ListNotations.

(** Python numbers as far as indexing is concerned: [/] always gives a float. *)
Inductive pynum := PyInt (z : Z) | PyFloat (num den : Z).
Definition py_truediv (a b : Z) : pynum := PyFloat a b.

(** Normalise an index for a dimension of size [n]: negative indices count
    from the end, anything else out of range is an IndexError. *)
Definition norm_idx (n : nat) (z : Z) : res nat :=
  if ((0 <=? z) && (z <? Z.of_nat n))%Z then Ok (Z.to_nat z)
  else if ((- Z.of_nat n <=? z) && (z <? 0))%Z then Ok (Z.to_nat (Z.of_nat n + z))
  else Err IndexError.

(** Clamp a slice bound for a dimension of size [n] (Python slices never raise
    for integer bounds). *)
Definition slice_bound (n : nat) (z : Z) : nat :=
  if (z <? 0)%Z then Z.to_nat (Z.max 0 (Z.of_nat n + z))
  else Nat.min (Z.to_nat z) n.

(** A slice bound must be an integer: a float raises TypeError. *)
Definition slice_bound_py (n : nat) (b : pynum) : res nat :=
  match b with PyInt z => Ok (slice_bound n z) | PyFloat _ _ => Err TypeError end.

(** [m[i, j] = x] *)
Definition mset {K} {O : Ops K} (m : mat K) (i j : nat) (x : K) : mat K :=
  mk (nr m) (nc m) (fun a b => if ((a =? i) && (b =? j))%nat then x else get m a b).

Definition set_at {K} {O : Ops K} (m : mat K) (i j : Z) (x : K) : res (mat K) :=
  i' <- norm_idx (nr m) i ;; j' <- norm_idx (nc m) j ;; Ok (mset m i' j' x).

(** [m[i, a:b] = x] *)
Definition set_row_slice {K} {O : Ops K} (m : mat K) (i a b : Z) (x : K) : res (mat K) :=
  i' <- norm_idx (nr m) i ;;
  let a' := slice_bound (nc m) a in
  let b' := slice_bound (nc m) b in
  Ok (mk (nr m) (nc m) (fun p q => if ((p =? i') && (a' <=? q) && (q <? b'))%nat then x else get m p q)).

(** Lists: insertion and deletion by position. *)
Definition linsert {A} (k : nat) (x : A) (l : list A) : list A := firstn k l ++ x :: skipn k l.

Fixpoint norm_idxs (n : nat) (idx : list Z) : res (list nat) :=
  match idx with
  | [] => Ok []
  | z :: r => i <- norm_idx n z ;; l <- norm_idxs n r ;; Ok (i :: l)
  end.

Definition memb (i : nat) (l : list nat) : bool := existsb (Nat.eqb i) l.

(** keep the elements whose position is not listed *)
Fixpoint ldel_from {A} (off : nat) (l : list A) (s : list nat) : list A :=
  match l with
  | [] => []
  | x :: r => if memb off s then ldel_from (S off) r s else x :: ldel_from (S off) r s
  end.
Definition ldel {A} (l : list A) (s : list nat) : list A := ldel_from 0 l s.

(** [numpy.delete(m, idx, axis=0|1)] for a 2-D array; indices may be negative or
    repeated, out-of-range indices raise IndexError. *)
Definition np_delete0 {T} (m : mat T) (idx : list Z) : res (mat T) :=
  s <- norm_idxs (nr m) idx ;;
  let rows := ldel (dat m) s in Ok (Mat (length rows) (nc m) rows).
Definition np_delete1 {T} (m : mat T) (idx : list Z) : res (mat T) :=
  s <- norm_idxs (nc m) idx ;;
  Ok (Mat (nr m) (length (ldel (range (nc m)) s)) (map (fun r => ldel r s) (dat m))).

(** Insertion sort ([numpy.sort] on integers). *)
Fixpoint zinsert (x : Z) (l : list Z) : list Z :=
  match l with
  | [] => [x]
  | y :: r => if (x <=? y)%Z then x :: l else y :: zinsert x r
  end.
Fixpoint zsort (l : list Z) : list Z :=
  match l with [] => [] | x :: r => zinsert x (zsort r) end.

(** Broadcasting of a binary operation on two 1-D arrays. *)
Definition broadcast1 {A B C} (f : A -> B -> C) (u : list A) (v : list B) : res (list C) :=
  if (length u =? length v)%nat then Ok (map (fun p => f (fst p) (snd p)) (combine u v))
  else match u, v with
       | [a], _ => Ok (map (f a) v)
       | _, [b] => Ok (map (fun a => f a b) u)
       | _, _ => Err ValueError
       end.
