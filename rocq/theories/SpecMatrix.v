(** Specification vocabulary for matrices, independent of the model's helpers. *)
From Coq Require Import Arith Lia List.
From Verif Require Import BasePy BaseFld BaseSum BaseMat.
Import ListNotations.
Local Open Scope K_scope.

Section SpecMatrix.
Context {K : Type} {O : Ops K}.

(** lower triangle with diagonal, column by column *)
Definition vech (M : mat K) : list K :=
  flat_map (fun b => map (fun a => get M a b) (seq b (nr M - b))) (range (nr M)).

(** negated strictly lower triangle, column by column (the parameters of a Laplacian) *)
Definition ve (M : mat K) : list K :=
  flat_map (fun b => map (fun a => - get M a b) (seq (S b) (nr M - S b))) (range (nr M)).

Definition symmetric (n : nat) (M : mat K) : Prop :=
  shape M n n /\ forall i j, (i < n)%nat -> (j < n)%nat -> get M i j = get M j i.

Definition zero_row_sums (n : nat) (M : mat K) : Prop :=
  forall i, (i < n)%nat -> sumn n (fun j => get M i j) = 0.

Definition laplacian (n : nat) (M : mat K) : Prop := symmetric n M /\ zero_row_sums n M.

(** [M] with the rows (resp. columns) listed in [s] replaced by zeros *)
Definition zero_rows (M : mat K) (s : list nat) : mat K :=
  mk (nr M) (nc M) (fun i j => if in_dec Nat.eq_dec i s then 0 else get M i j).
Definition zero_cols (M : mat K) (s : list nat) : mat K :=
  mk (nr M) (nc M) (fun i j => if in_dec Nat.eq_dec j s then 0 else get M i j).

(** symmetric part *)
Definition sym_part (n : nat) (M : mat K) : mat K :=
  mk n n (fun i j => (get M i j + get M j i) / (1 + 1)).
End SpecMatrix.

(** conjugate transpose of a complex matrix *)
Definition ctr {K} {O : Ops K} (m : mat (cplx K)) : mat (cplx K) :=
  mk (nc m) (nr m) (fun i j => conj (get m j i)).

From Verif Require Import BaseEx.
Section Checks.
Context {K : Type} {O : Ops K} {F : Fld K}.
Lemma symmetricb_ok : forall n (M : mat K), symmetricb n M = true -> symmetric n M.
Proof.
  intros n M H. apply Bool.andb_true_iff in H. destruct H as [H1 H2]. split; [apply shapeb_shape; auto|].
  intros i j Hi Hj. apply keqb_eq. apply (forall_lt_spec n _ (forall_lt_spec n _ H2 i Hi) j Hj).
Qed.
Lemma laplacianb_ok : forall n (M : mat K), (symmetricb n M && zero_sumsb n M)%bool = true -> laplacian n M.
Proof.
  intros n M H. apply Bool.andb_true_iff in H. destruct H as [H1 H2]. split; [apply symmetricb_ok; auto|].
  intros i Hi. apply keqb_eq. apply (forall_lt_spec n _ H2 i Hi).
Qed.
End Checks.
