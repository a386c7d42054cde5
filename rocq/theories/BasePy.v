(** Python exceptions as values, and a few list facts.

    Trusted reading: [Ok v] is a normal return of [v], [Err e] is an
    uncaught exception of Python class [e]. *)
From Coq Require Import List Arith Lia.
Import ListNotations.

Inductive exn :=
| ValueError | TypeError | IndexError | KeyError | AttributeError
| NameError | AssertionError | NotImplementedError | LinAlgError
| UserWarning | ZeroDivisionError | FileNotFoundError | UnboundLocalError
| SystemExit | OverflowError.

Inductive res (A : Type) :=
| Ok (a : A)
| Err (e : exn).
Arguments Ok {A} a.
Arguments Err {A} e.

Definition bind {A B} (x : res A) (f : A -> res B) : res B :=
  match x with Ok a => f a | Err e => Err e end.

Notation "x <- e ;; k" := (bind e (fun x => k))
  (at level 100, e at next level, right associativity).
Notation "' p <- e ;; k" := (bind e (fun p => k))
  (at level 100, p pattern, e at next level, right associativity).

Definition is_ok {A} (x : res A) : Prop := exists a, x = Ok a.

Lemma bind_ok : forall A B (x : res A) (f : A -> res B) b,
  bind x f = Ok b -> exists a, x = Ok a /\ f a = Ok b.
Proof. intros A B [a|e] f b H; simpl in H; [eauto|discriminate]. Qed.

(** Fold over a list with early exit on error: a Python [for] loop whose body
    may raise. *)
Fixpoint for_each {A S} (l : list A) (s : S) (body : S -> A -> res S) : res S :=
  match l with
  | [] => Ok s
  | x :: r => s' <- body s x ;; for_each r s' body
  end.

Lemma for_each_app : forall A S (l1 l2 : list A) (s : S) body,
  for_each (l1 ++ l2) s body = bind (for_each l1 s body) (fun s' => for_each l2 s' body).
Proof.
  induction l1 as [|a l1 IH]; intros; simpl; [reflexivity|].
  destruct (body s a); simpl; auto.
Qed.

(** [range n] of Python. *)
Definition range (n : nat) : list nat := seq 0 n.

Lemma range_S : forall n, range (S n) = range n ++ [n].
Proof. intros; unfold range; rewrite seq_S; reflexivity. Qed.

Lemma in_range : forall n i, In i (range n) <-> i < n.
Proof. intros; unfold range; rewrite in_seq; lia. Qed.

Lemma length_range : forall n, length (range n) = n.
Proof. intros; apply seq_length. Qed.

Lemma nth_range : forall n i d, i < n -> nth i (range n) d = i.
Proof. intros; unfold range; rewrite seq_nth; lia. Qed.

Lemma nth_map_range : forall A (f : nat -> A) n i d,
  i < n -> nth i (map f (range n)) d = f i.
Proof.
  intros. rewrite nth_indep with (d' := f 0) by (rewrite map_length, length_range; auto).
  rewrite map_nth. rewrite nth_range; auto.
Qed.

Lemma list_eta : forall A (l : list A) d, l = map (fun i => nth i l d) (range (length l)).
Proof.
  intros A l d. apply nth_ext with (d := d) (d' := d).
  - rewrite map_length, length_range; reflexivity.
  - intros i Hi. rewrite nth_map_range; auto.
Qed.

Lemma map_range_ext : forall A (f g : nat -> A) n,
  (forall i, i < n -> f i = g i) -> map f (range n) = map g (range n).
Proof.
  intros. apply map_ext_in. intros a Ha. apply H. apply in_range; auto.
Qed.

Lemma nth_app_l : forall A (l1 l2 : list A) i d, i < length l1 -> nth i (l1 ++ l2) d = nth i l1 d.
Proof. intros; apply app_nth1; auto. Qed.

Lemma nth_app_r : forall A (l1 l2 : list A) i d, length l1 <= i -> nth i (l1 ++ l2) d = nth (i - length l1) l2 d.
Proof. intros; apply app_nth2; auto. Qed.

(** Division helpers used for flattened indices. *)
Lemma divmod_add : forall i j n, j < n -> (i * n + j) / n = i /\ (i * n + j) mod n = j.
Proof.
  intros i j n H. assert (n <> 0) by lia. split.
  - rewrite Nat.div_add_l by auto. rewrite Nat.div_small by auto. lia.
  - rewrite Nat.add_comm, Nat.mod_add by auto. apply Nat.mod_small; auto.
Qed.

Lemma divmod_bound : forall k m n, k < m * n -> k / n < m /\ k mod n < n /\ k = (k / n) * n + k mod n.
Proof.
  intros k m n H. assert (n <> 0) by (intro; subst; lia).
  split; [apply Nat.div_lt_upper_bound; lia|].
  split; [apply Nat.mod_upper_bound; auto|].
  rewrite Nat.mul_comm. apply Nat.div_mod; auto.
Qed.

Lemma idx_bound : forall i j m n, i < m -> j < n -> i * n + j < m * n.
Proof. intros. nia. Qed.
