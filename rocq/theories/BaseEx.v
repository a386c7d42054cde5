(** Helpers to state and check concrete examples over the rationals. *)
From Coq Require Import Arith ZArith List Bool QArith Qcanon.
From Verif Require Import BasePy BaseFld BaseSum BaseMat.
Import ListNotations.

Definition zq (z : Z) : Qc := Q2Qc (inject_Z z).
Definition qq (a : Z) (b : positive) : Qc := Q2Qc (a # b).
Definition cz (a b : Z) : cplx Qc := Cx (zq a) (zq b).

Definition rows {T} (l : list (list T)) : mat T := Mat (length l) (length (hd [] l)) l.
Definition zrows (l : list (list Z)) : mat Qc := rows (map (map zq) l).
Definition czrows (l : list (list (Z * Z))) : mat (cplx Qc) := rows (map (map (fun p => cz (fst p) (snd p))) l).

Section Eqb.
Context {K : Type} {O : Ops K} {F : Fld K}.

Fixpoint veqb (u v : list K) : bool :=
  match u, v with
  | [], [] => true
  | x :: u', y :: v' => (x =? y)%K && veqb u' v'
  | _, _ => false
  end.
Fixpoint rows_eqb (u v : list (list K)) : bool :=
  match u, v with
  | [], [] => true
  | x :: u', y :: v' => veqb x y && rows_eqb u' v'
  | _, _ => false
  end.
Definition meqb (a b : mat K) : bool :=
  (nr a =? nr b)%nat && (nc a =? nc b)%nat && rows_eqb (dat a) (dat b).
Definition res_meqb (a : res (mat K)) (b : mat K) : bool :=
  match a with Ok m => meqb m b | Err _ => false end.
Definition res_veqb (a : res (list K)) (b : list K) : bool :=
  match a with Ok m => veqb m b | Err _ => false end.

Lemma veqb_eq : forall u v, veqb u v = true -> u = v.
Proof.
  induction u; destruct v; simpl; intros H; try discriminate; auto.
  apply andb_prop in H. destruct H as [H1 H2]. apply keqb_eq in H1. subst. f_equal. auto.
Qed.
Lemma rows_eqb_eq : forall u v, rows_eqb u v = true -> u = v.
Proof.
  induction u; destruct v; simpl; intros H; try discriminate; auto.
  apply andb_prop in H. destruct H as [H1 H2]. apply veqb_eq in H1. subst. f_equal. auto.
Qed.
Lemma meqb_eq : forall a b, meqb a b = true -> a = b.
Proof.
  intros [r c d] [r' c' d'] H. unfold meqb in H. simpl in H.
  apply andb_prop in H. destruct H as [H H3]. apply andb_prop in H. destruct H as [H1 H2].
  apply Nat.eqb_eq in H1. apply Nat.eqb_eq in H2. apply rows_eqb_eq in H3. subst. reflexivity.
Qed.
Lemma res_meqb_eq : forall a b, res_meqb a b = true -> a = Ok b.
Proof. intros [a|e] b H; simpl in H; [|discriminate]. apply meqb_eq in H. subst. reflexivity. Qed.
Lemma res_veqb_eq : forall a b, res_veqb a b = true -> a = Ok b.
Proof. intros [a|e] b H; simpl in H; [|discriminate]. apply veqb_eq in H. subst. reflexivity. Qed.
Lemma veqb_refl : forall u, veqb u u = true.
Proof. induction u; simpl; auto. rewrite keqb_refl; auto. Qed.
Lemma veqb_neq : forall u v, veqb u v = false -> u <> v.
Proof. intros u v H E. subst. rewrite veqb_refl in H. discriminate. Qed.
Lemma rows_eqb_refl : forall u, rows_eqb u u = true.
Proof. induction u; simpl; auto. rewrite veqb_refl; auto. Qed.
Lemma meqb_refl : forall u, meqb u u = true.
Proof. intros. unfold meqb. rewrite !Nat.eqb_refl. apply rows_eqb_refl. Qed.
Lemma meqb_neq : forall u v, meqb u v = false -> u <> v.
Proof. intros u v H E. subst. rewrite meqb_refl in H. discriminate. Qed.

Definition wfb {T} (m : mat T) : bool :=
  (length (dat m) =? nr m)%nat && forallb (fun r => (length r =? nc m)%nat) (dat m).
Lemma wfb_wf : forall T (m : mat T), wfb m = true -> wf m.
Proof.
  intros T m H. apply andb_prop in H. destruct H as [H1 H2]. apply Nat.eqb_eq in H1.
  split; auto. apply Forall_forall. intros r Hr. rewrite forallb_forall in H2.
  apply Nat.eqb_eq. apply H2. auto.
Qed.
Definition shapeb {T} (m : mat T) (r c : nat) : bool := wfb m && (nr m =? r)%nat && (nc m =? c)%nat.
Lemma shapeb_shape : forall T (m : mat T) r c, shapeb m r c = true -> shape m r c.
Proof.
  intros T m r c H. apply andb_prop in H. destruct H as [H H2]. apply andb_prop in H. destruct H as [H H1].
  split; [apply wfb_wf; auto|]. apply Nat.eqb_eq in H1. apply Nat.eqb_eq in H2. auto.
Qed.

(** square-matrix checks *)
Definition forall_lt (n : nat) (p : nat -> bool) : bool := forallb p (range n).
Lemma forall_lt_spec : forall n p, forall_lt n p = true -> forall i, (i < n)%nat -> p i = true.
Proof. intros n p H i Hi. unfold forall_lt in H. rewrite forallb_forall in H. apply H. apply in_range; auto. Qed.
Definition symmetricb (n : nat) (M : mat K) : bool :=
  shapeb M n n && forall_lt n (fun i => forall_lt n (fun j => (get M i j =? get M j i)%K)).
Definition zero_sumsb (n : nat) (M : mat K) : bool :=
  forall_lt n (fun i => (sumn n (fun j => get M i j) =? 0)%K).
End Eqb.
