(** Finite sums over [0..n-1]. *)
From Coq Require Import Arith Lia List.
From Coq Require Import Ring Field.
From Verif Require Import BasePy BaseFld.
Import ListNotations.
Local Open Scope K_scope.

Fixpoint sumn {K} {O : Ops K} (n : nat) (f : nat -> K) : K :=
  match n with O => 0 | S m => sumn m f + f m end.

(** Sum of a list, as [numpy.sum] on a 1-D array. *)
Fixpoint lsum {K} {O : Ops K} (l : list K) : K :=
  match l with [] => 0 | x :: r => x + lsum r end.

Section Sum.
Context {K : Type} {O : Ops K} {F : Fld K}.
Add Field Kfld : (@k_field K O F).

Lemma sumn_ext : forall n (f g : nat -> K),
  (forall i, (i < n)%nat -> f i = g i) -> sumn n f = sumn n g.
Proof.
  induction n; intros; simpl; [reflexivity|].
  rewrite (IHn f g) by (intros; apply H; lia). rewrite H by lia. reflexivity.
Qed.

Lemma sumn_zero : forall n (f : nat -> K), (forall i, (i < n)%nat -> f i = 0) -> sumn n f = 0.
Proof.
  induction n; intros; simpl; [reflexivity|].
  rewrite IHn by (intros; apply H; lia). rewrite H by lia. ring.
Qed.

Lemma sumn_add : forall n (f g : nat -> K), sumn n (fun i => f i + g i) = sumn n f + sumn n g.
Proof. induction n; intros; simpl; [ring|]. rewrite IHn. ring. Qed.

Lemma sumn_sub : forall n (f g : nat -> K), sumn n (fun i => f i - g i) = sumn n f - sumn n g.
Proof. induction n; intros; simpl; [ring|]. rewrite IHn. ring. Qed.

Lemma sumn_opp : forall n (f : nat -> K), sumn n (fun i => - f i) = - sumn n f.
Proof. induction n; intros; simpl; [ring|]. rewrite IHn. ring. Qed.

Lemma sumn_scal_l : forall n a (f : nat -> K), sumn n (fun i => a * f i) = a * sumn n f.
Proof. induction n; intros; simpl; [ring|]. rewrite IHn. ring. Qed.

Lemma sumn_scal_r : forall n a (f : nat -> K), sumn n (fun i => f i * a) = sumn n f * a.
Proof. induction n; intros; simpl; [ring|]. rewrite IHn. ring. Qed.

Lemma sumn_swap : forall n m (f : nat -> nat -> K),
  sumn n (fun i => sumn m (fun j => f i j)) = sumn m (fun j => sumn n (fun i => f i j)).
Proof.
  induction n; intros; simpl.
  - symmetry. apply sumn_zero. auto.
  - rewrite IHn. rewrite <- sumn_add. reflexivity.
Qed.

Lemma sumn_single : forall n k (f : nat -> K), (k < n)%nat ->
  (forall i, (i < n)%nat -> i <> k -> f i = 0) -> sumn n f = f k.
Proof.
  induction n; intros k f Hk H; [lia|]. simpl.
  destruct (Nat.eq_dec k n) as [->|Hn].
  - rewrite sumn_zero; [ring|]. intros; apply H; lia.
  - rewrite (IHn k f) by (try lia; intros; apply H; lia). rewrite (H n) by lia. ring.
Qed.

Lemma sumn_two : forall n k l (f : nat -> K), (k < n)%nat -> (l < n)%nat -> k <> l ->
  (forall i, (i < n)%nat -> i <> k -> i <> l -> f i = 0) -> sumn n f = f k + f l.
Proof.
  induction n; intros k l f Hk Hl Hkl H; [lia|]. simpl.
  destruct (Nat.eq_dec k n) as [->|Hn].
  - rewrite (sumn_single n l f) by (try lia; intros; apply H; lia). ring.
  - destruct (Nat.eq_dec l n) as [->|Hn'].
    + rewrite (sumn_single n k f) by (try lia; intros; apply H; lia). ring.
    + rewrite (IHn k l f) by (try lia; intros; apply H; lia). rewrite (H n) by lia. ring.
Qed.

Lemma sumn_plus : forall n m (f : nat -> K),
  sumn (n + m) f = sumn n f + sumn m (fun i => f (n + i)%nat).
Proof.
  induction m; intros; simpl.
  - rewrite Nat.add_0_r. ring.
  - rewrite Nat.add_succ_r. simpl. rewrite IHm. ring.
Qed.

Lemma sumn_S_l : forall n (f : nat -> K), sumn (S n) f = f 0%nat + sumn n (fun i => f (S i)).
Proof.
  intros. change (S n) with (1 + n)%nat. rewrite sumn_plus. simpl. ring.
Qed.

Lemma sumn_mul : forall n m (f : nat -> K),
  sumn (n * m) f = sumn n (fun i => sumn m (fun j => f (i * m + j)%nat)).
Proof.
  induction n; intros; simpl; [reflexivity|].
  rewrite Nat.add_comm, sumn_plus, IHn. reflexivity.
Qed.

Lemma sumn_delta_l : forall n k (f : nat -> K), (k < n)%nat ->
  sumn n (fun i => (if (k =? i)%nat then 1 else 0) * f i) = f k.
Proof.
  intros. rewrite (sumn_single n k); auto.
  - rewrite Nat.eqb_refl. ring.
  - intros i _ Hi. destruct (Nat.eqb_spec k i); [lia|ring].
Qed.

Lemma sumn_delta_r : forall n k (f : nat -> K), (k < n)%nat ->
  sumn n (fun i => f i * (if (i =? k)%nat then 1 else 0)) = f k.
Proof.
  intros. rewrite (sumn_single n k); auto.
  - rewrite Nat.eqb_refl. ring.
  - intros i _ Hi. destruct (Nat.eqb_spec i k); [lia|ring].
Qed.

Lemma sumn_const : forall n (a : K), sumn n (fun _ => a) = knat n * a.
Proof. induction n; intros; simpl; [ring|]. rewrite IHn. ring. Qed.

Lemma lsum_app : forall l1 l2 : list K, lsum (l1 ++ l2) = lsum l1 + lsum l2.
Proof. induction l1; intros; simpl; [ring|]. rewrite IHl1. ring. Qed.

Lemma lsum_map_range : forall n (f : nat -> K), lsum (map f (range n)) = sumn n f.
Proof.
  induction n; intros; [reflexivity|].
  rewrite range_S, map_app, lsum_app, IHn. simpl. ring.
Qed.

Lemma lsum_nth : forall l : list K, lsum l = sumn (length l) (fun i => nth i l 0).
Proof. intros. rewrite (list_eta K l 0) at 1. apply lsum_map_range. Qed.
End Sum.
