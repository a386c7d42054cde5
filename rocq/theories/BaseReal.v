(** Order facts about finite sums of reals: Cauchy-Schwarz, Minkowski. *)
From Coq Require Import Arith Lia List Reals Lra Psatz.
From Verif Require Import BasePy BaseFld BaseSum BaseMat.
Import ListNotations.
Local Open Scope R_scope.

(** [sumn] at type R uses the generic operations; this turns them into R's own. *)
Ltac runfold := cbn [k0 k1 kadd kmul ksub kopp kdiv kinv R_ops] in *.

Lemma sumR_S : forall n (f : nat -> R), sumn (S n) f = sumn n f + f n.
Proof. reflexivity. Qed.
Lemma sumR_0 : forall (f : nat -> R), sumn 0 f = 0.
Proof. reflexivity. Qed.

Lemma sumR_nonneg : forall n (f : nat -> R), (forall i, (i < n)%nat -> 0 <= f i) -> 0 <= sumn n f.
Proof.
  induction n; intros f H; [rewrite sumR_0; lra|]. rewrite sumR_S.
  assert (0 <= sumn n f) by (apply IHn; intros; apply H; lia). assert (0 <= f n) by (apply H; lia). lra.
Qed.

Lemma sumR_le : forall n (f g : nat -> R), (forall i, (i < n)%nat -> f i <= g i) -> sumn n f <= sumn n g.
Proof.
  induction n; intros f g H; [rewrite !sumR_0; lra|]. rewrite !sumR_S.
  assert (sumn n f <= sumn n g) by (apply IHn; intros; apply H; lia). assert (f n <= g n) by (apply H; lia). lra.
Qed.

Lemma sumR_zero : forall n (f : nat -> R), (forall i, (i < n)%nat -> 0 <= f i) -> sumn n f = 0 ->
  forall i, (i < n)%nat -> f i = 0.
Proof.
  induction n; intros f H E i Hi; [lia|]. rewrite sumR_S in E.
  assert (0 <= sumn n f) by (apply sumR_nonneg; intros; apply H; lia). assert (0 <= f n) by (apply H; lia).
  destruct (Nat.eq_dec i n) as [->|]; [lra|]. apply IHn; [intros; apply H; lia|lra|lia].
Qed.

Lemma sumR_pos : forall n (f : nat -> R) k, (forall i, (i < n)%nat -> 0 <= f i) -> (k < n)%nat -> 0 < f k -> 0 < sumn n f.
Proof.
  intros n f k H Hk Hp. destruct (Rle_lt_or_eq_dec _ _ (sumR_nonneg n f H)) as [|E]; auto.
  assert (f k = 0) by (apply (sumR_zero n); auto). lra.
Qed.

Lemma sumR_term : forall n (f : nat -> R) k, (forall i, (i < n)%nat -> 0 <= f i) -> (k < n)%nat -> f k <= sumn n f.
Proof.
  induction n; intros f k H Hk; [lia|]. rewrite sumR_S.
  assert (0 <= f n) by (apply H; lia).
  destruct (Nat.eq_dec k n) as [->|].
  - assert (0 <= sumn n f) by (apply sumR_nonneg; intros; apply H; lia). lra.
  - assert (f k <= sumn n f) by (apply IHn; [intros; apply H; lia|lia]). lra.
Qed.

Lemma sumR_scal : forall n a (f : nat -> R), sumn n (fun i => a * f i) = a * sumn n f.
Proof. intros. exact (sumn_scal_l n a f). Qed.
Lemma sumR_add : forall n (f g : nat -> R), sumn n (fun i => f i + g i) = sumn n f + sumn n g.
Proof. intros. exact (sumn_add n f g). Qed.
Lemma sumR_sub : forall n (f g : nat -> R), sumn n (fun i => f i - g i) = sumn n f - sumn n g.
Proof. intros. exact (sumn_sub n f g). Qed.
Lemma sumR_const : forall n a, sumn n (fun _ => a) = INR n * a.
Proof. intros. rewrite sumn_const. rewrite knat_R. reflexivity. Qed.

Lemma cauchy_schwarz : forall n (a b : nat -> R),
  Rsqr (sumn n (fun i => a i * b i)) <= sumn n (fun i => Rsqr (a i)) * sumn n (fun i => Rsqr (b i)).
Proof.
  induction n; intros a b; [rewrite !sumR_0; unfold Rsqr; lra|].
  rewrite !sumR_S. specialize (IHn a b).
  set (S := sumn n (fun i => a i * b i)) in *. set (A := sumn n (fun i => Rsqr (a i))) in *.
  set (B := sumn n (fun i => Rsqr (b i))) in *.
  assert (HA : 0 <= A) by (apply sumR_nonneg; intros; apply Rle_0_sqr).
  assert (HB : 0 <= B) by (apply sumR_nonneg; intros; apply Rle_0_sqr).
  generalize (a n) (b n). intros x y. clearbody S A B.
  assert (H : 2 * S * x * y <= A * Rsqr y + B * Rsqr x).
  { assert (P : 0 <= A * Rsqr y + B * Rsqr x).
    { assert (0 <= Rsqr x) by apply Rle_0_sqr. assert (0 <= Rsqr y) by apply Rle_0_sqr. nra. }
    destruct (Rle_lt_dec (2 * S * x * y) 0); [lra|].
    apply Rsqr_incr_0_var; auto.
    assert (E : Rsqr (2 * S * x * y) = 4 * Rsqr S * (Rsqr x * Rsqr y)) by (unfold Rsqr; ring). rewrite E.
    assert (Q : 0 <= Rsqr (A * Rsqr y - B * Rsqr x)) by apply Rle_0_sqr.
    assert (Q2 : Rsqr (A * Rsqr y + B * Rsqr x) = Rsqr (A * Rsqr y - B * Rsqr x) + 4 * (A * B) * (Rsqr x * Rsqr y)) by (unfold Rsqr; ring).
    rewrite Q2. assert (0 <= Rsqr x * Rsqr y) by (apply Rmult_le_pos; apply Rle_0_sqr). nra. }
  unfold Rsqr in *. nra.
Qed.

Definition norm2 (n : nat) (f : nat -> R) : R := sqrt (sumn n (fun i => Rsqr (f i))).

Lemma norm2_nonneg : forall n f, 0 <= norm2 n f.
Proof. intros. apply sqrt_pos. Qed.
Lemma norm2_sqr : forall n f, Rsqr (norm2 n f) = sumn n (fun i => Rsqr (f i)).
Proof. intros. apply Rsqr_sqrt. apply sumR_nonneg. intros. apply Rle_0_sqr. Qed.

Lemma minkowski : forall n f g, norm2 n (fun i => f i + g i) <= norm2 n f + norm2 n g.
Proof.
  intros n f g. apply Rsqr_incr_0_var.
  2: { generalize (norm2_nonneg n f) (norm2_nonneg n g). lra. }
  assert (E : Rsqr (norm2 n f + norm2 n g) = Rsqr (norm2 n f) + Rsqr (norm2 n g) + 2 * (norm2 n f * norm2 n g)) by (unfold Rsqr; ring).
  rewrite E, !norm2_sqr.
  assert (E2 : sumn n (fun i => Rsqr (f i + g i)) = sumn n (fun i => Rsqr (f i)) + sumn n (fun i => Rsqr (g i)) + 2 * sumn n (fun i => f i * g i)).
  { rewrite <- sumR_scal, <- !sumR_add. apply sumn_ext. intros; unfold Rsqr; ring. }
  rewrite E2.
  assert (H : sumn n (fun i => f i * g i) <= norm2 n f * norm2 n g).
  { destruct (Rle_lt_dec (sumn n (fun i => f i * g i)) 0) as [L|L].
    - assert (0 <= norm2 n f * norm2 n g) by (apply Rmult_le_pos; apply norm2_nonneg). lra.
    - apply Rsqr_incr_0_var; [|apply Rmult_le_pos; apply norm2_nonneg].
      rewrite Rsqr_mult, !norm2_sqr. apply cauchy_schwarz. }
  lra.
Qed.

Lemma norm2_ext : forall n f g, (forall i, (i < n)%nat -> f i = g i) -> norm2 n f = norm2 n g.
Proof. intros n f g H. unfold norm2. f_equal. apply sumn_ext. intros; rewrite H; auto. Qed.

Lemma sumR_all0 : forall n (f : nat -> R), (forall i, (i < n)%nat -> f i = 0) -> sumn n f = 0.
Proof. intros n f H. exact (sumn_zero n f H). Qed.
