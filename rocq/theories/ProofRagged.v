(** Lists made of blocks of varying length: indices, sums. *)
From Coq Require Import Arith Lia List.
From Coq Require Import Ring Field.
From Verif Require Import BasePy BaseFld BaseSum BaseMat.
Import ListNotations.

Fixpoint off (len : nat -> nat) (b : nat) : nat :=
  match b with O => 0 | S m => off len m + len m end.

Lemma off_mono : forall len a b, a <= b -> off len a <= off len b.
Proof. intros len a b H; induction H; simpl; lia. Qed.

Lemma off_ext : forall l l' b, (forall i, i < b -> l i = l' i) -> off l b = off l' b.
Proof. induction b; intros; simpl; [reflexivity|]. rewrite IHb, H by (intros; try apply H; lia). lia. Qed.

Lemma ragged_lt : forall len m b t, b < m -> t < len b -> off len b + t < off len m.
Proof.
  intros len m b t Hb Ht. assert (off len (S b) <= off len m) by (apply off_mono; lia).
  simpl in *. lia.
Qed.

Lemma ragged_inj : forall len b t b' t', t < len b -> t' < len b' ->
  off len b + t = off len b' + t' -> b = b' /\ t = t'.
Proof.
  intros len b t b' t' H H' E.
  destruct (lt_eq_lt_dec b b') as [[L| ->]|L].
  - assert (off len (S b) <= off len b') by (apply off_mono; lia). simpl in *; lia.
  - lia.
  - assert (off len (S b') <= off len b) by (apply off_mono; lia). simpl in *; lia.
Qed.

Lemma ragged_surj : forall len m q, q < off len m -> exists b t, b < m /\ t < len b /\ q = off len b + t.
Proof.
  induction m; simpl; intros q H; [lia|].
  destruct (lt_dec q (off len m)) as [L|L].
  - destruct (IHm q L) as (b & t & ? & ? & ?). exists b, t. auto with arith.
  - exists m, (q - off len m). repeat split; lia.
Qed.

Definition ragged {A} (len : nat -> nat) (m : nat) (g : nat -> nat -> A) : list A :=
  flat_map (fun b => map (g b) (range (len b))) (range m).

Lemma flat_map_snoc : forall A B (f : A -> list B) l x, flat_map f (l ++ [x]) = flat_map f l ++ f x.
Proof. intros. rewrite flat_map_app. simpl. rewrite app_nil_r. reflexivity. Qed.

Lemma ragged_S : forall A len m (g : nat -> nat -> A),
  ragged len (S m) g = ragged len m g ++ map (g m) (range (len m)).
Proof. intros. unfold ragged. rewrite range_S, flat_map_snoc. reflexivity. Qed.

Lemma ragged_length : forall A len m (g : nat -> nat -> A), length (ragged len m g) = off len m.
Proof.
  induction m; intros; [reflexivity|].
  rewrite ragged_S, app_length, IHm, map_length, length_range. reflexivity.
Qed.

Lemma ragged_nth : forall A len m (g : nat -> nat -> A) b t d, b < m -> t < len b ->
  nth (off len b + t) (ragged len m g) d = g b t.
Proof.
  induction m; intros g b t d Hb Ht; [lia|].
  rewrite ragged_S. destruct (Nat.eq_dec b m) as [->|Hn].
  - rewrite app_nth2; rewrite ragged_length; [|lia].
    replace (off len m + t - off len m) with t by lia. apply nth_map_range; auto.
  - rewrite app_nth1 by (rewrite ragged_length; apply ragged_lt; lia). apply IHm; lia.
Qed.

Lemma ragged_ext : forall A len len' m (g g' : nat -> nat -> A),
  (forall b, b < m -> len b = len' b) ->
  (forall b t, b < m -> t < len b -> g b t = g' b t) -> ragged len m g = ragged len' m g'.
Proof.
  induction m; intros; [reflexivity|].
  rewrite !ragged_S. rewrite (IHm g g') by (intros; try apply H; try apply H0; lia).
  f_equal. rewrite <- (H m) by lia. apply map_range_ext. intros; apply H0; lia.
Qed.

Lemma seq_range : forall a n, seq a n = map (fun t => a + t) (range n).
Proof.
  intros. apply nth_ext with (d := 0) (d' := 0).
  - rewrite map_length, length_range, seq_length; reflexivity.
  - intros k Hk. rewrite seq_length in Hk. rewrite seq_nth by auto.
    rewrite (nth_map_range _ (fun t => a + t)) by auto. reflexivity.
Qed.

Section RSum.
Context {K : Type} {O : Ops K} {F : Fld K}.
Add Field Kfld : (@k_field K O F).
Local Open Scope K_scope.

Lemma ragged_sum : forall len m (f : nat -> K),
  sumn (off len m) f = sumn m (fun b => sumn (len b) (fun t => f (off len b + t)%nat)).
Proof.
  induction m; intros; simpl; [reflexivity|]. rewrite sumn_plus, IHm. reflexivity.
Qed.

Lemma ragged_vec_ext : forall len m (u v : list K), length u = off len m -> length v = off len m ->
  (forall b t, (b < m)%nat -> (t < len b)%nat -> vget u (off len b + t) = vget v (off len b + t)) -> u = v.
Proof.
  intros len m u v Hu Hv H. apply vec_ext; [congruence|].
  intros i Hi. rewrite Hu in Hi. destruct (ragged_surj _ _ _ Hi) as (b & t & Hb & Ht & ->). auto.
Qed.
End RSum.

(** ** Triangular index arithmetic *)
(** start of column [b] in the stacked lower triangle of an n-by-n matrix *)
Definition hlen (n b : nat) : nat := n - b.
(** same for the strictly lower triangle *)
Definition slen (n b : nat) : nat := n - S b.

Lemma off_hlen : forall n b, b <= n -> 2 * off (hlen n) b + b * b = b * (2 * n + 1).
Proof.
  induction b; intros; simpl off; [lia|]. unfold hlen at 2.
  specialize (IHb ltac:(lia)). nia.
Qed.

Lemma off_slen : forall n b, b <= n -> 2 * off (slen n) b + b * b + b = b * (2 * n).
Proof.
  induction b; intros; simpl off; [lia|]. unfold slen at 2.
  specialize (IHb ltac:(lia)). nia.
Qed.

Lemma off_hlen_full : forall n, 2 * off (hlen n) n = n * (n + 1).
Proof. intros. generalize (off_hlen n n (le_n n)). nia. Qed.
Lemma off_slen_full : forall n, 2 * off (slen n) n = n * (n - 1).
Proof. intros. generalize (off_slen n n (le_n n)). nia. Qed.

Lemma off_hlen_slen : forall n b, b <= n -> off (hlen n) b = off (slen n) b + b.
Proof. intros. generalize (off_hlen n b H) (off_slen n b H). nia. Qed.

(** position of (a,b), b <= a, in the stacked lower triangle *)
Definition hidx (n a b : nat) : nat := off (hlen n) b + (a - b).
(** position of (a,b), b < a, in the strictly lower triangle *)
Definition sidx (n a b : nat) : nat := off (slen n) b + (a - S b).

Lemma hidx_lt : forall n a b, b <= a -> a < n -> hidx n a b < off (hlen n) n.
Proof. intros. apply ragged_lt; unfold hlen; lia. Qed.
Lemma sidx_lt : forall n a b, b < a -> a < n -> sidx n a b < off (slen n) n.
Proof. intros. apply ragged_lt; unfold slen; lia. Qed.

Lemma hidx_inj : forall n a b a' b', b <= a -> a < n -> b' <= a' -> a' < n ->
  hidx n a b = hidx n a' b' -> a = a' /\ b = b'.
Proof.
  intros n a b a' b' H1 H2 H3 H4 E. unfold hidx in E.
  apply ragged_inj in E; unfold hlen; try lia.
Qed.
Lemma sidx_inj : forall n a b a' b', b < a -> a < n -> b' < a' -> a' < n ->
  sidx n a b = sidx n a' b' -> a = a' /\ b = b'.
Proof.
  intros n a b a' b' H1 H2 H3 H4 E. unfold sidx in E.
  apply ragged_inj in E; unfold slen; try lia.
Qed.

Lemma hidx_surj : forall n q, q < off (hlen n) n -> exists a b, b <= a /\ a < n /\ q = hidx n a b.
Proof.
  intros n q H. destruct (ragged_surj _ _ _ H) as (b & t & Hb & Ht & ->).
  unfold hlen in Ht. exists (b + t), b. unfold hidx. repeat split; try lia.
Qed.
Lemma sidx_surj : forall n q, q < off (slen n) n -> exists a b, b < a /\ a < n /\ q = sidx n a b.
Proof.
  intros n q H. destruct (ragged_surj _ _ _ H) as (b & t & Hb & Ht & ->).
  unfold slen in Ht. exists (S b + t), b. unfold sidx. repeat split; try lia.
Qed.
