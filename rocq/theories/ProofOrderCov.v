(** The weights of reordered samples. *)
From Coq Require Import Bool Arith List Lia Permutation Reals.
From Verif Require Import BasePy BaseFld BaseSum BaseMat BaseNumpy ModelMatrixOps ModelErrorMetrics ModelNoiseCov SpecNoise SpecOrder SpecOffset ProofMatrixOps ProofNoiseCov ProofOrder5.
Import ListNotations.
Close Scope R_scope.
Local Open Scope nat_scope.

Section Cov.
Variables (T n : nat) (p : nat -> nat).
Hypothesis HP : new_order T p.
Lemma pos_lt : forall k t, k < n -> t < T -> k * T + t < n * T.
Proof. intros k t Hk Ht. nia. Qed.
Lemma pos_eqb : forall k k' t t', t < T -> t' < T -> (k * T + t =? k' * T + t') = (k =? k') && (t =? t').
Proof.
  intros k k' t t' Ht Ht'. destruct (Nat.eqb_spec k k') as [->|N]; cbn [andb].
  - destruct (Nat.eqb_spec t t') as [->|N]; [apply Nat.eqb_refl|apply Nat.eqb_neq; lia].
  - apply Nat.eqb_neq. intro E. apply N. assert (k < k' \/ k' < k) as [L|L] by lia; nia.
Qed.
Lemma p_eqb : forall t t', t < T -> t' < T -> (p t =? p t') = (t =? t').
Proof. intros t t' Ht Ht'. destruct (Nat.eqb_spec t t') as [->|N]; [apply Nat.eqb_refl|]. apply Nat.eqb_neq. intro E. apply N. apply (order_inj T p HP); assumption. Qed.
Lemma bmat_order : forall r i c r' i' c' : list flt, length r = n * T -> length r' = n * T ->
  (forall k t, k < n -> t < T -> fnth r' (k * T + t) = fnth r (k * T + p t) /\ fnth i' (k * T + t) = fnth i (k * T + p t) /\ fnth c' (k * T + t) = fnth c (k * T + p t)) ->
  reordered_floats T n p (sparse_bmat r i c) (sparse_bmat r' i' c').
Proof.
  intros r i c r' i' c' L L' E. unfold sparse_bmat. rewrite L, L'. unfold reordered_floats. cbn [nr nc mk]. split; [lia|]. split; [lia|]. split; [reflexivity|]. split; [reflexivity|].
  intros a a' k k' t t' Ha Ha' Hk Hk' Ht Ht'. pose proof (order_lt T p HP t Ht) as Hp. pose proof (order_lt T p HP t' Ht') as Hp'. destruct (E k t Hk Ht) as (E1 & E2 & E3). destruct (E k' t' Hk' Ht') as (E1' & E2' & E3').
  pose proof (pos_lt k t Hk Ht). pose proof (pos_lt k' t' Hk' Ht'). pose proof (pos_lt k (p t) Hk Hp). pose proof (pos_lt k' (p t') Hk' Hp').
  assert (IX : forall a k t, a < 2 -> (a * n + k) * T + t = a * (n * T) + (k * T + t)) by (intros; nia). rewrite !IX by assumption.
  set (A := k * T + t) in *. set (B := k' * T + t') in *. set (A' := k * T + p t) in *. set (B' := k' * T + p t') in *.
  assert (EQ : (A =? B) = (A' =? B')) by (unfold A, B, A', B'; rewrite !pos_eqb by assumption; rewrite p_eqb by assumption; reflexivity).
  assert (SH : forall x y, (n * T + x =? n * T + y) = (x =? y)) by (intros x y; destruct (Nat.eqb_spec x y) as [->|N]; [apply Nat.eqb_refl|apply Nat.eqb_neq; lia]).
  destruct a as [|[|a]]; [| |lia]; destruct a' as [|[|a']]; try lia; cbn [Nat.mul]; rewrite ?Nat.add_0_r, ?Nat.add_0_l; rewrite !gget_mk by lia;
  repeat match goal with |- context [?x <? n * T] => first [replace (x <? n * T) with true by (symmetry; apply Nat.ltb_lt; lia)|replace (x <? n * T) with false by (symmetry; apply Nat.ltb_ge; lia)] end;
  rewrite ?Nat.add_sub_swap, ?Nat.sub_diag, ?Nat.add_0_l by lia.
  - rewrite EQ. destruct (A' =? B'); [exact E1|reflexivity].
  - rewrite EQ. destruct (A' =? B'); [exact E3|reflexivity].
  - rewrite EQ. destruct (A' =? B'); [exact E3'|reflexivity].
  - rewrite !SH, EQ. destruct (A' =? B'); [exact E2|reflexivity].
Qed.
Lemma cov_order : forall column all M M' sd sp inv s W W', kernel_eq column all -> sd_means n sd s -> reordered T n p M M' ->
  covariance column all M sd sp inv = Ok W -> covariance column all M' sd sp inv = Ok W' -> reordered_floats T n p W W'.
Proof.
  intros column all M M' sd sp inv s W W' HK HS ((WM & R & C) & (WM' & R' & C') & E) H H'.
  rewrite (covariance_eq column all M sd sp inv s HK) in H by (rewrite C; exact HS). rewrite (covariance_eq column all M' sd sp inv s HK) in H' by (rewrite C'; exact HS).
  assert (EN : forall g k t, k < n -> t < T -> vget (entries g M' s sp) (k * T + t) = vget (entries g M s sp) (k * T + p t)).
  { intros g k t Hk Ht. pose proof (order_lt T p HP t Ht) as Hp. rewrite <- R' at 1. rewrite vget_entries by lia. rewrite <- R at 1. rewrite vget_entries by lia. rewrite E by assumption. reflexivity. }
  assert (LE : forall g, length (entries g M s sp) = n * T) by (intro g; rewrite length_entries, R, C; lia). assert (LE' : forall g, length (entries g M' s sp) = n * T) by (intro g; rewrite length_entries, R', C'; lia).
  assert (X : W = finish_covariance inv (entries (k_real column) M s sp) (entries (k_imag column) M s sp) (entries (k_cov column) M s sp)) by congruence.
  assert (X' : W' = finish_covariance inv (entries (k_real column) M' s sp) (entries (k_imag column) M' s sp) (entries (k_cov column) M' s sp)) by congruence.
  rewrite X, X'. unfold finish_covariance. rewrite LE, LE'. destruct inv; apply bmat_order; rewrite ?map_length; try (unfold range; rewrite seq_length; reflexivity); intros k t Hk Ht; pose proof (order_lt T p HP t Ht) as Hp; pose proof (pos_lt k t Hk Ht); pose proof (pos_lt k (p t) Hk Hp); rewrite ?map_map; rewrite !fnth_map by assumption; cbn [fst snd]; rewrite !EN by assumption; repeat split; reflexivity.
Qed.
End Cov.
