(** Facts about the set model: contents, and when iteration is in ascending order. *)
From Coq Require Import List Arith Lia Permutation Sorted Bool.
From Verif Require Import BasePy ModelSet.
Import ListNotations.

Lemma FUEL_S : exists n, FUEL = S n.
Proof. exists 199. reflexivity. Qed.
Opaque FUEL.

Lemma mem_In : forall x l, mem x l = true <-> In x l.
Proof.
  intros. unfold mem. rewrite existsb_exists. split.
  - intros (y & Hy & E). apply Nat.eqb_eq in E. subst; auto.
  - intros H. exists x. split; auto. apply Nat.eqb_refl.
Qed.
Lemma mem_not_In : forall x l, mem x l = false <-> ~ In x l.
Proof. intros. rewrite <- mem_In. destruct (mem x l); split; congruence. Qed.

Lemma keys_empty : forall n, keys (empty_table n) = [].
Proof. induction n; simpl; auto. Qed.
Lemma length_empty : forall n, length (empty_table n) = n.
Proof. intros; apply repeat_length. Qed.
Lemma slot_empty : forall n i, slot (empty_table n) i = None.
Proof. unfold slot, empty_table. induction n; destruct i; simpl; auto. Qed.

Lemma used_le_length : forall t, used t <= length t.
Proof. unfold used. induction t as [|[x|] t IH]; simpl; lia. Qed.
Lemma used_lt_free : forall t, used t < length t -> exists i, i < length t /\ free t i = true.
Proof.
  unfold used. induction t as [|[x|] t IH]; simpl; intros H; try lia.
  - destruct IH as (i & Hi & Hf); [lia|]. exists (S i). split; [lia|exact Hf].
  - exists 0. split; [lia|reflexivity].
Qed.

Lemma used_perm : forall t l, Permutation (keys t) l -> used t = length l.
Proof. intros t l P. apply (Permutation_length P). Qed.
Lemma used_cons : forall t t' x, Permutation (keys t') (x :: keys t) -> used t' = S (used t).
Proof. intros t t' x P. apply (Permutation_length P). Qed.
Lemma used_same : forall t t', Permutation (keys t') (keys t) -> used t' = used t.
Proof. intros t t' P. apply (Permutation_length P). Qed.

Lemma length_put : forall t i x, length (put t i x) = length t.
Proof. induction t; destruct i; simpl; intros; auto. Qed.
Lemma keys_put : forall t i x, i < length t -> free t i = true ->
  Permutation (keys (put t i x)) (x :: keys t).
Proof.
  induction t as [|o t IH]; intros [|i] x Hi Hf; simpl in *; try lia.
  - unfold free, slot in Hf. simpl in Hf. destruct o; [discriminate|]. apply Permutation_refl.
  - assert (Hp := IH i x ltac:(lia) Hf).
    destruct o as [y|]; [|exact Hp].
    eapply Permutation_trans; [apply perm_skip; exact Hp|]. apply perm_swap.
Qed.
Lemma slot_put : forall t i x j, i < length t ->
  slot (put t i x) j = if j =? i then Some x else slot t j.
Proof.
  unfold slot. induction t as [|o t IH]; intros [|i] x [|j] Hi; simpl in *; try lia; auto.
  apply IH; lia.
Qed.

Lemma find_free : forall t l j, find (free t) l = Some j -> In j l /\ free t j = true.
Proof. intros. apply find_some in H. exact H. Qed.

Lemma probe_ok : forall fuel t i p j, i < length t -> probe fuel t i p = Some j ->
  j < length t /\ free t j = true.
Proof.
  induction fuel as [|fuel IH]; intros t i p j Hi H; cbn [probe] in H.
  - apply find_free in H. destruct H as [H1 H2]. apply in_seq in H1. split; [lia|auto].
  - destruct (find (free t) (window t i)) as [k|] eqn:E.
    + injection H as <-. apply find_free in E. destruct E as [E1 E2]. split; auto.
      unfold window in E1. destruct (Nat.leb_spec (i + LINEAR_PROBES) (length t - 1)).
      * apply in_seq in E1. unfold LINEAR_PROBES in *. lia.
      * destruct E1 as [<-|[]]; auto.
    + apply (IH _ _ _ _ (Nat.mod_upper_bound _ (length t) ltac:(lia)) H).
Qed.
Lemma probe_total : forall fuel t i p, used t < length t -> exists j, probe fuel t i p = Some j.
Proof.
  induction fuel as [|fuel IH]; intros t i p H; cbn [probe].
  - destruct (used_lt_free t H) as (k & Hk & Hf).
    destruct (find (free t) (seq 0 (length t))) as [j|] eqn:E; [eauto|].
    exfalso. assert (Hn := find_none _ _ E k ltac:(apply in_seq; lia)). congruence.
  - destruct (find (free t) (window t i)); eauto.
Qed.

Lemma insert_clean_ok : forall t x, used t < length t ->
  length (insert_clean t x) = length t /\ Permutation (keys (insert_clean t x)) (x :: keys t).
Proof.
  intros t x H. unfold insert_clean.
  destruct (probe_total FUEL t (x mod length t) x H) as (j & Hj). rewrite Hj.
  apply probe_ok in Hj; [|apply Nat.mod_upper_bound; lia].
  destruct Hj. split; [apply length_put|apply keys_put; auto].
Qed.

Opaque insert_clean.

Lemma fold_left_cons : forall A B (f : A -> B -> A) x l a, fold_left f (x :: l) a = fold_left f l (f a x).
Proof. reflexivity. Qed.

Lemma fold_insert_ok : forall l t, used t + length l <= length t ->
  length (fold_left insert_clean l t) = length t /\
  Permutation (keys (fold_left insert_clean l t)) (l ++ keys t).
Proof.
  intros l. induction l as [|x l IH].
  - intros t H. split; [reflexivity|apply Permutation_refl].
  - intros t H. rewrite fold_left_cons. change (length (x :: l)) with (S (length l)) in H.
    assert (Ht : used t < length t) by lia.
    destruct (insert_clean_ok t x Ht) as [L P].
    assert (U := used_cons _ _ _ P).
    revert L P U. generalize (insert_clean t x). intros t' L P U.
    destruct (IH t') as [L' P']; [lia|].
    split; [lia|].
    eapply Permutation_trans; [exact P'|].
    eapply Permutation_trans; [apply Permutation_app_head; exact P|].
    apply Permutation_sym. apply (Permutation_middle l (keys t) x).
Qed.

Lemma grow_gt : forall fuel size m, 0 < size -> m < size + fuel -> m < grow fuel size m /\ size <= grow fuel size m.
Proof.
  induction fuel as [|fuel IH]; intros size m Hs H; cbn [grow]; [lia|].
  destruct (Nat.ltb_spec m size); [lia|].
  destruct (IH (size * 2) m) as [A B]; lia.
Qed.
Lemma newsize_gt : forall m, m < newsize m /\ MINSIZE <= newsize m.
Proof. intros. unfold newsize. apply grow_gt; unfold MINSIZE; lia. Qed.
Lemma minused_ge : forall n, n * 2 <= minused n.
Proof. intros. unfold minused. destruct (50000 <? n); lia. Qed.

Opaque minused newsize.

Lemma resize_ok : forall t m, used t <= m ->
  length (resize t m) = newsize m /\ Permutation (keys (resize t m)) (keys t).
Proof.
  intros t m H. unfold resize.
  destruct (newsize_gt m) as [G _].
  destruct (fold_insert_ok (keys t) (empty_table (newsize m))) as [L P].
  - unfold used in *. rewrite keys_empty, length_empty. cbn [length]. lia.
  - rewrite length_empty in L. rewrite keys_empty, app_nil_r in P. auto.
Qed.

(** tables of sets built by additions *)
Definition roomy (t : table) : Prop := used t * 5 < (length t - 1) * 3.

Lemma roomy_lt : forall t, roomy t -> used t < length t.
Proof. unfold roomy; lia. Qed.

Lemma set_add_new : forall t x, roomy t -> ~ In x (keys t) ->
  roomy (set_add t x) /\ Permutation (keys (set_add t x)) (x :: keys t) /\
  length (set_add t x) = if S (used t) * 5 <? (length t - 1) * 3 then length t else newsize (minused (S (used t))).
Proof.
  intros t x R N. unfold set_add. rewrite (proj2 (mem_not_In _ _) N).
  destruct (insert_clean_ok t x (roomy_lt _ R)) as [L P].
  assert (U : used (insert_clean t x) = S (used t)) by exact (used_cons _ _ _ P).
  rewrite U, L.
  destruct (Nat.ltb_spec (S (used t) * 5) ((length t - 1) * 3)) as [C|C].
  - unfold roomy. rewrite U, L. auto.
  - assert (M := minused_ge (S (used t))).
    destruct (resize_ok (insert_clean t x) (minused (S (used t)))) as [L' P']; [lia|].
    split; [|split].
    + unfold roomy. rewrite L', (used_same _ _ P'), U. destruct (newsize_gt (minused (S (used t)))). lia.
    + eapply Permutation_trans; eauto.
    + exact L'.
Qed.
Lemma set_add_old : forall t x, In x (keys t) -> set_add t x = t.
Proof. intros t x H. unfold set_add. rewrite (proj2 (mem_In _ _) H). reflexivity. Qed.

Lemma fold_add_ok : forall l t, roomy t -> NoDup (keys t) ->
  let t' := fold_left set_add l t in
  roomy t' /\ NoDup (keys t') /\ (forall x, In x (keys t') <-> In x l \/ In x (keys t)).
Proof.
  induction l as [|x l IH]; intros t R N; cbn [fold_left].
  - repeat split; auto. intros [[]|H]; auto.
  - destruct (in_dec Nat.eq_dec x (keys t)) as [I|I].
    + rewrite set_add_old by auto. destruct (IH t R N) as (A & B & C).
      repeat split; auto.
      * intros H. apply C in H. simpl. tauto.
      * intros H. apply C. destruct H as [[->|H]|H]; auto.
    + destruct (set_add_new t x R I) as (R' & P & _).
      assert (N' : NoDup (keys (set_add t x))) by (apply (Permutation_NoDup (Permutation_sym P)); constructor; auto).
      destruct (IH _ R' N') as (A & B & C).
      repeat split; auto.
      * intros H. apply C in H. destruct H as [H|H]; [left; right; auto|].
        apply (Permutation_in _ P) in H. destruct H as [H|H]; [left; left; auto|auto].
      * intros H. apply C.
        destruct H as [[H|H]|H]; auto; right; apply (Permutation_in _ (Permutation_sym P)); simpl; auto.
Qed.

Lemma roomy_empty : forall n, MINSIZE <= n -> roomy (empty_table n).
Proof. unfold roomy, used, MINSIZE. intros. rewrite keys_empty, length_empty. cbn [length]. lia. Qed.

Lemma set_of_ok : forall l, roomy (set_of l) /\ NoDup (keys (set_of l)) /\ (forall x, In x (keys (set_of l)) <-> In x l).
Proof.
  intros l. unfold set_of.
  destruct (fold_add_ok l (empty_table MINSIZE)) as (A & B & C).
  - apply roomy_empty; auto.
  - rewrite keys_empty. constructor.
  - repeat split; auto; intros H; [apply C in H|apply C]; rewrite keys_empty in *; simpl in *; tauto.
Qed.

(** additions of new keys *)
Fixpoint cap (k : nat) : nat :=
  match k with
  | 0 => MINSIZE
  | S k' => let c := cap k' in if k * 5 <? (c - 1) * 3 then c else newsize (minused k)
  end.

Lemma fold_add_new : forall l t, roomy t -> NoDup (l ++ keys t) -> length t = cap (used t) ->
  let t' := fold_left set_add l t in
  roomy t' /\ Permutation (keys t') (l ++ keys t) /\ length t' = cap (used t').
Proof.
  induction l as [|x l IH]; intros t R N Hc; cbn [fold_left app] in *.
  - repeat split; auto.
  - inversion N as [|? ? Nx Nl]; subst.
    assert (I : ~ In x (keys t)) by (intros H; apply Nx; apply in_or_app; auto).
    destruct (set_add_new t x R I) as (R' & P & L).
    assert (U : used (set_add t x) = S (used t)) by exact (used_cons _ _ _ P).
    destruct (IH (set_add t x)) as (A & B & C); auto.
    + eapply Permutation_NoDup; [|exact N].
      eapply Permutation_trans; [apply Permutation_middle|].
      apply Permutation_app_head. apply Permutation_sym. exact P.
    + rewrite U. cbn [cap]. rewrite L, Hc. reflexivity.
    + repeat split; auto.
      eapply Permutation_trans; [exact B|].
      eapply Permutation_trans; [apply Permutation_app_head; exact P|].
      apply Permutation_sym. apply Permutation_middle.
Qed.

Lemma cap_mono1 : forall k, cap k <= cap (S k) /\ MINSIZE <= cap k.
Proof.
  assert (H8 : forall k, MINSIZE <= cap k).
  { induction k; [auto|]. cbn [cap]. destruct (S k * 5 <? (cap k - 1) * 3); auto. apply newsize_gt. }
  intros k. split; [|auto]. cbn [cap].
  destruct (Nat.ltb_spec (S k * 5) ((cap k - 1) * 3)); [lia|].
  destruct (newsize_gt (minused (S k))). assert (M := minused_ge (S k)). specialize (H8 k). unfold MINSIZE in *. lia.
Qed.
Lemma cap_mono : forall j k, j <= k -> cap j <= cap k.
Proof. induction 1; [lia|]. destruct (cap_mono1 m). lia. Qed.
Lemma cap_room : forall k, k * 5 < (cap k - 1) * 3.
Proof.
  induction k; [cbn; lia|]. cbn [cap]. destruct (Nat.ltb_spec (S k * 5) ((cap k - 1) * 3)); auto.
  destruct (newsize_gt (minused (S k))). assert (M := minused_ge (S k)). lia.
Qed.
Lemma cap_5 : cap 5 = 32. Proof. vm_compute. reflexivity. Qed.
Lemma cap_19 : cap 19 = 128. Proof. vm_compute. reflexivity. Qed.
Lemma cap_77 : cap 77 = 512. Proof. vm_compute. reflexivity. Qed.
Lemma cap_307 : cap 307 = 2048. Proof. vm_compute. reflexivity. Qed.

(** ascending iteration *)
Definition aligned (t : table) : Prop := forall i x, slot t i = Some x -> x = i.

Lemma keys_slot : forall t x, In x (keys t) <-> exists i, i < length t /\ slot t i = Some x.
Proof.
  unfold slot. induction t as [|o t IH]; intros x.
  - simpl. split; [intros []|intros (i & H & _); lia].
  - split.
    + intros H. destruct o as [y|]; simpl in H.
      * destruct H as [->|H]; [exists 0; simpl; split; [lia|auto]|].
        apply IH in H. destruct H as (i & Hi & E). exists (S i). simpl. split; [lia|auto].
      * apply IH in H. destruct H as (i & Hi & E). exists (S i). simpl. split; [lia|auto].
    + intros ([|i] & Hi & E); simpl in *.
      * subst o. left; auto.
      * assert (In x (keys t)) by (apply IH; exists i; split; [lia|auto]).
        destruct o; simpl; auto.
Qed.

Transparent insert_clean.
Lemma aligned_insert : forall t x, aligned t -> used t < length t -> x < length t -> ~ In x (keys t) ->
  aligned (insert_clean t x).
Proof.
  intros t x A U Hx N. unfold insert_clean.
  assert (Fx : free t x = true).
  { unfold free. destruct (slot t x) as [y|] eqn:E; [|auto].
    exfalso. apply N. rewrite (A _ _ E) in E. apply keys_slot. exists x. auto. }
  rewrite Nat.mod_small by auto.
  assert (P : probe FUEL t x x = Some x).
  { destruct FUEL_S as [f ->]. cbn [probe]. unfold window.
    destruct (x + LINEAR_PROBES <=? length t - 1); cbn [seq find]; rewrite Fx; reflexivity. }
  rewrite P. intros i y H. rewrite slot_put in H by auto.
  destruct (Nat.eqb_spec i x); [congruence|]. apply A; auto.
Qed.
Opaque insert_clean.
Lemma fold_insert_aligned : forall l t, aligned t -> used t + length l <= length t -> NoDup (l ++ keys t) ->
  (forall x, In x l -> x < length t) -> aligned (fold_left insert_clean l t).
Proof.
  induction l as [|x l IH]; intros t A U N H; [exact A|]. rewrite fold_left_cons.
  change (length (x :: l)) with (S (length l)) in U. change ((x :: l) ++ keys t) with (x :: (l ++ keys t)) in N.
  assert (Nx : ~ In x (l ++ keys t)) by (inversion N; auto).
  destruct (insert_clean_ok t x) as [L P]; [lia|].
  apply IH.
  - apply aligned_insert; [exact A|lia|apply H; left; auto|]. intros I. apply Nx, in_or_app; auto.
  - rewrite L, (used_cons _ _ _ P). lia.
  - eapply Permutation_NoDup; [|exact N].
    eapply Permutation_trans; [apply Permutation_middle|].
    apply Permutation_app_head. apply Permutation_sym. exact P.
  - intros y Hy. rewrite L. apply H. right; auto.
Qed.
Lemma aligned_empty : forall n, aligned (empty_table n).
Proof. intros n i x H. rewrite slot_empty in H. discriminate. Qed.
Lemma fold_insert_empty : forall l n, NoDup l -> length l <= n -> (forall x, In x l -> x < n) ->
  aligned (fold_left insert_clean l (empty_table n)).
Proof.
  intros. apply fold_insert_aligned.
  - apply aligned_empty.
  - unfold used. rewrite keys_empty, length_empty. auto.
  - rewrite keys_empty, app_nil_r. auto.
  - rewrite length_empty. auto.
Qed.

Lemma set_add_aligned : forall t x, roomy t -> NoDup (keys t) ->
  ((forall y, In y (keys t) -> y < length t) -> aligned t) ->
  ((forall y, In y (keys (set_add t x)) -> y < length (set_add t x)) -> aligned (set_add t x)).
Proof.
  intros t x R N A. destruct (in_dec Nat.eq_dec x (keys t)) as [I|I].
  - rewrite set_add_old by auto. auto.
  - unfold set_add. rewrite (proj2 (mem_not_In _ _) I).
    destruct (insert_clean_ok t x (roomy_lt _ R)) as [L P].
    assert (U : used (insert_clean t x) = S (used t)) by exact (used_cons _ _ _ P).
    assert (N' : NoDup (keys (insert_clean t x))) by (apply (Permutation_NoDup (Permutation_sym P)); constructor; auto).
    destruct (used (insert_clean t x) * 5 <? (length (insert_clean t x) - 1) * 3).
    + intros H. rewrite L in H.
      assert (forall y, In y (x :: keys t) -> y < length t).
      { intros y Hy. apply H. apply (Permutation_in _ (Permutation_sym P)); auto. }
      apply aligned_insert; [apply A; intros; apply H0; right; auto|apply roomy_lt; auto|apply H0; left; auto|auto].
    + assert (M := minused_ge (used (insert_clean t x))).
      destruct (resize_ok (insert_clean t x) (minused (used (insert_clean t x)))) as [L' P']; [lia|].
      intros H. rewrite L' in H. unfold resize.
      destruct (newsize_gt (minused (used (insert_clean t x)))) as [G _].
      apply fold_insert_empty; auto; [unfold used in *; lia|].
      intros y Hy. apply H. apply (Permutation_in _ (Permutation_sym P')); auto.
Qed.
Lemma fold_add_aligned : forall l t, roomy t -> NoDup (keys t) ->
  ((forall y, In y (keys t) -> y < length t) -> aligned t) ->
  ((forall y, In y (keys (fold_left set_add l t)) -> y < length (fold_left set_add l t)) -> aligned (fold_left set_add l t)).
Proof.
  induction l as [|x l IH]; intros t R N A; cbn [fold_left]; [auto|].
  destruct (fold_add_ok [x] t R N) as (R' & N' & _). cbn [fold_left] in R', N'.
  apply IH; auto. apply set_add_aligned; auto.
Qed.
Lemma set_of_aligned : forall l, (forall x, In x l -> x < length (set_of l)) -> aligned (set_of l).
Proof.
  intros l H. unfold set_of in *. apply fold_add_aligned.
  - apply roomy_empty; auto.
  - rewrite keys_empty; constructor.
  - intros _. apply aligned_empty.
  - intros y Hy. apply H. apply (set_of_ok l). exact Hy.
Qed.

Lemma aligned_sorted_gen : forall t o, (forall i x, slot t i = Some x -> x = o + i) ->
  StronglySorted lt (keys t) /\ (forall x, In x (keys t) -> o <= x).
Proof.
  induction t as [|c t IH]; intros o A; [split; [constructor|intros x []]|].
  destruct (IH (S o)) as [S1 S2].
  { intros i x H. specialize (A (S i) x H). lia. }
  destruct c as [y|]; simpl.
  - assert (y = o) by (specialize (A 0 y eq_refl); lia). subst y. split.
    + constructor; auto. apply Forall_forall. intros x Hx. specialize (S2 x Hx). lia.
    + intros x [->|Hx]; [lia|]. specialize (S2 x Hx). lia.
  - split; auto. intros x Hx. specialize (S2 x Hx). lia.
Qed.
Lemma aligned_sorted : forall t, aligned t -> StronglySorted lt (keys t).
Proof. intros t A. apply (aligned_sorted_gen t 0). exact A. Qed.

Lemma sorted_unique : forall l1 l2, StronglySorted lt l1 -> StronglySorted lt l2 ->
  (forall x, In x l1 <-> In x l2) -> l1 = l2.
Proof.
  induction l1 as [|a l1 IH]; intros [|b l2] S1 S2 H; auto.
  - exfalso. apply (proj2 (H b)). left; auto.
  - exfalso. apply (proj1 (H a)). left; auto.
  - inversion S1 as [|? ? S1' F1]; inversion S2 as [|? ? S2' F2]; subst.
    rewrite Forall_forall in F1, F2.
    assert (a = b).
    { destruct (proj1 (H a) (or_introl eq_refl)) as [E|I1]; [auto|].
      destruct (proj2 (H b) (or_introl eq_refl)) as [E|I2]; [auto|].
      specialize (F1 _ I2). specialize (F2 _ I1). lia. }
    subst b. f_equal. apply IH; auto. intros x. split; intros I.
    + destruct (proj1 (H x) (or_intror I)) as [E|E]; auto. subst x. specialize (F1 _ I). lia.
    + destruct (proj2 (H x) (or_intror I)) as [E|E]; auto. subst x. specialize (F2 _ I). lia.
Qed.
Lemma sorted_seq : forall n o, StronglySorted lt (seq o n).
Proof.
  induction n; intros o; simpl; constructor; auto.
  apply Forall_forall. intros x H. apply in_seq in H. lia.
Qed.
Lemma sorted_filter : forall f l, StronglySorted lt l -> StronglySorted lt (filter f l).
Proof.
  induction l as [|a l IH]; intros H; simpl; [constructor|].
  inversion H as [|? ? H1 H2]; subst. destruct (f a); auto.
  constructor; auto. rewrite Forall_forall in *. intros x Hx. apply filter_In in Hx. apply H2. tauto.
Qed.

(** differences *)
Lemma set_copy_ok : forall t, roomy t -> NoDup (keys t) ->
  Permutation (keys (set_copy t)) (keys t) /\ used t < length (set_copy t).
Proof.
  intros t R N. unfold set_copy.
  match goal with |- context [if ?c then MINSIZE else ?e] => set (size := if c then MINSIZE else e) end.
  assert (Hs : used t < size).
  { unfold size. destruct (Nat.ltb_spec (used t * 5) ((MINSIZE - 1) * 3)); unfold MINSIZE in *; [lia|].
    destruct (newsize_gt (used t * 2)). lia. }
  destruct (Nat.eqb_spec size (length t)); [split; [apply Permutation_refl|lia]|].
  destruct (fold_insert_ok (keys t) (empty_table size)) as [L P].
  - unfold used in *. rewrite keys_empty, length_empty. cbn [length]. lia.
  - rewrite keys_empty, app_nil_r in P. rewrite length_empty in L. split; [auto|lia].
Qed.

Lemma keys_discard : forall other t,
  keys (map (fun o => match o with Some x => if mem x other then None else Some x | None => None end) t)
  = filter (fun x => negb (mem x other)) (keys t).
Proof.
  induction t as [|[x|] t IH]; simpl; auto.
  destruct (mem x other); simpl; rewrite IH; auto.
Qed.
Lemma set_discard_perm : forall t other,
  Permutation (keys (set_discard t other)) (filter (fun x => negb (mem x other)) (keys t)).
Proof.
  intros. unfold set_discard. set (t' := map _ t).
  destruct (used t - used t' <=? (length t - 1) / 4).
  - unfold t'. rewrite keys_discard. apply Permutation_refl.
  - assert (M := minused_ge (used t')).
    destruct (resize_ok t' (minused (used t'))) as [_ P]; [lia|].
    assert (E : keys t' = filter (fun x => negb (mem x other)) (keys t)) by apply keys_discard.
    rewrite E in P. exact P.
Qed.

Lemma filter_perm : forall (f : nat -> bool) l l', Permutation l l' -> Permutation (filter f l) (filter f l').
Proof.
  induction 1; simpl; auto.
  - destruct (f x); auto.
  - destruct (f x), (f y); auto. apply perm_swap.
  - eapply Permutation_trans; eauto.
Qed.

Lemma set_diff_perm : forall so other, roomy so -> NoDup (keys so) ->
  Permutation (keys (set_diff so other)) (filter (fun x => negb (mem x (keys other))) (keys so)).
Proof.
  intros so other R N. unfold set_diff. destruct (used other <? used so / 4).
  - eapply Permutation_trans; [apply set_discard_perm|].
    apply filter_perm. apply set_copy_ok; auto.
  - destruct (fold_add_new (filter (fun x => negb (mem x (keys other))) (keys so)) (empty_table MINSIZE)) as (_ & P & _).
    + apply roomy_empty; auto.
    + rewrite keys_empty, app_nil_r. apply NoDup_filter; auto.
    + rewrite length_empty. unfold used. rewrite keys_empty. reflexivity.
    + rewrite keys_empty, app_nil_r in P. exact P.
Qed.

Lemma range_aligned : forall n, aligned (set_of (range n)) /\ keys (set_of (range n)) = range n /\ length (set_of (range n)) = cap n.
Proof.
  intros n. destruct (set_of_ok (range n)) as (R & N & I).
  destruct (fold_add_new (range n) (empty_table MINSIZE)) as (_ & P & L).
  - apply roomy_empty; auto.
  - rewrite keys_empty, app_nil_r. apply seq_NoDup.
  - rewrite length_empty. unfold used. rewrite keys_empty. reflexivity.
  - fold (set_of (range n)) in P, L. rewrite keys_empty, app_nil_r in P.
    assert (U : used (set_of (range n)) = n) by (rewrite (used_perm _ _ P); apply length_range).
    rewrite U in L.
    assert (A : aligned (set_of (range n))).
    { apply set_of_aligned. intros x Hx. apply in_range in Hx. rewrite L. assert (C := cap_room n). lia. }
    split; [auto|split; auto].
    apply sorted_unique; [apply aligned_sorted; auto|apply sorted_seq|exact I].
Qed.

Definition kept_nodes (n : nat) (idx : list nat) : list nat :=
  filter (fun i => negb (existsb (Nat.eqb i) idx)) (seq 0 n).

Lemma mem_set_of : forall x l, mem x (keys (set_of l)) = mem x l.
Proof.
  intros. destruct (mem x l) eqn:E.
  - apply mem_In. apply (set_of_ok l). apply mem_In; auto.
  - apply mem_not_In. intros H. apply (set_of_ok l) in H. apply mem_In in H. congruence.
Qed.

Lemma remaining_perm : forall n idx, Permutation (remaining n idx) (kept_nodes n idx).
Proof.
  intros. unfold remaining.
  destruct (set_of_ok (range n)) as (R & N & _).
  eapply Permutation_trans; [apply set_diff_perm; auto|].
  destruct (range_aligned n) as (_ & E & _). rewrite E.
  unfold kept_nodes, range. apply Permutation_refl'. apply filter_ext.
  intros a. rewrite mem_set_of. reflexivity.
Qed.

Lemma remaining_In : forall n idx x, In x (remaining n idx) <-> x < n /\ ~ In x idx.
Proof.
  intros. split; intros H.
  - apply (Permutation_in _ (remaining_perm n idx)) in H. unfold kept_nodes in H. apply filter_In in H.
    destruct H as [H1 H2]. apply in_seq in H1. apply negb_true_iff in H2.
    split; [lia|]. apply mem_not_In. exact H2.
  - apply (Permutation_in _ (Permutation_sym (remaining_perm n idx))). unfold kept_nodes. apply filter_In.
    split; [apply in_seq; lia|]. apply negb_true_iff. apply mem_not_In. tauto.
Qed.
Lemma remaining_NoDup : forall n idx, NoDup (remaining n idx).
Proof.
  intros. apply (Permutation_NoDup (Permutation_sym (remaining_perm n idx))).
  apply NoDup_filter, seq_NoDup.
Qed.
Lemma aligned_remaining : forall n idx, aligned (set_diff (set_of (range n)) (set_of idx)) ->
  remaining n idx = kept_nodes n idx.
Proof.
  intros n idx A. apply sorted_unique.
  - apply aligned_sorted; auto.
  - apply sorted_filter, sorted_seq.
  - intros x. rewrite remaining_In. unfold kept_nodes. rewrite filter_In, in_seq, negb_true_iff.
    fold (mem x idx). rewrite mem_not_In. split; intros [H1 H2]; (split; [lia|exact H2]).
Qed.

Lemma set_of_used : forall l, used (set_of l) = length (nodup Nat.eq_dec l).
Proof.
  intros l. destruct (set_of_ok l) as (_ & N & I). unfold used. apply Permutation_length.
  apply NoDup_Permutation; auto; [apply NoDup_nodup|].
  intros x. rewrite I. symmetry. apply nodup_In.
Qed.

Lemma set_diff_path : forall n idx, n / 4 <= length (nodup Nat.eq_dec idx) ->
  set_diff (set_of (range n)) (set_of idx) = fold_left set_add (kept_nodes n idx) (empty_table MINSIZE).
Proof.
  intros n idx H. unfold set_diff. rewrite !set_of_used.
  destruct (range_aligned n) as (_ & E & _).
  rewrite (nodup_fixed_point Nat.eq_dec (l := range n)) by apply seq_NoDup. rewrite length_range.
  destruct (Nat.ltb_spec (length (nodup Nat.eq_dec idx)) (n / 4)); [lia|].
  rewrite E. f_equal. unfold kept_nodes, range. apply filter_ext. intros a. rewrite mem_set_of. reflexivity.
Qed.

(** many eliminated nodes: the order is right if the table of the result has a slot for every node *)
Lemma remaining_sorted_cap : forall n idx, n <= cap (length (kept_nodes n idx)) ->
  n / 4 <= length (nodup Nat.eq_dec idx) -> remaining n idx = kept_nodes n idx.
Proof.
  intros n idx H1 H2. apply aligned_remaining. rewrite set_diff_path by auto.
  destruct (fold_add_new (kept_nodes n idx) (empty_table MINSIZE)) as (R & P & L).
  - apply roomy_empty; auto.
  - rewrite keys_empty, app_nil_r. apply NoDup_filter, seq_NoDup.
  - rewrite length_empty. unfold used. rewrite keys_empty. reflexivity.
  - rewrite keys_empty, app_nil_r in P.
    fold (set_of (kept_nodes n idx)) in *. apply set_of_aligned.
    intros x Hx. rewrite L, (used_perm _ _ P).
    unfold kept_nodes in Hx. apply filter_In in Hx. destruct Hx as [Hx _]. apply in_seq in Hx. lia.
Qed.

(** few eliminated nodes *)
Lemma filter_length_split : forall (f : nat -> bool) l,
  length l = length (filter f l) + length (filter (fun x => negb (f x)) l).
Proof. induction l as [|a l IH]; simpl; auto. destruct (f a); simpl; lia. Qed.
Lemma remaining_sorted_few : forall n idx, length (nodup Nat.eq_dec idx) < n / 4 ->
  remaining n idx = kept_nodes n idx.
Proof.
  intros n idx H. apply aligned_remaining. unfold set_diff. rewrite !set_of_used.
  rewrite (nodup_fixed_point Nat.eq_dec (l := range n)) by apply seq_NoDup. rewrite length_range.
  destruct (Nat.ltb_spec (length (nodup Nat.eq_dec idx)) (n / 4)); [|lia].
  destruct (range_aligned n) as (A & E & L). destruct (set_of_ok (range n)) as (R & N & _).
  assert (U : used (set_of (range n)) = n) by (unfold used; rewrite E; apply length_range).
  destruct (set_copy_ok _ R N) as [P Lc].
  assert (Ac : aligned (set_copy (set_of (range n)))).
  { unfold set_copy. rewrite U, E.
    match goal with |- context [if ?c then MINSIZE else ?e] => set (size := if c then MINSIZE else e) end.
    destruct (size =? length (set_of (range n))); auto.
    assert (n < size).
    { unfold size. destruct (Nat.ltb_spec (n * 5) ((MINSIZE - 1) * 3)); unfold MINSIZE in *; [lia|].
      destruct (newsize_gt (n * 2)); lia. }
    apply fold_insert_empty; [apply seq_NoDup|rewrite length_range; lia|].
    intros x Hx. apply in_range in Hx. lia. }
  unfold set_discard. set (t' := map _ _).
  assert (At : aligned t').
  { intros i x Hs. apply Ac. unfold slot, t' in *.
    match type of Hs with nth i (map ?f ?l) None = _ => rewrite (map_nth f l None i : nth i (map f l) None = f (nth i l None)) in Hs end.
    destruct (nth i (set_copy (set_of (range n))) None) as [y|]; [|discriminate].
    destruct (mem y _); congruence. }
  destruct (_ <=? _); auto.
  assert (K' : keys t' = filter (fun x => negb (mem x (keys (set_of idx)))) (keys (set_copy (set_of (range n))))) by apply keys_discard.
  assert (P' : Permutation (keys t') (kept_nodes n idx)).
  { rewrite K'. eapply Permutation_trans; [apply filter_perm; exact P|]. rewrite E.
    apply Permutation_refl'. unfold kept_nodes, range. apply filter_ext. intros a. rewrite mem_set_of. reflexivity. }
  assert (Hn : n <= used t' + length (nodup Nat.eq_dec idx)).
  { rewrite (used_perm _ _ P').
    assert (F := filter_length_split (fun i => negb (existsb (Nat.eqb i) idx)) (seq 0 n)).
    rewrite seq_length in F. fold (kept_nodes n idx) in F.
    assert (length (filter (fun x => negb (negb (existsb (Nat.eqb x) idx))) (seq 0 n)) <= length (nodup Nat.eq_dec idx)).
    { apply NoDup_incl_length; [apply NoDup_filter, seq_NoDup|].
      intros x Hx. apply filter_In in Hx. destruct Hx as [_ Hx]. rewrite negb_involutive in Hx.
      apply nodup_In. apply mem_In. exact Hx. }
    lia. }
  assert (D4 := Nat.div_mod n 4 ltac:(lia)).
  assert (M := minused_ge (used t')).
  unfold resize. destruct (newsize_gt (minused (used t'))) as [G _].
  apply fold_insert_empty.
  - apply (Permutation_NoDup (Permutation_sym P')). apply NoDup_filter, seq_NoDup.
  - unfold used in *. lia.
  - intros x Hx. apply (Permutation_in _ P') in Hx. unfold kept_nodes in Hx. apply filter_In in Hx.
    destruct Hx as [Hx _]. apply in_seq in Hx. lia.
Qed.

Theorem remaining_sorted : forall n idx,
  let k := length (kept_nodes n idx) in
  (n <= 8 \/ (5 <= k /\ n <= 32) \/ (19 <= k /\ n <= 128) \/ (77 <= k /\ n <= 512) \/ (307 <= k /\ n <= 2048)
   \/ length (nodup Nat.eq_dec idx) < n / 4) ->
  remaining n idx = kept_nodes n idx.
Proof.
  intros n idx k H.
  destruct (le_lt_dec (n / 4) (length (nodup Nat.eq_dec idx))) as [D|D]; [|apply remaining_sorted_few; auto].
  apply remaining_sorted_cap; auto. fold k.
  destruct H as [H|[[Hk H]|[[Hk H]|[[Hk H]|[[Hk H]|H]]]]].
  - destruct (cap_mono1 k). unfold MINSIZE in *. lia.
  - assert (C := cap_mono _ _ Hk). rewrite cap_5 in C. lia.
  - assert (C := cap_mono _ _ Hk). rewrite cap_19 in C. lia.
  - assert (C := cap_mono _ _ Hk). rewrite cap_77 in C. lia.
  - assert (C := cap_mono _ _ Hk). rewrite cap_307 in C. lia.
  - lia.
Qed.

(** any size: at least three nodes in five are kept *)
Theorem remaining_sorted_most : forall n idx, 3 * n <= 5 * length (kept_nodes n idx) ->
  remaining n idx = kept_nodes n idx.
Proof.
  intros n idx H.
  destruct (le_lt_dec (n / 4) (length (nodup Nat.eq_dec idx))) as [D|D]; [|apply remaining_sorted_few; auto].
  apply remaining_sorted_cap; auto.
  assert (C := cap_room (length (kept_nodes n idx))). lia.
Qed.

(** only the contents of the eliminated set matter *)
Lemma mem_ext : forall a b, (forall x, In x a <-> In x b) -> forall x, mem x a = mem x b.
Proof.
  intros a b H x. destruct (mem x b) eqn:E.
  - apply mem_In, H, mem_In; auto.
  - apply mem_not_In. intros I. apply H, mem_In in I. congruence.
Qed.
Lemma remaining_ext : forall n a b, (forall x, In x a <-> In x b) -> remaining n a = remaining n b.
Proof.
  intros n a b H. unfold remaining, set_diff.
  assert (E : forall x, mem x (keys (set_of a)) = mem x (keys (set_of b))) by (intros x; rewrite !mem_set_of; apply mem_ext; auto).
  assert (U : used (set_of a) = used (set_of b)).
  { rewrite !set_of_used. apply Permutation_length. apply NoDup_Permutation; try apply NoDup_nodup.
    intros x. rewrite !nodup_In. auto. }
  rewrite U. destruct (_ <? _).
  - unfold set_discard. f_equal.
    assert (M : forall l : table, map (fun o => match o with Some x => if mem x (keys (set_of a)) then None else Some x | None => None end) l
              = map (fun o => match o with Some x => if mem x (keys (set_of b)) then None else Some x | None => None end) l).
    { intros l. apply map_ext. intros [x|]; auto. rewrite E. reflexivity. }
    rewrite M. reflexivity.
  - f_equal. f_equal. apply filter_ext. intros x. rewrite E. reflexivity.
Qed.

Lemma union_list_In : forall a b x, In x (union_list a b) <-> In x a \/ In x b.
Proof.
  intros. unfold union_list. destruct (set_of_ok a) as (R & N & I).
  destruct (set_copy_ok _ R N) as [P Lc].
  assert (Rc : roomy (set_copy (set_of a))).
  { unfold set_copy. match goal with |- context [if ?c then MINSIZE else ?e] => set (size := if c then MINSIZE else e) end.
    destruct (size =? length (set_of a)); auto.
    assert (used (set_of a) * 5 < (size - 1) * 3 /\ used (set_of a) < size).
    { unfold size. destruct (Nat.ltb_spec (used (set_of a) * 5) ((MINSIZE - 1) * 3)).
      - unfold MINSIZE in *. split; [exact H|lia].
      - unfold MINSIZE in *. destruct (newsize_gt (used (set_of a) * 2)). unfold MINSIZE in *. lia. }
    destruct (fold_insert_ok (keys (set_of a)) (empty_table size)) as [L' P'].
    - rewrite length_empty. unfold used in *. rewrite keys_empty. cbn [length]. lia.
    - rewrite keys_empty, app_nil_r in P'. unfold roomy. rewrite (used_same _ _ P'), L', length_empty. lia. }
  destruct (fold_add_ok b (set_copy (set_of a))) as (_ & _ & C); auto.
  - apply (Permutation_NoDup (Permutation_sym P)); auto.
  - rewrite C. split; intros [H|H]; auto.
    + left. apply I. apply (Permutation_in _ P); auto.
    + right. apply (Permutation_in _ (Permutation_sym P)). apply I; auto.
Qed.
