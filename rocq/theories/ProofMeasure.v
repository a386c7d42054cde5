(** Proofs about simulated measurements. *)
From Coq Require Import Bool Arith List ZArith Lia Ring Field.
From Verif Require Import BasePy BaseFld BaseOrd BaseSum BaseMat BaseLin BaseNumpy ModelNet ModelResample ModelLoads ModelMeasure
  SpecResample SpecLoads SpecMeasure ProofResample ProofLoads ProofLoadsSmall.
Import ListNotations.
Local Open Scope K_scope.

Lemma skipn_nth : forall A (l : list A) i x, nth_error l i = Some x -> skipn i l = x :: skipn (S i) l.
Proof. induction l; intros [|i] x H; try discriminate; [injection H as <-; reflexivity|]. apply (IHl i x H). Qed.

(** ** Ratings *)
Section Ratings.
Context {K : Type} {O : Ops K} {F : Fld K} {O2 : OrdOps K}.
Add Field Kfld : (@k_field K O F).

(** columns replaced one after the other by the sum of all *)
Definition replace (n : nat) (flag : nat -> bool) (r : nat -> K) (i : nat) : nat -> K :=
  if flag i then (fun j => if (j =? i)%nat then sumn n r else r j) else r.
Definition replaced n flag (r : nat -> K) m := fold_left (replace n flag) (range m) r.

Lemma replaced_S : forall n flag r m, replaced n flag r (S m) = replace n flag (replaced n flag r m) m.
Proof. intros. unfold replaced. rewrite range_S, fold_left_app. reflexivity. Qed.
Lemma replaced_later : forall n flag r m j, (m <= j)%nat -> replaced n flag r m j = r j.
Proof.
  induction m; intros j Hj; [reflexivity|]. rewrite replaced_S. unfold replace. destruct (flag m).
  - destruct (Nat.eqb_spec j m); [lia|]. apply IHm. lia.
  - apply IHm. lia.
Qed.
Lemma replaced_stable : forall n flag r m k j, (j < m)%nat -> replaced n flag r (m + k) j = replaced n flag r m j.
Proof.
  induction k; intros j Hj; [rewrite Nat.add_0_r; reflexivity|].
  rewrite Nat.add_succ_r, replaced_S. unfold replace. destruct (flag (m + k)%nat); [|auto].
  destruct (Nat.eqb_spec j (m + k)%nat); [lia|auto].
Qed.
Lemma replaced_value : forall n flag r m i, (i < m)%nat -> (i < n)%nat ->
  replaced n flag r m i =
  if flag i then sumn i (replaced n flag r m) + sumn (n - i) (fun j => r (i + j)%nat) else r i.
Proof.
  intros n flag r m i Hi Hn. replace m with (S i + (m - S i))%nat by lia.
  rewrite replaced_stable by lia. rewrite replaced_S. unfold replace.
  destruct (flag i); [|apply replaced_later; lia].
  rewrite Nat.eqb_refl. replace n with (i + (n - i))%nat at 1 by lia. rewrite sumn_plus. f_equal; apply sumn_ext; intros j Hj.
  - replace (S i + (m - S i))%nat with (i + (m - i))%nat by lia. rewrite replaced_stable by lia. reflexivity.
  - rewrite replaced_later by lia. reflexivity.
Qed.

Definition flagged (n : net (K := K)) (i : nat) : bool :=
  match nth_error (loads n) i with Some l => isin (l_bus l) (grids n) | None => false end.
Lemma flagged_spec : forall n i, flagged n i = true <-> at_substation n i.
Proof.
  intros n i. unfold flagged, at_substation. destruct (nth_error (loads n) i) as [l|].
  - rewrite isin_In. split; [intro H; exists l; auto|intros (l' & E & H); injection E as <-; auto].
  - split; [discriminate|intros (l' & E & _); discriminate].
Qed.

Lemma grid_ratings_eq : forall n (r : list K), grid_ratings n r = mkv (length r) (replaced (length r) (flagged n) (vget r) (length (loads n))).
Proof.
  intros n r. unfold grid_ratings. generalize (length (loads n)) as m. induction m.
  - cbn. unfold mkv. rewrite (list_eta K r 0) at 1. reflexivity.
  - rewrite range_S, fold_left_app, IHm. cbn [fold_left]. rewrite replaced_S. unfold replace, flagged.
    destruct (nth_error (loads n) m) as [l|]; [|reflexivity]. destruct (isin (l_bus l) (grids n)); [|reflexivity].
    match goal with |- mkv ?a _ = _ => assert (La : a = length r) by (unfold mkv; rewrite map_length, length_range; reflexivity); rewrite La end.
    apply mkv_ext. intros j Hj.
    destruct (Nat.eqb_spec j m).
    + unfold mkv. rewrite lsum_map_range. reflexivity.
    + apply vget_mkv. auto.
Qed.

Theorem p_ratings : forall factor n, let r := grid_ratings n (base_ratings factor n) in
  length r = length (loads n) /\ forall i l, nth_error (loads n) i = Some l ->
    (~ at_substation n i -> vget r i = factor * (l_p l * l_p l + l_q l * l_q l)) /\
    (at_substation n i -> vget r i = sumn i (vget r) +
       lsum (map (fun l => factor * (l_p l * l_p l + l_q l * l_q l)) (skipn i (loads n)))).
Proof.
  intros factor n. set (b := base_ratings factor n).
  assert (Lb : length b = length (loads n)) by (unfold b, base_ratings; apply map_length).
  cbv zeta. rewrite grid_ratings_eq, Lb. set (N := length (loads n)). split; [unfold mkv; rewrite map_length; apply length_range|].
  intros i l E. assert (Hi : (i < N)%nat) by (apply nth_error_Some; congruence).
  rewrite vget_mkv by auto. rewrite replaced_value by auto.
  assert (Vb : vget b i = factor * (l_p l * l_p l + l_q l * l_q l)).
  { unfold vget, b, base_ratings. apply nth_error_nth. rewrite nth_error_map, E. reflexivity. }
  split; intro H.
  - destruct (flagged n i) eqn:Ef; [apply flagged_spec in Ef; contradiction|exact Vb].
  - apply flagged_spec in H. rewrite H. f_equal.
    + apply sumn_ext. intros j Hj. rewrite vget_mkv by lia. reflexivity.
    + rewrite lsum_nth. rewrite map_length, skipn_length. fold N. apply sumn_ext. intros j Hj.
      unfold vget, b, base_ratings. rewrite <- skipn_map. rewrite <- (firstn_skipn i (map _ (loads n))) at 1.
      rewrite app_nth2; rewrite firstn_length, map_length; fold N; [|lia]. f_equal. lia.
Qed.

Theorem p_one_substation : forall factor n i l, let r := grid_ratings n (base_ratings factor n) in
  nth_error (loads n) i = Some l -> at_substation n i -> (forall j, at_substation n j -> j = i) -> l_p l = 0 -> l_q l = 0 ->
  vget r i = sumn (length (loads n)) (fun j => if (j =? i)%nat then 0 else vget r j).
Proof.
  intros factor n i l r E Hs Hu Hp Hq. destruct (p_ratings factor n) as [L H]. fold r in L, H.
  assert (Hi : (i < length (loads n))%nat) by (apply nth_error_Some; congruence).
  rewrite (proj2 (H i l E) Hs).
  replace (length (loads n)) with (i + S (length (loads n) - S i))%nat at 1 by lia.
  rewrite sumn_plus, sumn_S_l. rewrite Nat.add_0_r, Nat.eqb_refl. f_equal.
  - apply sumn_ext. intros j Hj. destruct (Nat.eqb_spec j i); [lia|reflexivity].
  - assert (Es : skipn i (loads n) = l :: skipn (S i) (loads n)).
    { apply skipn_nth. exact E. }
    rewrite Es. cbn [map lsum]. rewrite Hp, Hq. rewrite lsum_nth, map_length, skipn_length.
    transitivity (0 + sumn (length (loads n) - S i) (fun j => nth j (map (fun l => factor * (l_p l * l_p l + l_q l * l_q l)) (skipn (S i) (loads n))) 0)); [ring|].
    f_equal. apply sumn_ext. intros j Hj. destruct (Nat.eqb_spec (i + S j) i); [lia|].
    destruct (nth_error (loads n) (i + S j)) as [l'|] eqn:E'; [|apply nth_error_None in E'; lia].
    rewrite (proj1 (H _ _ E')); [|intro A; apply Hu in A; lia].
    apply nth_error_nth. rewrite nth_error_map. 
    assert (E2 : nth_error (skipn (S i) (loads n)) j = Some l').
    { rewrite <- E'. rewrite <- (firstn_skipn (S i) (loads n)) at 2. rewrite nth_error_app2; rewrite firstn_length; [f_equal|]; lia. }
    rewrite E2. reflexivity.
Qed.

(** the factor times the apparent power is used only for powers 0 and 1 *)
Theorem p_apparent_iff : forall factor p q s : K, factor <> 0 -> apparent p q s ->
  (factor * (p * p + q * q) = factor * s <-> s = 0 \/ s = 1).
Proof.
  intros factor p q s Hf [_ E]. rewrite <- E. split.
  - intro H. assert (Z : s * (s - 1) = 0).
    { assert (Z : factor * (s * (s - 1)) = 0) by (replace (factor * (s * (s - 1))) with (factor * (s * s) - factor * s) by ring; rewrite H; ring).
      apply kmul_integral in Z. tauto. }
    apply kmul_integral in Z. destruct Z as [Z|Z]; [left; auto|right]. replace s with (s - 1 + 1) by ring. rewrite Z. ring.
  - intros [-> | ->]; ring.
Qed.
End Ratings.
