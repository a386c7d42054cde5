(** Small loads, and the mixed columns. *)
From Coq Require Import Bool Arith List Lia ZArith Permutation Ring Field.
From Verif Require Import BasePy BaseFld BaseOrd BaseSum BaseMat BaseLin BaseNumpy ModelNet ModelLoads SpecLoads ProofLoads ProofLoadsMain.
Import ListNotations.
Local Open Scope K_scope.

Section Small.
Context {K : Type} {O : Ops K} {F : Fld K} {O2 : OrdOps K} {OF : OrdFld K}.
Add Field Kfld : (@k_field K O F).

Lemma isin_In : forall b l, isin b l = true <-> In b l.
Proof.
  intros b l. unfold isin. rewrite existsb_exists. split.
  - intros [x [H E]]. apply Nat.eqb_eq in E. subst. auto.
  - intro H. exists b. split; auto. apply Nat.eqb_refl.
Qed.
Lemma mixed_mixes : forall (a nominal : K) const b x, mixes a nominal const b x (mixed a nominal const b x).
Proof.
  intros a nominal const b x. unfold mixes, mixed, listed. split.
  - intros [l [-> H]]. apply isin_In in H. rewrite H. reflexivity.
  - intro H. destruct const as [l|]; [|reflexivity]. destruct (isin b l) eqn:E; [|reflexivity].
    exfalso. apply H. exists l. split; auto. apply isin_In. exact E.
Qed.

(** above one half the nearest integer is positive *)
Lemma nearest_large : forall (x : K) z, nearest x z -> 1 <! knat 2 * x -> (0 < z)%Z.
Proof.
  intros x z [H _] Hx. destruct (Z.lt_ge_cases 0 z) as [|N]; auto. exfalso.
  assert (E : exists w : nat, ofZ z = - (knat w : K)).
  { exists (Z.to_nat (- z)). unfold ofZ. destruct (Z.ltb_spec z 0); [reflexivity|]. replace z with 0%Z by lia. simpl. ring. }
  destruct E as [w E]. rewrite E in H.
  destruct (kabs_le (x - - knat w) (kabs (x - - knat w)) (kle_refl _)) as [A _].
  apply (kle_mul_l (knat 2)) in A; [|apply knat_nonneg].
  assert (B : knat 2 * (x - - knat w) <=! 1) by (eapply kle_trans; [exact A|exact H]).
  apply klt_spec in Hx. apply Hx. apply kle_sub. apply kle_sub in B.
  replace (1 - knat 2 * x) with (1 - knat 2 * (x - - knat w) + knat 2 * knat w : K) by ring.
  apply kle_0_add; auto. apply kle_mul; apply knat_nonneg.
Qed.

(** the selected lines are as far from zero as the file *)
Lemma selects_value : forall (file : mat K) weeks len m t h, selects file weeks len m -> (t < nr m)%nat -> (h < nc m)%nat ->
  (t / len < length weeks)%nat /\ (t mod len < len)%nat /\
  get m t h = get file (Z.to_nat (10080 * nth (t / len) weeks 0%Z) + t mod len) h / million.
Proof.
  intros file weeks len m t h ((W & R & CC) & S) Ht Hh. rewrite R in Ht.
  destruct (divmod_bound t (length weeks) len Ht) as (D1 & D2 & D3). split; auto. split; auto.
  rewrite <- (S (t / len)%nat (t mod len)%nat h) by (auto; lia). rewrite <- D3.
  change (knat 10 * knat 10 * knat 10 * knat 10 * knat 10 * knat 10) with (million : K). field. apply million_neq0.
Qed.
Lemma selects_line : forall (file : mat K) weeks len m t h, long_enough file weeks len -> selects file weeks len m -> (t < nr m)%nat -> (h < nc m)%nat ->
  exists t', (t' < nr file)%nat /\ (h < nc file)%nat /\ get m t h = get file t' h / million.
Proof.
  intros file weeks len m t h L S Ht Hh. destruct (selects_value file weeks len m t h S Ht Hh) as (D1 & D2 & D3).
  destruct S as ((W & R & CC) & _). exists (Z.to_nat (10080 * nth (t / len) weeks 0%Z) + t mod len)%nat.
  destruct (L (nth (t / len) weeks 0%Z)) as [L1 L2]; [apply nth_In; auto|]. repeat split; [lia|lia|exact D3].
Qed.
Lemma div_mono : forall x y z : K, 0 <! z -> x <=! y -> x / z <=! y / z.
Proof.
  intros x y z Hz H. apply kle_sub. replace (y / z - x / z) with ((y - x) / z) by (field; apply klt_neq; auto).
  apply kle_div; auto. apply kle_sub in H. exact H.
Qed.
Lemma div_pos : forall x y : K, 0 <! x -> 0 <! y -> 0 <! x / y.
Proof.
  intros x y Hx Hy. apply klt_spec2. split; [apply kle_div; [apply klt_le; auto|auto]|].
  intro E. apply klt_neq in Hx. apply Hx. rewrite <- (kdiv_mul x y) by (apply klt_neq; auto). rewrite <- E. ring.
Qed.
Lemma selected_share_pos : forall (file : mat K) weeks len m y c, long_enough file weeks len -> selects file weeks len m -> typical_share m y ->
  (0 < len)%nat -> weeks <> [] -> (0 < nc file)%nat -> 0 <! c ->
  (forall t h, (t < nr file)%nat -> (h < nc file)%nat -> c <=! kabs (get file t h)) -> 0 <! y.
Proof.
  intros file weeks len m y c L S T Hl Hw Hc C G. assert (S' := S). destruct S' as ((W & R & CC) & _).
  assert (NW : (0 < length weeks)%nat) by (destruct weeks; [congruence|simpl; lia]).
  apply (share_pos m y (c / million) T); [nia|lia|apply div_pos; [auto|apply million_pos]|].
  intros t h Ht Hh. destruct (selects_line file weeks len m t h L S Ht Hh) as (t' & A & B & ->).
  rewrite kabs_div by apply million_pos. apply div_mono; [apply million_pos|]. apply G; auto.
Qed.

(** bounds of the share *)
Lemma percentile_le : forall (l : list K) x c, percentile_of l x -> (forall y, In y l -> y <=! c) -> x <=! c.
Proof.
  intros l x c (s & j & g & P & A & J & G0 & G1 & _ & ->) H.
  assert (V : forall i, (i < length s)%nat -> vget s i <=! c).
  { intros i Hi. apply H. apply (Permutation_in _ (Permutation_sym P)). apply nth_In. auto. }
  apply kle_sub. replace (c - ((1 - g) * vget s j + g * vget s (if (S j <? length s)%nat then S j else j)))
    with ((1 - g) * (c - vget s j) + g * (c - vget s (if (S j <? length s)%nat then S j else j))) by ring.
  apply kle_0_add; apply kle_mul; auto.
  - apply klt_le in G1. apply kle_sub in G1. exact G1.
  - specialize (V j J). apply kle_sub in V. exact V.
  - assert (J2 : ((if (S j <? length s)%nat then S j else j) < length s)%nat) by (destruct (Nat.ltb_spec (S j) (length s)); auto).
    specialize (V _ J2). apply kle_sub in V. exact V.
Qed.
Lemma share_bounds : forall (m : mat K) x lo hi, typical_share m x -> (0 < nc m)%nat ->
  (forall t h, (t < nr m)%nat -> (h < nc m)%nat -> lo <=! kabs (get m t h) /\ kabs (get m t h) <=! hi) -> lo <=! x /\ x <=! hi.
Proof.
  intros m x lo hi (pc & H & E) Hc G.
  assert (N : 0 <! (knat (nc m) : K)) by (apply knat_pos; auto).
  assert (N0 : (knat (nc m) : K) <> 0) by (apply klt_neq; auto).
  assert (IN : forall j y, (j < nc m)%nat -> In y (mkv (nr m) (fun t => kabs (get m t j))) -> lo <=! y /\ y <=! hi).
  { intros j y Hj Hy. unfold mkv in Hy. apply in_map_iff in Hy. destruct Hy as [t [<- Ht]]. apply in_range in Ht. apply G; auto. }
  assert (B1 : knat (nc m) * lo <=! knat (nc m) * x).
  { rewrite E, <- sumn_const. apply sumn_le. intros j Hj. eapply percentile_ge; [apply H; auto|]. intros y Hy. apply (IN j); auto. }
  assert (B2 : knat (nc m) * x <=! knat (nc m) * hi).
  { rewrite E, <- sumn_const. apply sumn_le. intros j Hj. eapply percentile_le; [apply H; auto|]. intros y Hy. apply (IN j); auto. }
  apply (kle_mul_l (1 / knat (nc m))) in B1; [|apply kle_inv; auto]. apply (kle_mul_l (1 / knat (nc m))) in B2; [|apply kle_inv; auto].
  replace (1 / knat (nc m) * (knat (nc m) * lo)) with lo in B1 by (field; auto).
  replace (1 / knat (nc m) * (knat (nc m) * hi)) with hi in B2 by (field; auto).
  replace (1 / knat (nc m) * (knat (nc m) * x)) with x in B1, B2 by (field; auto). auto.
Qed.
Lemma selected_share_bounds : forall (file : mat K) weeks len m y lo hi, long_enough file weeks len -> selects file weeks len m -> typical_share m y ->
  (0 < nc file)%nat -> (forall t h, (t < nr file)%nat -> (h < nc file)%nat -> lo * million <=! kabs (get file t h) /\ kabs (get file t h) <=! hi * million) ->
  lo <=! y /\ y <=! hi.
Proof.
  intros file weeks len m y lo hi L S T Hc G. assert (S' := S). destruct S' as ((W & R & CC) & _).
  apply (share_bounds m y lo hi T); [lia|]. intros t h Ht Hh. destruct (selects_line file weeks len m t h L S Ht Hh) as (t' & A & B & ->).
  rewrite kabs_div by apply million_pos. destruct (G t' h A B) as [G1 G2].
  apply (div_mono _ _ _ million_pos) in G1. apply (div_mono _ _ _ million_pos) in G2.
  replace (lo * million / million) with lo in G1 by (field; apply million_neq0). replace (hi * million / million) with hi in G2 by (field; apply million_neq0).
  auto.
Qed.

Lemma households_none : forall (m : mat K) y r c, 0 <! y -> knat 2 * kabs r <=! y -> sum_of_households m y r c ->
  forall t, (t < nr m)%nat -> c t = 0.
Proof.
  intros m y r c Hy Hr (picks & N & _ & G) t Ht. apply nearest_small in N.
  - destruct picks; [|simpl in N; lia]. rewrite G by auto. reflexivity.
  - rewrite kabs_div by auto. replace (knat 2 * (kabs r / y)) with (knat 2 * kabs r / y) by (field; apply klt_neq; auto).
    replace (1 : K) with (y / y) by (field; apply klt_neq; auto). apply div_mono; auto.
Qed.
Lemma lsum_pos : forall (l : list K) , l <> [] -> (forall x, In x l -> 0 <! x) -> 0 <! lsum l.
Proof.
  induction l as [|x l IH]; intros N H; [congruence|]. destruct l as [|y l].
  - simpl. replace (x + 0) with (0 + x) by ring. apply klt_add; [apply kle_refl|apply H; left; auto].
  - change (lsum (x :: y :: l)) with (x + lsum (y :: l)). apply klt_add; [apply klt_le, H; left; auto|].
    apply IH; [congruence|]. intros z Hz. apply H. right. auto.
Qed.
Lemma households_some : forall (m : mat K) y r c, 0 <! y -> y <! knat 2 * r ->
  (forall t h, (t < nr m)%nat -> (h < nc m)%nat -> 0 <! get m t h) -> sum_of_households m y r c ->
  forall t, (t < nr m)%nat -> 0 <! c t.
Proof.
  intros m y r c Hy Hr Hp (picks & N & B & G) t Ht. apply nearest_large in N.
  - rewrite G by auto. apply lsum_pos.
    + destruct picks; [simpl in N; lia|discriminate].
    + intros x Hx. apply in_map_iff in Hx. destruct Hx as [h [<- Hh]]. apply Hp; auto.
  - replace (knat 2 * (r / y)) with (knat 2 * r / y) by (field; apply klt_neq; auto).
    apply klt_spec. intro C. apply klt_spec in Hr. apply Hr.
    apply (kle_mul_l y) in C; [|apply klt_le; auto]. replace (y * (knat 2 * r / y)) with (knat 2 * r) in C by (field; apply klt_neq; auto).
    replace (y * 1) with y in C by ring. exact C.
Qed.
Lemma twice_pos : forall x y : K, 0 <! y -> y <! knat 2 * x -> 0 <! x.
Proof.
  intros x y Y H. apply klt_spec. intro Z. apply klt_spec in H. apply H.
  apply (kle_trans _ 0); [|apply klt_le; exact Y]. apply (kle_mul_l (knat 2)) in Z; [|apply knat_nonneg].
  replace (knat 2 * 0) with (0 : K) in Z by ring. exact Z.
Qed.
(** a mixture of positive values *)
Lemma mixes_pos : forall (a nominal : K) const b x y, 0 <=! a -> a <=! 1 -> 0 <! nominal -> 0 <! x -> mixes a nominal const b x y -> 0 <! y.
Proof.
  intros a nominal const b x y A0 A1 N X [M1 M2].
  assert (D : (exists l, const = Some l /\ In b l) \/ ~ (exists l, const = Some l /\ In b l)).
  { destruct const as [l|]; [|right; intros [l [E _]]; discriminate]. destruct (in_dec Nat.eq_dec b l) as [I|I].
    - left. exists l. auto.
    - right. intros [l' [E I']]. injection E as <-. contradiction. }
  destruct D as [D|D]; [rewrite (M1 D)|rewrite (M2 D); exact X].
  destruct (kle_dec a 0) as [Z|Z].
  - assert (a = 0) by (apply kle_antisym; auto). subst. replace ((1 - 0) * x + 0 * nominal) with (0 + x) by ring. apply klt_add; [apply kle_refl|exact X].
  - apply klt_add; [apply kle_mul; [apply kle_sub in A1; exact A1|apply klt_le; exact X]|].
    apply klt_spec2. split; [apply kle_mul; apply klt_le; auto|]. intro E. symmetry in E.
    apply kmul_integral in E. destruct E as [E|E]; [apply (klt_neq _ Z E)|apply (klt_neq _ N E)].
Qed.
End Small.
