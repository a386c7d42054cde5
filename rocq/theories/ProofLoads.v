(** Proofs about the generation of loads. *)
From Coq Require Import Bool Arith List ZArith Lia Permutation.
From Coq Require Import Ring Field.
From Verif Require Import BasePy BaseFld BaseOrd BaseSum BaseMat BaseLin BaseNumpy ModelNet ModelLoads SpecLoads.
Import ListNotations.
Local Open Scope K_scope.

(** ** Lists *)
Lemma flat_map_nth : forall (A B : Type) (f : A -> list B) w (l : list A) i k d d',
  (forall a, length (f a) = w) -> (i < length l)%nat -> (k < w)%nat ->
  nth (w * i + k) (flat_map f l) d = nth k (f (nth i l d')) d.
Proof.
  intros A B f w l. induction l as [|a l IH]; intros i k d d' H Hi Hk; simpl in Hi; [lia|].
  simpl. destruct i as [|i].
  - rewrite Nat.mul_0_r. simpl. apply app_nth1. rewrite H. auto.
  - rewrite app_nth2 by (rewrite H; nia). rewrite H. replace (w * S i + k - w)%nat with (w * i + k)%nat by nia.
    apply IH; auto. lia.
Qed.
Lemma flat_map_length' : forall (A B : Type) (f : A -> list B) w (l : list A),
  (forall a, length (f a) = w) -> length (flat_map f l) = (w * length l)%nat.
Proof. intros A B f w l H. induction l as [|a l IH]; simpl; [lia|]. rewrite app_length, H, IH. nia. Qed.

Section Ordered.
Context {K : Type} {O : Ops K} {F : Fld K} {O2 : OrdOps K} {OF : OrdFld K}.
Add Field Kfld : (@k_field K O F).

(** ** Sorting and percentiles *)
Lemma insert_perm : forall x (l : list K), Permutation (x :: l) (insert_value x l).
Proof.
  intros x l. induction l as [|y l IH]; simpl; [auto|]. destruct (kleb x y); [auto|].
  eapply perm_trans; [apply perm_swap|]. apply perm_skip. auto.
Qed.
Lemma sort_perm : forall l : list K, Permutation l (sort_values l).
Proof.
  induction l as [|x l IH]; simpl; [auto|]. eapply perm_trans; [apply perm_skip; exact IH|]. apply insert_perm.
Qed.
Definition ascending (s : list K) := forall i k, (i <= k < length s)%nat -> vget s i <=! vget s k.
Lemma ascending_tail : forall x s, ascending (x :: s) -> ascending s.
Proof. intros x s H i k Hk. apply (H (S i) (S k)). simpl. lia. Qed.
Lemma ascending_cons : forall x s, ascending s -> (forall y, In y s -> x <=! y) -> ascending (x :: s).
Proof.
  intros x s H Hx i k Hk. simpl in Hk. destruct i as [|i], k as [|k]; simpl.
  - apply kle_refl.
  - unfold vget; simpl. apply Hx. apply nth_In. lia.
  - lia.
  - apply (H i k). lia.
Qed.
Lemma ascending_head : forall x s y, ascending (x :: s) -> In y s -> x <=! y.
Proof.
  intros x s y H Hy. destruct (In_nth s y 0 Hy) as [k [Hk E]]. rewrite <- E.
  apply (H 0%nat (S k)). simpl. lia.
Qed.
Lemma insert_asc : forall x s, ascending s -> ascending (insert_value x s).
Proof.
  intros x s. induction s as [|y s IH]; intro H; simpl.
  - apply ascending_cons; auto. intros y [].
  - destruct (kleb x y) eqn:E.
    + apply ascending_cons; auto. intros z [<-|Hz]; [exact E|]. apply (kle_trans _ y); [exact E|].
      apply (ascending_head y s); auto.
    + apply ascending_cons; [apply IH; eapply ascending_tail; eauto|].
      intros z Hz. apply (Permutation_in z (Permutation_sym (insert_perm x s))) in Hz. destruct Hz as [<-|Hz].
      * destruct (kle_total y x) as [T|T]; [exact T|]. unfold kle in T. congruence.
      * apply (ascending_head y s); auto.
Qed.
Lemma sort_asc : forall l : list K, ascending (sort_values l).
Proof. induction l as [|x l IH]; simpl; [intros i k H; simpl in H; lia|]. apply insert_asc; auto. Qed.

Lemma knat_mul : forall m n, knat (m * n) = knat m * knat n :> K.
Proof. induction m; intros n; simpl; [ring|]. rewrite knat_add, IHm. ring. Qed.
Lemma knat_nonneg : forall n, 0 <=! (knat n : K).
Proof. induction n; simpl; [apply kle_refl|]. apply kle_0_add; auto. apply kle_01. Qed.
Lemma knat_pos : forall n, (0 < n)%nat -> 0 <! (knat n : K).
Proof. intros n H. apply klt_spec2. split; [apply knat_nonneg|]. intro E. apply (knat_neq0 n); [lia|auto]. Qed.
Lemma knat_le : forall m n, (m <= n)%nat -> knat m <=! (knat n : K).
Proof.
  intros m n H. apply kle_sub. replace n with (m + (n - m))%nat by lia. rewrite knat_add.
  replace (knat m + knat (n - m) - knat m : K) with (knat (n - m) : K) by ring. apply knat_nonneg.
Qed.
Lemma klt_sub : forall x y : K, x <! y <-> 0 <! y - x.
Proof.
  intros x y. rewrite !klt_spec2, <- kle_sub. split; intros [A B]; split; auto.
  - intro E. apply B. symmetry. apply ksub_eq0. auto.
  - intro E. apply B. subst. ring.
Qed.
Lemma knat_lt : forall m n, (m < n)%nat -> knat m <! (knat n : K).
Proof.
  intros m n H. apply klt_sub. replace n with (m + (n - m))%nat by lia. rewrite knat_add.
  replace (knat m + knat (n - m) - knat m : K) with (knat (n - m) : K) by ring. apply knat_pos. lia.
Qed.
Lemma kdiv_lt1 : forall x y : K, 0 <! y -> x <! y -> x / y <! 1.
Proof.
  intros x y Hy Hx. assert (N := klt_neq _ Hy). apply klt_spec2. split.
  - apply kle_sub. replace (1 - x / y) with ((y - x) / y) by (field; auto). apply kle_div; auto.
    apply kle_sub. rewrite <- kle_sub. rewrite <- kle_sub. apply klt_le; auto.
  - intro E. apply klt_spec2 in Hx. destruct Hx as [_ Hx]. apply Hx.
    rewrite <- (kdiv_mul x y N), E. ring.
Qed.

Lemma percentile90_sound : forall l : list K, l <> [] -> percentile_of l (percentile90 l).
Proof.
  intros l Hl. assert (L : (0 < length l)%nat) by (destruct l; [congruence|simpl; lia]).
  assert (LS : length (sort_values l) = length l) by (symmetry; apply Permutation_length, sort_perm).
  set (m := (9 * (length l - 1))%nat).
  exists (sort_values l), (m / 10)%nat, (knat (m mod 10) / knat 10).
  assert (M : m = (10 * (m / 10) + m mod 10)%nat) by (apply Nat.div_mod; lia).
  assert (R : (m mod 10 < 10)%nat) by (apply Nat.mod_upper_bound; lia).
  assert (J : (m / 10 <= length l - 1)%nat) by (unfold m in *; lia).
  assert (T : (knat 10 : K) <> 0) by (apply knat_neq0; lia).
  split; [apply sort_perm|]. split; [apply sort_asc|]. split; [lia|].
  split; [apply kle_div; [apply knat_nonneg|apply knat_pos; lia]|].
  split; [apply kdiv_lt1; [apply knat_pos; lia|apply knat_lt; auto]|].
  split.
  - replace (knat 10 * (knat (m / 10) + knat (m mod 10) / knat 10)) with (knat 10 * knat (m / 10) + knat (m mod 10) : K) by (field; auto).
    rewrite <- !knat_mul, <- knat_add, <- M. reflexivity.
  - unfold percentile90. fold m. rewrite LS.
    replace (Nat.min (m / 10 + 1) (length l - 1)) with (if (S (m / 10) <? length l)%nat then S (m / 10) else (m / 10)%nat).
    2: { destruct (Nat.ltb_spec (S (m / 10)) (length l)); lia. }
    ring.
Qed.

Lemma percentile_ge : forall (l : list K) x c, percentile_of l x -> (forall y, In y l -> c <=! y) -> c <=! x.
Proof.
  intros l x c (s & j & g & P & A & J & G0 & G1 & _ & ->) H.
  assert (B : forall i, (i < length s)%nat -> 0 <=! vget s i - c).
  { intros i Hi. rewrite <- kle_sub. apply H. apply (Permutation_in _ (Permutation_sym P)). apply nth_In; auto. }
  apply kle_sub.
  match goal with |- 0 <=! (1 - g) * ?a + g * ?b - c => replace ((1 - g) * a + g * b - c) with ((1 - g) * (a - c) + g * (b - c)) by ring end.
  apply kle_0_add; apply kle_mul; auto.
  - apply kle_sub. rewrite <- kle_sub, <- kle_sub. apply klt_le; auto.
  - apply B. destruct (Nat.ltb_spec (S j) (length s)); lia.
Qed.

Lemma mean_percentile_sound : forall m : mat K, (0 < nr m)%nat -> (0 < nc m)%nat -> typical_share m (mean_percentile m).
Proof.
  intros m H1 H2. exists (fun j => percentile90 (map kabs (mcol m j))). split.
  - intros j Hj. replace (map kabs (mcol m j)) with (mkv (nr m) (fun t => kabs (get m t j))).
    + apply percentile90_sound. intro E. apply (f_equal (@length K)) in E. rewrite length_mkv in E. simpl in E. lia.
    + unfold mcol, mkv. rewrite map_map. reflexivity.
  - unfold mean_percentile. assert (N : (knat (nc m) : K) <> 0) by (apply knat_neq0; lia). field; auto.
Qed.

(** ** Rounding *)
Lemma ofZ_nat : forall n, ofZ (Z.of_nat n) = (knat n : K).
Proof. intro n. unfold ofZ. destruct (Z.ltb_spec (Z.of_nat n) 0); [lia|]. rewrite Nat2Z.id. reflexivity. Qed.
Lemma kabs_opp : forall x : K, kabs (- x) = kabs x.
Proof.
  intro x. unfold kabs. destruct (kleb 0 x) eqn:A, (kleb 0 (- x)) eqn:B.
  - assert (X : x = 0). { apply kle_antisym; [|exact A]. apply kle_sub. replace (0 - x) with (- x) by ring. exact B. }
    subst. ring.
  - ring.
  - reflexivity.
  - exfalso. destruct (kle_total 0 x) as [T|T]; unfold kle in T; [congruence|].
    apply kle_opp in T. unfold kle in T. congruence.
Qed.
Lemma kabs_ofZ : forall z, kabs (ofZ z : K) = knat (Z.abs_nat z).
Proof.
  intro z. unfold ofZ. destruct (Z.ltb_spec z 0).
  - rewrite kabs_opp, kabs_pos_id by apply knat_nonneg. f_equal. lia.
  - rewrite kabs_pos_id by apply knat_nonneg. f_equal. lia.
Qed.
Lemma nearest_0 : forall z, nearest (0 : K) z -> z = 0%Z.
Proof.
  intros z [H _]. replace (0 - ofZ z) with (- ofZ z : K) in H by ring. rewrite kabs_opp, kabs_ofZ in H.
  destruct (Z.eq_dec z 0) as [|N]; auto. exfalso.
  assert (Q : (2 * 1 <= 2 * Z.abs_nat z)%nat) by lia. apply knat_le in Q. rewrite (knat_mul 2 (Z.abs_nat z)) in Q.
  assert (B : knat (2 * 1) <=! (1 : K)) by (eapply kle_trans; [exact Q|exact H]).
  assert (C : knat 1 <! (knat 2 : K)) by (apply knat_lt; lia).
  apply klt_spec in C. apply C. eapply kle_trans; [exact B|]. simpl. replace (0 + 1 : K) with (1 : K) by ring. apply kle_refl.
Qed.
Lemma rounds_0 : forall rnd : K -> Z, rounds rnd -> rnd 0 = 0%Z.
Proof. intros rnd H. apply nearest_0. apply H. Qed.
Lemma nearest_nonneg : forall (x : K) z, nearest x z -> 0 <=! x -> (0 <= z)%Z.
Proof.
  intros x z [H _] Hx. destruct (Z.le_gt_cases 0 z) as [|N]; auto. exfalso.
  unfold ofZ in H. destruct (Z.ltb_spec z 0); [|lia].
  replace (x - - knat (Z.to_nat (- z))) with (x + knat (Z.to_nat (- z))) in H by ring.
  rewrite kabs_pos_id in H by (apply kle_0_add; [auto|apply knat_nonneg]).
  assert (A : knat 2 * knat 1 <=! knat 2 * (x + knat (Z.to_nat (- z)))).
  { apply kle_mul_l; [apply knat_nonneg|]. replace (knat 1 : K) with (0 + knat 1 : K) by ring. apply kle_add2; auto. apply knat_le. lia. }
  assert (C : knat 1 <! (knat 2 : K)) by (apply knat_lt; lia).
  apply klt_spec in C. apply C. replace (knat 2 : K) with (knat 2 * knat 1 : K) by (simpl; ring).
  eapply kle_trans; [exact A|]. eapply kle_trans; [exact H|]. simpl. replace (0 + 1 : K) with (1 : K) by ring. apply kle_refl.
Qed.
Lemma kabs_le : forall x y : K, kabs x <=! y -> x <=! y /\ - x <=! y.
Proof.
  intros x y. unfold kabs. destruct (kleb 0 x) eqn:E; intro H.
  - split; auto. apply (kle_trans _ 0); [|eapply kle_trans; [exact E|exact H]].
    apply kle_sub. replace (0 - - x) with x by ring. exact E.
  - split; auto. destruct (kle_total 0 x) as [T|T]; [unfold kle in T; congruence|].
    apply (kle_trans _ 0); auto. eapply kle_trans; [apply kle_opp; exact T|exact H].
Qed.
(** below minus one half the nearest integer is negative *)
Lemma nearest_negative : forall (x : K) z, nearest x z -> knat 2 * x <! - (1) -> (z < 0)%Z.
Proof.
  intros x z [H _] Hx. destruct (Z.lt_ge_cases z 0) as [|N]; auto. exfalso.
  unfold ofZ in H. destruct (Z.ltb_spec z 0); [lia|].
  rewrite <- (kabs_pos_id (knat 2)) in H by apply knat_nonneg.
  assert (H' : - (x - knat (Z.to_nat z)) <=! kabs (x - knat (Z.to_nat z))) by (apply kabs_le, kle_refl).
  rewrite kabs_pos_id in H by apply knat_nonneg.
  apply (kle_mul_l (knat 2)) in H'; [|apply knat_nonneg].
  assert (B : knat 2 * - (x - knat (Z.to_nat z)) <=! 1) by (eapply kle_trans; [exact H'|exact H]).
  apply klt_spec in Hx. apply Hx. apply kle_sub. apply kle_sub in B.
  replace (knat 2 * x - - (1)) with (1 - knat 2 * - (x - knat (Z.to_nat z)) + knat 2 * knat (Z.to_nat z) : K) by ring.
  apply kle_0_add; auto. apply kle_mul; apply knat_nonneg.
Qed.
(** up to one half the nearest integer is zero *)
Lemma nearest_small : forall (x : K) z, nearest x z -> knat 2 * kabs x <=! 1 -> z = 0%Z.
Proof.
  intros x z [H Ev] Hx. destruct (Z.eq_dec z 0) as [|N]; auto. exfalso.
  destruct (kabs_le (x - ofZ z) (kabs (x - ofZ z)) (kle_refl _)) as [A1 A2].
  destruct (kabs_le x (kabs x) (kle_refl _)) as [B1 B2].
  (* |z| <= 1 *)
  assert (T : knat 2 * knat (Z.abs_nat z) <=! (knat 2 : K)).
  { rewrite <- kabs_ofZ. unfold kabs at 1. destruct (kleb 0 (ofZ z)).
    - replace (knat 2 * ofZ z) with (knat 2 * - (x - ofZ z) + knat 2 * x : K) by ring.
      replace (knat 2 : K) with (1 + 1 : K) at 3 by (simpl; ring).
      apply kle_add2; eapply kle_trans; [|exact H| |exact Hx]; apply kle_mul_l; auto; apply knat_nonneg.
    - replace (knat 2 * - ofZ z) with (knat 2 * (x - ofZ z) + knat 2 * - x : K) by ring.
      replace (knat 2 : K) with (1 + 1 : K) at 3 by (simpl; ring).
      apply kle_add2; eapply kle_trans; [|exact H| |exact Hx]; apply kle_mul_l; auto; apply knat_nonneg. }
  rewrite <- knat_mul in T.
  assert (U : (2 * Z.abs_nat z <= 2)%nat).
  { destruct (Nat.le_gt_cases (2 * Z.abs_nat z) 2) as [|G]; auto. pose proof (knat_lt _ _ G) as G2. apply klt_spec in G2. contradiction. }
  assert (Z1 : Z.abs_nat z = 1%nat) by lia.
  assert (Od : Z.even z = false) by (assert (z = 1 \/ z = -1)%Z as [->| ->] by lia; reflexivity).
  assert (E : knat 2 * kabs (x - ofZ z) = 1); [|rewrite (Ev E) in Od; discriminate].
  apply kle_antisym; auto.
  assert (S1 : (1 : K) = knat 2 * knat (Z.abs_nat z) - 1) by (rewrite Z1; simpl; ring).
  rewrite S1. apply kle_sub.
  match goal with |- 0 <=! ?a - (?b - 1) => replace (a - (b - 1)) with (1 - (b - a)) by ring end.
  rewrite <- kle_sub. eapply kle_trans; [|exact Hx].
  rewrite <- kabs_ofZ. apply kle_sub.
  replace (knat 2 * kabs x - (knat 2 * kabs (ofZ z) - knat 2 * kabs (x - ofZ z)))
    with (knat 2 * (kabs x + kabs (x - ofZ z) - kabs (ofZ z)) : K) by ring.
  apply kle_mul; [apply knat_nonneg|]. rewrite <- kle_sub.
  unfold kabs at 1. destruct (kleb 0 (ofZ z)).
  - replace (ofZ z : K) with (x + - (x - ofZ z) : K) by ring. apply kle_add2; auto.
    replace (x + - (x - ofZ z)) with (ofZ z : K) by ring. auto.
  - replace (- ofZ z : K) with (- x + (x - ofZ z) : K) by ring. apply kle_add2; auto.
Qed.
End Ordered.

(** ** Reading the profile *)
Section Profile.
Context {K : Type} {O : Ops K} {F : Fld K} {O2 : OrdOps K} {OF : OrdFld K}.
Add Field Kfld2 : (@k_field K O F).

Lemma slice_bound_in : forall n z, (0 <= z <= Z.of_nat n)%Z -> slice_bound n z = Z.to_nat z.
Proof. intros n z H. unfold slice_bound. destruct (Z.ltb_spec z 0); [lia|]. lia. Qed.
Lemma slice_bound_le : forall n z, (slice_bound n z <= n)%nat.
Proof. intros n z. unfold slice_bound. destruct (Z.ltb_spec z 0); lia. Qed.

Definition stack_weeks (file : mat K) (size len : Z) (weeks : list Z) (m : mat K) : mat K :=
  fold_left (fun m i => vstack2 m (rows_slice file i (size - (size - (len + i)))%Z)) weeks m.
Lemma stack_cols : forall file size len weeks m, wf m -> wf (stack_weeks file size len weeks m) /\ nc (stack_weeks file size len weeks m) = nc m.
Proof.
  intros file size len weeks. induction weeks as [|w ws IH]; intros m H; [split; auto|].
  unfold stack_weeks. simpl. destruct (IH (vstack2 m (rows_slice file w (size - (size - (len + w)))%Z))) as [A B]; [apply wf_mk|].
  split; [exact A|]. unfold stack_weeks in B. rewrite B. reflexivity.
Qed.
Lemma stack_rows : forall file size len weeks m,
  (forall w, In w weeks -> (0 <= w /\ w + Z.of_nat len <= Z.of_nat (nr file))%Z) ->
  nr (stack_weeks file size (Z.of_nat len) weeks m) = (nr m + length weeks * len)%nat /\
  (forall t h, (t < nr m)%nat -> (h < nc m)%nat -> get (stack_weeks file size (Z.of_nat len) weeks m) t h = get m t h) /\
  (nc m = nc file -> forall w t h, (w < length weeks)%nat -> (t < len)%nat -> (h < nc m)%nat ->
     get (stack_weeks file size (Z.of_nat len) weeks m) (nr m + w * len + t) h = get file (Z.to_nat (nth w weeks 0%Z) + t) h).
Proof.
  intros file size len weeks. induction weeks as [|w ws IH]; intros m H.
  { simpl. split; [lia|]. split; [auto|]. intros _ w t h Hw. lia. }
  set (m' := vstack2 m (rows_slice file w (size - (size - (Z.of_nat len + w)))%Z)).
  assert (W : (0 <= w /\ w + Z.of_nat len <= Z.of_nat (nr file))%Z) by (apply H; left; auto).
  assert (SL : rows_slice file w (size - (size - (Z.of_nat len + w)))%Z = mk len (nc file) (fun i j => get file (Z.to_nat w + i) j)).
  { unfold rows_slice. replace (size - (size - (Z.of_nat len + w)))%Z with (Z.of_nat len + w)%Z by lia.
    rewrite !slice_bound_in by lia. f_equal. lia. }
  assert (N' : nr m' = (nr m + len)%nat) by (unfold m'; rewrite SL; reflexivity).
  assert (C' : nc m' = nc m) by reflexivity.
  destruct (IH m') as (I1 & I2 & I3); [intros v Hv; apply H; right; auto|].
  change (stack_weeks file size (Z.of_nat len) (w :: ws) m) with (stack_weeks file size (Z.of_nat len) ws m').
  split; [rewrite I1, N'; simpl; lia|]. split.
  - intros t h Ht Hh. rewrite I2 by lia. unfold m'. apply get_vstack2_l; auto.
  - intros Hc v t h Hv Ht Hh. destruct v as [|v].
    + rewrite I2 by lia. unfold m'. replace (nr m + 0 * len + t)%nat with (nr m + t)%nat by lia.
      rewrite get_vstack2_r by (auto; rewrite SL; simpl; lia). rewrite SL, get_mk by (try lia). reflexivity.
    + replace (nr m + S v * len + t)%nat with (nr m' + v * len + t)%nat by (rewrite N'; nia).
      rewrite I3 by (simpl in Hv; lia). reflexivity.
Qed.

Lemma million_neq0 : (million : K) <> 0.
Proof.
  unfold million. assert (T : (knat 10 : K) <> 0) by (apply knat_neq0; lia).
  intro E. do 5 (apply kmul_integral in E; destruct E as [E|E]; [|contradiction]). contradiction.
Qed.

Lemma read_profile_shape : forall size (file : mat K) skips len,
  wf (read_profile size file skips len) /\ nc (read_profile size file skips len) = nc file.
Proof.
  intros. unfold read_profile.
  destruct (stack_cols file (Z.of_nat size) len skips (mk 0 (nc file) (fun _ _ => 0)) (wf_mk _ _ _)) as [A B].
  split; [apply wf_mmap; exact A|]. exact B.
Qed.

Lemma read_profile_selects : forall size (file : mat K) weeks len, long_enough file weeks len ->
  selects file weeks len (read_profile size file (skip_lines weeks) (Z.of_nat len)).
Proof.
  intros size file weeks len H.
  assert (LS : length (skip_lines weeks) = length weeks) by (unfold skip_lines; apply map_length).
  destruct (stack_rows file (Z.of_nat size) len (skip_lines weeks) (mk 0 (nc file) (fun _ _ => 0))) as (A & _ & C).
  { intros w Hw. unfold skip_lines in Hw. apply in_map_iff in Hw. destruct Hw as [v [<- Hv]]. destruct (H v Hv). lia. }
  destruct (stack_cols file (Z.of_nat size) (Z.of_nat len) (skip_lines weeks) (mk 0 (nc file) (fun _ _ => 0)) (wf_mk _ _ _)) as [B1 B2].
  rewrite LS in *. simpl in A, B2.
  split.
  - unfold read_profile. apply shape_mmap. split; [exact B1|]. split; [exact A|exact B2].
  - intros w t h Hw Ht Hh. unfold read_profile.
    unfold get at 1. rewrite gget_mmap with (d := 0); [|exact B1| |].
    2: { fold (stack_weeks file (Z.of_nat size) (Z.of_nat len) (skip_lines weeks) (mk 0 (nc file) (fun _ _ => 0))). rewrite A. nia. }
    2: { fold (stack_weeks file (Z.of_nat size) (Z.of_nat len) (skip_lines weeks) (mk 0 (nc file) (fun _ _ => 0))). rewrite B2. auto. }
    fold (stack_weeks file (Z.of_nat size) (Z.of_nat len) (skip_lines weeks) (mk 0 (nc file) (fun _ _ => 0))).
    specialize (C eq_refl w t h Hw Ht Hh). simpl in C. unfold get in C at 1. rewrite C.
    change (knat 10 * knat 10 * knat 10 * knat 10 * knat 10 * knat 10) with (million : K).
    rewrite kdiv_mul by apply million_neq0. f_equal. f_equal.
    unfold skip_lines. rewrite nth_indep with (d' := (0 * 7 * 24 * 60)%Z) by (rewrite map_length; auto).
    rewrite (map_nth (fun w => (w * 7 * 24 * 60)%Z)). f_equal. lia.
Qed.
End Profile.

(** ** Assigning households *)
Section Assign.
Context {K : Type} {O : Ops K} {F : Fld K} {O2 : OrdOps K} {OF : OrdFld K} {St : Type}.
Variables (rnd : K -> Z) (randint : nat -> nat -> St -> list nat * St).
Add Field Kfld3 : (@k_field K O F).

Lemma assign_inv : forall (m : mat K) r s c s', assign rnd randint m r s = Ok (c, s') ->
  (0 < nr m)%nat /\ (0 < nc m)%nat /\ mean_percentile m <> 0 /\ length c = nr m /\
  (0 <= rnd (r / mean_percentile m)%K)%Z /\
  exists picks, (rnd (r / mean_percentile m) = 0%Z -> picks = []) /\
    (rnd (r / mean_percentile m) <> 0%Z -> picks = fst (randint (nc m) (Z.to_nat (rnd (r / mean_percentile m))) s)) /\
    (forall t, (t < nr m)%nat -> vget c t = lsum (map (fun h => get m t h) picks)).
Proof.
  intros m r s c s' H. unfold assign, households in H.
  destruct (Nat.eqb_spec (nr m) 0); [discriminate|]. destruct (Nat.eqb_spec (nc m) 0); [discriminate|]. cbn [orb] in H.
  destruct (keqb (mean_percentile m) 0) eqn:E; [destruct (keqb r 0); discriminate|]. apply keqb_neq in E.
  cbn [bind] in H. destruct (Z.ltb_spec (rnd (r / mean_percentile m)) 0); [discriminate|].
  destruct (Z.eqb_spec (rnd (r / mean_percentile m)) 0) as [Z0|Z0].
  - injection H as <- <-. repeat split; try lia; auto. { apply length_mkv. }
    exists []. repeat split; auto. { congruence. } intros t Ht. rewrite vget_mkv by auto. reflexivity.
  - destruct (randint (nc m) (Z.to_nat (rnd (r / mean_percentile m))) s) as [picks s2] eqn:RI.
    injection H as <- <-. repeat split; try lia; auto. { apply length_mkv. }
    exists picks. repeat split; auto. { congruence. } intros t Ht. rewrite vget_mkv by auto. reflexivity.
Qed.

Lemma assign_zero : forall (m : mat K) s c s', rounds rnd -> assign rnd randint m 0 s = Ok (c, s') -> forall t, vget c t = 0.
Proof.
  intros m s c s' R H t. destruct (assign_inv _ _ _ _ _ H) as (_ & _ & N & L & _ & picks & P0 & _ & P).
  destruct (Nat.ltb_spec t (nr m)).
  - rewrite P by auto. rewrite P0; [reflexivity|]. replace (0 / mean_percentile m) with (0 : K) by (field; auto). apply rounds_0; auto.
  - apply vget_oob. lia.
Qed.

Lemma assign_households : forall (m : mat K) r s c s', rounds rnd -> fair randint -> assign rnd randint m r s = Ok (c, s') ->
  sum_of_households m (mean_percentile m) r (vget c).
Proof.
  intros m r s c s' R FA H. destruct (assign_inv _ _ _ _ _ H) as (N1 & N2 & N & L & Z0 & picks & P0 & P1 & P).
  exists picks. assert (PL : Z.of_nat (length picks) = rnd (r / mean_percentile m) /\ forall h, In h picks -> (h < nc m)%nat).
  { destruct (Z.eq_dec (rnd (r / mean_percentile m)) 0) as [E|E].
    - rewrite (P0 E), E. split; [reflexivity|]. intros h [].
    - rewrite (P1 E). destruct (FA (nc m) (Z.to_nat (rnd (r / mean_percentile m))) s N2) as [A B]. split; [rewrite A; lia|exact B]. }
  destruct PL as [PL PI]. rewrite PL. split; [apply R|]. split; auto.
Qed.

Lemma assign_all_inv : forall l s cols s', assign_all rnd randint l s = Ok (cols, s') ->
  length cols = length l /\
  forall k d dm, (k < length l)%nat -> exists s1 s2, assign rnd randint (fst (nth k l dm)) (snd (nth k l dm)) s1 = Ok (nth k cols d, s2).
Proof.
  induction l as [|[m r] l IH]; intros s cols s' H; simpl in H.
  - injection H as <- <-. split; [reflexivity|]. intros k d dm Hk. simpl in Hk. lia.
  - destruct (bind_ok _ _ _ _ _ H) as [[c s1] [A H1]]. cbn beta iota in H1.
    destruct (bind_ok _ _ _ _ _ H1) as [[cs s2] [B H2]]. injection H2 as <- <-.
    destruct (IH _ _ _ B) as [L P]. split; [simpl; lia|].
    intros k d dm Hk. destruct k as [|k]; simpl.
    + exists s, s1. exact A.
    + apply P. simpl in Hk. lia.
Qed.

Lemma fill_loads_inv : forall (P Q : mat K) refs s A B s', fill_loads rnd randint P Q refs s = Ok (A, B, s') ->
  shape A (nr P) (length refs) /\ shape B (nr Q) (length refs) /\
  forall i, (i < length refs)%nat ->
    (exists s1 s2 c, assign rnd randint P (fst (nth i refs (0, 0))) s1 = Ok (c, s2) /\ forall t, (t < nr P)%nat -> get A t i = vget c t) /\
    (exists s1 s2 c, assign rnd randint Q (snd (nth i refs (0, 0))) s1 = Ok (c, s2) /\ forall t, (t < nr Q)%nat -> get B t i = vget c t).
Proof.
  intros P Q refs s A B s' H. unfold fill_loads in H. destruct (bind_ok _ _ _ _ _ H) as [[cols s2] [C H1]]. clear H.
  injection H1 as <- <- <-. split; [apply shape_mk|]. split; [apply shape_mk|].
  destruct (assign_all_inv _ _ _ _ C) as [L N].
  set (f := fun r : K * K => [(P, fst r); (Q, snd r)]) in *.
  assert (W : forall a, length (f a) = 2%nat) by reflexivity.
  assert (LF := flat_map_length' _ _ f 2 refs W).
  intros i Hi. split.
  - destruct (N (2 * i + 0)%nat [] (P, 0)) as (s1 & s3 & E); [lia|].
    rewrite (flat_map_nth _ _ f 2 refs i 0 (P, 0) (0, 0) W Hi) in E by lia. simpl fst in E at 1.
    exists s1, s3. eexists. split; [exact E|]. intros t Ht. unfold collect. rewrite get_mk by auto. reflexivity.
  - destruct (N (2 * i + 1)%nat [] (P, 0)) as (s1 & s3 & E); [lia|].
    rewrite (flat_map_nth _ _ f 2 refs i 1 (P, 0) (0, 0) W Hi) in E by lia.
    exists s1, s3. eexists. split; [exact E|]. intros t Ht. unfold collect. rewrite get_mk by auto. reflexivity.
Qed.

(** the nominal value and the profile belonging to the k-th result, in the order of the caller *)
Definition nominal_of (k : nat) (r : phased (K := K)) : K := nth k [pa r; pb r; pc r; qa r; qb r; qc r] 0.
Lemma fill_asym_inv : forall (P Q : mat K) refs s l s', fill_asym rnd randint P Q refs s = Ok (l, s') ->
  length l = 6%nat /\ forall k dm, (k < 6)%nat ->
    let M := if (k <? 3)%nat then P else Q in
    shape (nth k l dm) (nr M) (length refs) /\
    forall i dr, (i < length refs)%nat -> exists s1 s2 c,
      assign rnd randint M (nominal_of k (nth i refs dr)) s1 = Ok (c, s2) /\ forall t, (t < nr M)%nat -> get (nth k l dm) t i = vget c t.
Proof.
  intros P Q refs s l s' H. unfold fill_asym in H. destruct (bind_ok _ _ _ _ _ H) as [[cols s2] [C H1]]. clear H.
  injection H1 as <- <-. split; [reflexivity|].
  destruct (assign_all_inv _ _ _ _ C) as [L N].
  set (f := fun r : phased => [(P, pa r); (P, pb r); (P, pc r); (Q, qa r); (Q, qb r); (Q, qc r)]) in *.
  assert (W : forall a, length (f a) = 6%nat) by reflexivity.
  assert (LF := flat_map_length' _ _ f 6 refs W).
  intros k dm Hk M.
  assert (G : nth k [collect cols (nr P) 6 (length refs) 0; collect cols (nr P) 6 (length refs) 1; collect cols (nr P) 6 (length refs) 2;
     collect cols (nr Q) 6 (length refs) 3; collect cols (nr Q) 6 (length refs) 4; collect cols (nr Q) 6 (length refs) 5] dm
     = collect cols (nr M) 6 (length refs) k).
  { unfold M. do 6 (destruct k as [|k]; [reflexivity|]). lia. }
  rewrite G. split; [apply shape_mk|]. intros i dr Hi.
  destruct (N (6 * i + k)%nat [] (P, 0)) as (s1 & s3 & E); [lia|].
  rewrite (flat_map_nth _ _ f 6 refs i k (P, 0) dr W Hi Hk) in E.
  assert (E2 : nth k (f (nth i refs dr)) (P, 0) = (M, nominal_of k (nth i refs dr))).
  { unfold M, f, nominal_of. do 6 (destruct k as [|k]; [reflexivity|]). lia. }
  rewrite E2 in E. simpl fst in E. simpl snd in E.
  exists s1, s3. eexists. split; [exact E|]. intros t Ht. unfold collect. rewrite get_mk by auto. reflexivity.
Qed.

(** *** Success *)
Lemma assign_ok : forall (m : mat K) r s, (0 < nr m)%nat -> (0 < nc m)%nat -> mean_percentile m <> 0 ->
  (0 <= rnd (r / mean_percentile m)%K)%Z -> exists c s', assign rnd randint m r s = Ok (c, s').
Proof.
  intros m r s H1 H2 H3 H4. unfold assign, households.
  destruct (Nat.eqb_spec (nr m) 0); [lia|]. destruct (Nat.eqb_spec (nc m) 0); [lia|]. cbn [orb].
  destruct (keqb (mean_percentile m) 0) eqn:E; [apply keqb_eq in E; contradiction|]. cbn [bind].
  destruct (Z.ltb_spec (rnd (r / mean_percentile m)) 0); [lia|].
  destruct (if (rnd (r / mean_percentile m)%K =? 0)%Z then ([], s) else randint (nc m) (Z.to_nat (rnd (r / mean_percentile m))) s) as [picks s'].
  eauto.
Qed.
Lemma assign_all_ok : forall l s, (forall m r, In (m, r) l -> forall s, exists c s', assign rnd randint m r s = Ok (c, s')) ->
  exists cols s', assign_all rnd randint l s = Ok (cols, s').
Proof.
  induction l as [|[m r] l IH]; intros s H; simpl; [eauto|].
  destruct (H m r (or_introl eq_refl) s) as (c & s1 & E). rewrite E. cbn [bind].
  destruct (IH s1) as (cs & s2 & E2); [intros; apply H; right; auto|]. rewrite E2. cbn [bind]. eauto.
Qed.
Lemma assign_all_err : forall l1 m r l2 s e, (forall s, assign rnd randint m r s = Err e) ->
  (forall m r, In (m, r) l1 -> forall s, exists c s', assign rnd randint m r s = Ok (c, s')) ->
  assign_all rnd randint (l1 ++ (m, r) :: l2) s = Err e.
Proof.
  induction l1 as [|[m1 r1] l1 IH]; intros m r l2 s e H H1; simpl.
  - rewrite H. reflexivity.
  - destruct (H1 m1 r1 (or_introl eq_refl) s) as (c & s1 & E). rewrite E. cbn [bind].
    rewrite (IH m r l2 s1 e H); [reflexivity|]. intros; apply H1; right; auto.
Qed.
End Assign.
