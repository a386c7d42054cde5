(** Three decoupled sequences as one network. *)
From Coq Require Import Bool Arith Lia List Permutation Reals Ring Field.
From Verif Require Import BasePy BaseFld BaseSum BaseMat BaseLin BaseReal ModelErrorMetrics ModelSet ModelKron ModelLines ModelNet ModelReduce ModelReduce3
  SpecMatrix SpecLS SpecLines SpecKron SpecNet SpecReduce SpecReduce3 ProofMatrixOps ProofSet ProofKron ProofLines ProofReduce ProofThree.
Import ListNotations.
Local Open Scope K_scope.
Add Field CfThreeSeq : (@k_field C _ _).

Definition asm (M : nat -> mat C) : mat C := assemble_012 (M 0%nat) (M 1%nat) (M 2%nat).
Definition three_shapes (M : nat -> mat C) (n : nat) : Prop := forall k, (k < 3)%nat -> shape (M k) n n.
Lemma shape_asm : forall M n, three_shapes M n -> shape (asm M) (n * 3) (n * 3).
Proof. intros M n H. destruct (H 0%nat) as (_ & R & C); [lia|]. apply shape_assemble; auto. Qed.
Lemma get_asm : forall M n i j p q, three_shapes M n -> (i < n)%nat -> (j < n)%nat -> (p < 3)%nat -> (q < 3)%nat ->
  get (asm M) (i * 3 + p) (j * 3 + q) = if (p =? q)%nat then get (M p) i j else 0.
Proof.
  intros M n i j p q H Hi Hj Hp Hq. unfold asm. rewrite (get_assemble n) by (auto; apply H; lia).
  destruct (p =? q)%nat; [|reflexivity]. destruct p as [|[|[|p]]]; [| | |lia]; reflexivity.
Qed.
(** the columns of one sequence *)
Definition only (k m : nat) (V : mat C) : mat C := mk (nr V) m (fun t i => get V t (i * 3 + k)%nat).
Lemma asm_product : forall M n V t i k, three_shapes M n -> nc V = (n * 3)%nat -> (t < nr V)%nat -> (i < n)%nat -> (k < 3)%nat ->
  get (mmul V (asm M)) t (i * 3 + k) = get (mmul (only k n V) (M k)) t i.
Proof.
  intros M n V t i k H CV Ht Hi Hk. destruct (shape_asm M n H) as (_ & RA & CA). destruct (H k Hk) as (_ & RM & CM).
  rewrite !get_mmul by (cbn [nr nc only mk]; lia). rewrite CV, sumn_mul. cbn [nc only mk]. apply sumn_ext. intros j Hj.
  rewrite (sumn_single _ k); auto.
  - rewrite (get_asm M n) by auto. rewrite Nat.eqb_refl. unfold only. rewrite get_mk by auto. reflexivity.
  - intros q Hq Ne. rewrite (get_asm M n) by auto. destruct (Nat.eqb_spec q k); [congruence|ring].
Qed.
Lemma asm_no_injection : forall M n idx V, three_shapes M n -> nc V = (n * 3)%nat -> (forall x, In x idx -> (x < n)%nat) ->
  (no_injection (phases3 idx) V (asm M) <-> forall k, (k < 3)%nat -> no_injection idx (only k n V) (M k)).
Proof.
  intros M n idx V H CV Hi. split.
  - intros NI k Hk t i Ht I. rewrite <- (asm_product M n) by auto. apply NI; auto. apply phases3_In.
    replace ((i * 3 + k) / 3)%nat with i; auto. apply (Nat.div_unique _ 3 i k); lia.
  - intros NI t i Ht I. apply phases3_In in I. pose proof (Nat.div_mod i 3 ltac:(lia)). pose proof (Nat.mod_upper_bound i 3 ltac:(lia)).
    replace i with (i / 3 * 3 + i mod 3)%nat by lia. rewrite (asm_product M n) by auto. apply NI; auto.
Qed.
Lemma asm_describes : forall M Z n order idx, three_shapes M n -> (forall x, In x order -> (x < n)%nat) -> (forall x, In x idx -> (x < n)%nat) ->
  (forall k, (k < 3)%nat -> describes n order idx (M k) (Z k)) ->
  describes (n * 3) (phases3 order) (phases3 idx) (asm M) (asm Z).
Proof.
  intros M Z n order idx H Ho Hi D.
  assert (HZ : three_shapes Z (length order)) by (intros k Hk; destruct (D k Hk) as (S & _); exact S).
  split; [rewrite phases3_length; apply shape_asm; auto|]. split.
  - intros V CV WV NI t j Ht Hj. rewrite phases3_length in *. split3 j (length order).
    replace j with (j / 3 * 3 + j mod 3)%nat by lia. set (k := (j / 3)%nat) in *. set (p := (j mod 3)%nat) in *.
    rewrite phases3_nth by auto. rewrite (asm_product M n) by (auto; apply Ho, nth_In; auto).
    destruct (D p) as (_ & A & _); [auto|]. rewrite (A (only p n V) eq_refl ltac:(apply wf_mk)) by (auto; apply (asm_no_injection M n); auto).
    rewrite sumn_mul. apply sumn_ext. intros i Hi'. symmetry. rewrite (sumn_single _ p); auto.
    + rewrite phases3_nth by auto. rewrite (get_asm Z (length order)) by auto. rewrite Nat.eqb_refl.
      unfold only. rewrite get_mk by (auto; apply Ho, nth_In; auto). reflexivity.
    + intros q Hq Ne. rewrite (get_asm Z (length order)) by auto. destruct (Nat.eqb_spec q p); [congruence|ring].
  - intros T W SW. rewrite phases3_length in *. destruct SW as (WW & RW & CW).
    assert (X : forall k, (k < 3)%nat -> exists V, shape V T n /\ no_injection idx V (M k) /\
      forall t i, (t < T)%nat -> (i < length order)%nat -> get V t (nth i order 0%nat) = get (only k (length order) W) t i).
    { intros k Hk. destruct (D k Hk) as (_ & _ & B). apply B. split; [apply wf_mk|]. cbn [nr nc only mk]. auto. }
    destruct (X 0%nat ltac:(lia)) as (V0 & S0 & N0 & E0). destruct (X 1%nat ltac:(lia)) as (V1 & S1 & N1 & E1). destruct (X 2%nat ltac:(lia)) as (V2 & S2 & N2 & E2).
    set (Vs := fun k => nth k [V0; V1; V2] V0).
    assert (SV : forall k, (k < 3)%nat -> shape (Vs k) T n /\ no_injection idx (Vs k) (M k) /\
      forall t i, (t < T)%nat -> (i < length order)%nat -> get (Vs k) t (nth i order 0%nat) = get (only k (length order) W) t i).
    { intros k Hk. destruct k as [|[|[|k]]]; [| | |lia]; cbn [Vs nth]; auto. }
    set (V := mk T (n * 3) (fun t i => get (Vs (i mod 3)%nat) t (i / 3)%nat)).
    assert (OV : forall k, (k < 3)%nat -> only k n V = Vs k).
    { intros k Hk. destruct (SV k Hk) as (S & _). apply (gshape_ext _ _ T n); [apply shape_mk|auto|]. intros t i Ht Hi'.
      unfold only. rewrite get_mk by auto. unfold V. rewrite get_mk by lia.
      replace ((i * 3 + k) mod 3)%nat with k by (apply (Nat.mod_unique _ 3 i k); lia).
      replace ((i * 3 + k) / 3)%nat with i by (apply (Nat.div_unique _ 3 i k); lia). reflexivity. }
    exists V. split; [apply shape_mk|]. split.
    + apply (asm_no_injection M n); auto. intros k Hk. rewrite OV by auto. apply SV; auto.
    + intros t j Ht Hj. split3 j (length order). replace j with (j / 3 * 3 + j mod 3)%nat by lia. set (k := (j / 3)%nat) in *. set (p := (j mod 3)%nat) in *.
      rewrite phases3_nth by auto. destruct (SV p) as (_ & _ & E); [auto|].
      pose proof (E t k Ht ltac:(auto)) as Ek. rewrite <- OV in Ek by auto. unfold only in Ek.
      assert (nth k order 0 < n)%nat by (apply Ho, nth_In; auto). rewrite !get_mk in Ek by (cbn [nr V mk]; lia). exact Ek.
Qed.

Lemma every_third_asm : forall M n k, three_shapes M n -> (k < 3)%nat -> every_third k (asm M) = M k.
Proof.
  intros M n k H Hk. destruct (shape_asm M n H) as (_ & RA & CA). unfold every_third. rewrite RA, CA.
  assert (D : ((n * 3 - k + 2) / 3 = n)%nat).
  { destruct n as [|n]; [destruct k as [|[|[|k]]]; [reflexivity|reflexivity|reflexivity|lia]|].
    symmetry. apply (Nat.div_unique _ 3 (S n) (2 - k)); lia. }
  rewrite D. apply (gshape_ext _ _ n n); [apply shape_mk|apply H; auto|]. intros i j Hi Hj. rewrite get_mk by auto.
  rewrite (Nat.mul_comm 3 i), (Nat.mul_comm 3 j). rewrite (get_asm M n) by auto. rewrite Nat.eqb_refl. reflexivity.
Qed.
Lemma sum_kron_asm : forall M n, three_shapes M n -> sum_kron (M 0%nat) (M 1%nat) (M 2%nat) = Ok (asm M).
Proof.
  intros M n H. unfold sum_kron, same_shape. destruct (H 0%nat) as (_ & R0 & C0); [lia|]. destruct (H 1%nat) as (_ & R1 & C1); [lia|]. destruct (H 2%nat) as (_ & R2 & C2); [lia|].
  rewrite R0, C0, R1, C1, R2, C2, !Nat.eqb_refl. reflexivity.
Qed.
Lemma block_asm : forall M n l, three_shapes M n -> (forall x, In x l -> (x < n)%nat) ->
  block_of (asm M) (phases3 l) (phases3 l) = asm (fun k => block_of (M k) l l).
Proof.
  intros M n l H Hl. assert (HB : three_shapes (fun k => block_of (M k) l l) (length l)) by (intros k Hk; apply block_shape).
  apply (gshape_ext _ _ (length l * 3) (length l * 3)).
  - split; [apply wf_mk|]. cbn. rewrite phases3_length. auto.
  - apply shape_asm; auto.
  - intros i j Hi Hj. split3 i (length l). split3 j (length l). replace i with (i / 3 * 3 + i mod 3)%nat by lia. replace j with (j / 3 * 3 + j mod 3)%nat by lia.
    set (i' := (i / 3)%nat) in *. set (p := (i mod 3)%nat) in *. set (j' := (j / 3)%nat) in *. set (q := (j mod 3)%nat) in *.
    rewrite get_block by (rewrite phases3_length; lia). rewrite !phases3_nth by auto.
    rewrite (get_asm M n) by (auto; apply Hl, nth_In; auto). rewrite (get_asm _ (length l)) by auto. rewrite get_block by auto. reflexivity.
Qed.
