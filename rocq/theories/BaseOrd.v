(** Ordered fields: Qc and R are instances.  The order is given by a boolean test
    so that models stay executable on rationals. *)
From Coq Require Import Arith Lia List Bool Reals Lra QArith Qcanon.
From Coq Require Import Ring Field.
From Verif Require Import BasePy BaseFld BaseSum BaseMat.
Import ListNotations.
Close Scope Qc_scope. Close Scope Q_scope. Close Scope R_scope. Open Scope nat_scope.
Local Open Scope K_scope.

Class OrdOps (K : Type) := { kleb : K -> K -> bool }.
Definition kle {K} {O2 : OrdOps K} (x y : K) : Prop := kleb x y = true.
Definition kltb {K} {O2 : OrdOps K} (x y : K) : bool := negb (kleb y x).
Definition klt {K} {O2 : OrdOps K} (x y : K) : Prop := kltb x y = true.
Definition kabs {K} {O : Ops K} {O2 : OrdOps K} (x : K) : K := if kleb 0 x then x else - x.
Notation "x <=! y" := (kle x y) (at level 70, no associativity).
Notation "x <! y" := (klt x y) (at level 70, no associativity).

Class OrdFld (K : Type) {O : Ops K} {O2 : OrdOps K} : Prop := {
  kle_refl : forall x, kle x x;
  kle_antisym : forall x y, kle x y -> kle y x -> x = y;
  kle_trans : forall x y z, kle x y -> kle y z -> kle x z;
  kle_total : forall x y, kle x y \/ kle y x;
  kle_add : forall x y z, kle x y -> kle (x + z) (y + z);
  kle_mul : forall x y, kle 0 x -> kle 0 y -> kle 0 (x * y) }.

Section Ord.
Context {K : Type} {O : Ops K} {F : Fld K} {O2 : OrdOps K} {OF : OrdFld K}.
Add Field Kfld : (@k_field K O F).

Lemma kle_sub : forall x y, x <=! y <-> 0 <=! y - x.
Proof.
  intros x y; split; intro H.
  - replace 0 with (x + - x) by ring. replace (y - x) with (y + - x) by ring. apply kle_add; auto.
  - replace x with (0 + x) by ring. replace y with ((y - x) + x) by ring. apply kle_add; auto.
Qed.
Lemma kle_add2 : forall a b c d, a <=! b -> c <=! d -> a + c <=! b + d.
Proof.
  intros a b c d H1 H2. apply (kle_trans _ (b + c)); [apply kle_add; auto|].
  replace (b + c) with (c + b) by ring. replace (b + d) with (d + b) by ring. apply kle_add; auto.
Qed.
Lemma kle_0_add : forall a b, 0 <=! a -> 0 <=! b -> 0 <=! a + b.
Proof. intros a b H1 H2. replace 0 with (0 + 0 : K) by ring. apply kle_add2; auto. Qed.
Lemma kle_opp : forall x, x <=! 0 -> 0 <=! - x.
Proof. intros x H. apply (kle_add _ _ (- x)) in H. replace (x + - x) with (0 : K) in H by ring. replace (0 + - x) with (- x) in H by ring. auto. Qed.
Lemma kle_sqr : forall x, 0 <=! x * x.
Proof.
  intro x. destruct (kle_total 0 x) as [H|H]; [apply kle_mul; auto|].
  replace (x * x) with ((- x) * (- x)) by ring. apply kle_mul; apply kle_opp; auto.
Qed.
Lemma kle_01 : 0 <=! 1.
Proof. replace 1 with (1 * 1 : K) by ring. apply kle_sqr. Qed.
Lemma sumn_nonneg : forall n f, (forall i, (i < n)%nat -> 0 <=! f i) -> 0 <=! sumn n f.
Proof.
  induction n; intros f H; simpl; [apply kle_refl|]. apply kle_0_add; [apply IHn; intros; apply H; lia|apply H; lia].
Qed.
Lemma kle_add_zero : forall a b, 0 <=! a -> 0 <=! b -> a + b = 0 -> a = 0 /\ b = 0.
Proof.
  intros a b Ha Hb E. assert (a = 0).
  { apply kle_antisym; auto. apply kle_sub. replace (0 - a) with (b - (a + b)) by ring. rewrite E. replace (b - 0) with b by ring. auto. }
  split; auto. subst a. rewrite <- E. ring.
Qed.
Lemma sumn_nonneg_zero : forall n f, (forall i, (i < n)%nat -> 0 <=! f i) -> sumn n f = 0 -> forall i, (i < n)%nat -> f i = 0.
Proof.
  induction n; intros f H E i Hi; [lia|]. simpl in E.
  destruct (kle_add_zero (sumn n f) (f n)) as [E1 E2]; auto.
  - apply sumn_nonneg. intros; apply H; lia.
  - destruct (Nat.eq_dec i n) as [-> |]; auto. apply IHn; auto. lia.
Qed.
Lemma sumn_le : forall n f g, (forall i, (i < n)%nat -> f i <=! g i) -> sumn n f <=! sumn n g.
Proof.
  intros n f g H. apply (proj2 (kle_sub _ _)). rewrite <- sumn_sub. apply sumn_nonneg. intros i Hi. apply (proj1 (kle_sub _ _)). auto.
Qed.
Lemma sqr_zero : forall x, x * x = 0 -> x = 0.
Proof. intros x H. destruct (kmul_integral _ _ H); auto. Qed.

#[global] Instance ordfld_freal : FReal K | 10.
Proof.
  constructor. intros x y H. destruct (kle_add_zero (x * x) (y * y)); auto using kle_sqr, sqr_zero.
Qed.

Lemma klt_spec : forall x y, x <! y <-> ~ y <=! x.
Proof. intros. unfold klt, kltb, kle. rewrite negb_true_iff. destruct (kleb y x); split; congruence. Qed.
Lemma klt_spec2 : forall x y, x <! y <-> x <=! y /\ x <> y.
Proof.
  intros x y. rewrite klt_spec. split.
  - intro H. split; [destruct (kle_total x y); [auto|contradiction]|]. intros ->. apply H. apply kle_refl.
  - intros [H1 H2] H3. apply H2. apply kle_antisym; auto.
Qed.
Lemma kle_dec : forall x y, {x <=! y} + {y <! x}.
Proof. intros x y. destruct (kleb x y) eqn:E; [left; auto|right]. unfold klt, kltb. rewrite E. auto. Qed.
Lemma klt_trans_le : forall x y z, x <! y -> y <=! z -> x <! z.
Proof.
  intros x y z H1 H2. rewrite klt_spec in *. intro H. apply H1. eapply kle_trans; eauto.
Qed.
Lemma kle_lt_trans : forall x y z, x <=! y -> y <! z -> x <! z.
Proof. intros x y z H1 H2. rewrite klt_spec in *. intro H. apply H2. eapply kle_trans; eauto. Qed.
Lemma klt_le : forall x y, x <! y -> x <=! y.
Proof. intros x y H. apply klt_spec2 in H. tauto. Qed.
Lemma klt_neq : forall x, 0 <! x -> x <> 0.
Proof. intros x H E. apply klt_spec2 in H. destruct H as [_ H]. congruence. Qed.

Lemma kle_mul_l : forall a x y, 0 <=! a -> x <=! y -> a * x <=! a * y.
Proof. intros a x y Ha H. apply (proj2 (kle_sub _ _)). replace (a * y - a * x) with (a * (y - x)) by ring. apply kle_mul; auto. apply (proj1 (kle_sub _ _)); auto. Qed.

Lemma kle_inv : forall x, 0 <! x -> 0 <=! 1 / x.
Proof.
  intros x H. pose proof (klt_neq x H) as N. destruct (kle_total 0 (1 / x)) as [P|P]; auto.
  exfalso. assert (Q : 0 <=! x * - (1 / x)) by (apply kle_mul; [apply klt_le; auto|apply kle_opp; auto]).
  replace (x * - (1 / x)) with (- (1) : K) in Q by (field; auto).
  apply (kle_add _ _ 1) in Q. replace (0 + 1 : K) with (1 : K) in Q by ring. replace (- (1) + 1) with (0 : K) in Q by ring.
  apply k1_neq0. apply kle_antisym; auto using kle_01.
Qed.
Lemma kle_div : forall x y, 0 <=! x -> 0 <! y -> 0 <=! x / y.
Proof. intros x y Hx Hy. replace (x / y) with (x * (1 / y)) by (field; apply klt_neq; auto). apply kle_mul; auto using kle_inv. Qed.

Lemma kabs_nonneg : forall x, 0 <=! kabs x.
Proof.
  intro x. unfold kabs. destruct (kleb 0 x) eqn:E; [exact E|]. apply kle_opp.
  destruct (kle_total x 0) as [H|H]; auto. unfold kle in H. congruence.
Qed.
Lemma kabs_sqr : forall x, kabs x * kabs x = x * x.
Proof. intro x. unfold kabs. destruct (kleb 0 x); ring. Qed.
Lemma kabs_zero : forall x, kabs x = 0 -> x = 0.
Proof. intros x H. apply sqr_zero. rewrite <- kabs_sqr, H. ring. Qed.
Lemma kabs_0 : kabs 0 = 0.
Proof. unfold kabs. rewrite kle_refl. auto. Qed.
Lemma kabs_pos_id : forall x, 0 <=! x -> kabs x = x.
Proof. intros x H. unfold kabs. rewrite H. auto. Qed.
Lemma klt_01 : 0 <! 1.
Proof. apply klt_spec2. split; [apply kle_01|]. intro E. symmetry in E. revert E. apply k1_neq0. Qed.
Lemma klt_add : forall a b, 0 <=! a -> 0 <! b -> 0 <! a + b.
Proof.
  intros a b Ha Hb. apply klt_spec2. split; [apply kle_0_add; auto using klt_le|].
  intro E. destruct (kle_add_zero a b) as [_ E2]; auto using klt_le. revert E2. apply klt_neq; auto.
Qed.
End Ord.

#[global] Instance Qc_ord : OrdOps Qc := {
  kleb := fun x y => match (x ?= y)%Qc with Gt => false | _ => true end }.
Lemma Qc_leb_le : forall x y : Qc, kle x y <-> (x <= y)%Qc.
Proof.
  intros x y. unfold kle, kleb, Qc_ord. rewrite Qcle_alt. destruct (x ?= y)%Qc; split; congruence.
Qed.
#[global] Instance Qc_ordfld : OrdFld Qc.
Proof.
  constructor; intros; rewrite ?Qc_leb_le in *.
  - apply Qcle_refl.
  - apply Qcle_antisym; auto.
  - eapply Qcle_trans; eauto.
  - destruct (Qclt_le_dec x y); [left; apply Qclt_le_weak; auto|right; auto].
  - apply Qcplus_le_compat; auto. apply Qcle_refl.
  - change (Q2Qc 0 <= x * y)%Qc. replace (Q2Qc 0) with (Q2Qc 0 * y)%Qc by ring. apply Qcmult_le_compat_r; auto.
Qed.

#[global] Instance R_ord : OrdOps R := { kleb := fun x y => if Rle_dec x y then true else false }.
Lemma R_leb_le : forall x y : R, kle x y <-> (x <= y)%R.
Proof. intros. unfold kle, kleb, R_ord. destruct (Rle_dec x y); split; auto; congruence. Qed.
#[global] Instance R_ordfld : OrdFld R.
Proof.
  constructor; intros; rewrite ?R_leb_le in *; cbn [k0 kadd kmul R_ops] in *; try lra.
  apply Rmult_le_pos; auto.
Qed.
