(** Number types: operations ([Ops]), field laws ([Fld]), instances for the
    rationals [Qc] (used to compute examples), the reals [R], and complex
    numbers [cplx K] over any formally real field. *)
From Coq Require Import Ring Field Field_theory Bool Arith Lia.
From Coq Require Import QArith Qcanon.
From Coq Require Import Reals Lra.

Class Ops (K : Type) := {
  k0 : K; k1 : K;
  kadd : K -> K -> K; kmul : K -> K -> K; ksub : K -> K -> K; kopp : K -> K;
  kdiv : K -> K -> K; kinv : K -> K;
  keqb : K -> K -> bool }.

Declare Scope K_scope.
Delimit Scope K_scope with K.
Notation "0" := k0 : K_scope.
Notation "1" := k1 : K_scope.
Infix "+" := kadd : K_scope.
Infix "*" := kmul : K_scope.
Infix "-" := ksub : K_scope.
Notation "- x" := (kopp x) : K_scope.
Infix "/" := kdiv : K_scope.
Infix "=?" := keqb : K_scope.

Fixpoint knat {K} {O : Ops K} (n : nat) : K :=
  match n with O => 0%K | S m => (knat m + 1)%K end.

Class Fld (K : Type) {O : Ops K} := {
  k_field : field_theory 0%K 1%K kadd kmul ksub kopp kdiv kinv (@eq K);
  keqb_eq : forall x y : K, (x =? y)%K = true <-> x = y;
  k_char0 : forall n, knat (S n) <> 0%K }.

(** Formally real: a sum of two squares vanishes only trivially. *)
Class FReal (K : Type) {O : Ops K} := {
  k_freal : forall x y : K, (x * x + y * y = 0)%K -> x = 0%K }.

Section FldFacts.
Context {K : Type} {O : Ops K} {F : Fld K}.
Local Open Scope K_scope.
Add Field Kfld : (@k_field K O F).

Lemma k_eq_dec : forall x y : K, {x = y} + {x <> y}.
Proof.
  intros x y. destruct (x =? y) eqn:E; [left|right].
  - apply keqb_eq; auto.
  - intro H. apply keqb_eq in H. congruence.
Qed.

Lemma k1_neq0 : (1:K) <> 0.
Proof. generalize (k_char0 0). simpl. intros H E. apply H. rewrite E. ring. Qed.

Lemma k2_neq0 : (1:K) + 1 <> 0.
Proof. generalize (k_char0 1). simpl. intros H E. apply H. transitivity ((1:K) + 1); [ring|exact E]. Qed.

Lemma k3_neq0 : (1:K) + 1 + 1 <> 0.
Proof. generalize (k_char0 2). simpl. intros H E. apply H. transitivity ((1:K) + 1 + 1); [ring|exact E]. Qed.

Lemma kmul_integral : forall x y : K, x * y = 0 -> x = 0 \/ y = 0.
Proof.
  intros x y H. destruct (k_eq_dec x 0) as [E|E]; [auto|right].
  replace y with ((x * y) / x) by (field; auto). rewrite H. field; auto.
Qed.

Lemma kmul_cancel_l : forall a x y : K, a <> 0 -> a * x = a * y -> x = y.
Proof.
  intros a x y Ha H. replace x with ((a * x) / a) by (field; auto). rewrite H. field; auto.
Qed.

Lemma kdiv_mul : forall x y : K, y <> 0 -> (x / y) * y = x.
Proof. intros. field; auto. Qed.

Lemma kdiv_same : forall x : K, x <> 0 -> x / x = 1.
Proof. intros. field; auto. Qed.

Lemma kdiv_def : forall x y : K, x / y = x * kinv y.
Proof. exact (Fdiv_def k_field). Qed.

Lemma ksub_eq0 : forall x y : K, x - y = 0 -> x = y.
Proof. intros x y H. replace x with (x - y + y) by ring. rewrite H. ring. Qed.

Lemma knat_add : forall m n, knat (m + n) = knat m + knat n.
Proof. induction m; intros; simpl; [ring|]. rewrite IHm. ring. Qed.

Lemma knat_neq0 : forall n, n <> 0%nat -> knat n <> 0.
Proof. intros [|n] H; [congruence|apply k_char0]. Qed.

Lemma keqb_refl : forall x : K, (x =? x) = true.
Proof. intros. apply keqb_eq. auto. Qed.

Lemma keqb_neq : forall x y : K, (x =? y) = false <-> x <> y.
Proof.
  intros x y. destruct (x =? y) eqn:E; split; intro H; try congruence.
  - apply keqb_eq in E. contradiction.
  - intro E'. apply keqb_eq in E'. congruence.
Qed.
End FldFacts.

(** ** Rationals *)
#[global] Instance Qc_ops : Ops Qc := {
  k0 := Q2Qc 0; k1 := Q2Qc 1; kadd := Qcplus; kmul := Qcmult; ksub := Qcminus;
  kopp := Qcopp; kdiv := Qcdiv; kinv := Qcinv; keqb := Qc_eq_bool }.

Lemma knat_Qc : forall n, knat n = Q2Qc (inject_Z (Z.of_nat n)).
Proof.
  induction n; [reflexivity|].
  cbn [knat]. rewrite IHn. cbn [kadd k1 Qc_ops]. apply Qc_is_canon.
  unfold Qcplus. cbn [this Q2Qc]. rewrite !Qred_correct. unfold inject_Z, Qplus, Qeq; simpl. lia.
Qed.

#[global] Instance Qc_fld : Fld Qc.
Proof.
  constructor.
  - exact Qcft.
  - intros x y. simpl. split; [apply Qc_eq_bool_correct|].
    intros ->. unfold Qc_eq_bool. destruct (Qc_eq_dec y y); congruence.
  - intros n. rewrite knat_Qc. cbn [k0 Qc_ops]. intro H.
    apply Q2Qc_eq_iff in H. unfold inject_Z, Qeq in H. simpl in H. lia.
Qed.

#[global] Instance Qc_freal : FReal Qc.
Proof.
  constructor. intros x y H. cbn [kadd kmul k0 Qc_ops] in *.
  apply Qc_is_canon. apply (f_equal this) in H.
  unfold Qcplus, Qcmult, Q2Qc in *. cbn [this] in *.
  assert (H1 : (this x * this x + this y * this y == 0)%Q).
  { transitivity (Qred (Qred (this x * this x) + Qred (this y * this y))).
    - rewrite !Qred_correct. reflexivity.
    - rewrite H. rewrite Qred_correct. reflexivity. }
  clear H. rewrite Qred_correct. destruct x as [x Hx], y as [y Hy]. cbn [this] in *.
  destruct x as [a p], y as [b q]. unfold Qeq, Qplus, Qmult in *. simpl in *.
  rewrite Z.mul_1_r in *.
  assert (0 <= a * a * Z.pos (q * q))%Z by (apply Z.mul_nonneg_nonneg; [apply Z.square_nonneg|lia]).
  assert (0 <= b * b * Z.pos (p * p))%Z by (apply Z.mul_nonneg_nonneg; [apply Z.square_nonneg|lia]).
  assert (a * a * Z.pos (q * q) = 0)%Z by lia. nia.
Qed.

(** ** Reals *)
#[global] Instance R_ops : Ops R := {
  k0 := 0%R; k1 := 1%R; kadd := Rplus; kmul := Rmult; ksub := Rminus;
  kopp := Ropp; kdiv := Rdiv; kinv := Rinv;
  keqb := fun x y => if Req_EM_T x y then true else false }.

Lemma knat_R : forall n, knat n = INR n.
Proof. induction n; [reflexivity|]. cbn [knat]. rewrite IHn, S_INR. reflexivity. Qed.

#[global] Instance R_fld : Fld R.
Proof.
  constructor.
  - exact Rfield.
  - intros x y. simpl. destruct (Req_EM_T x y); split; congruence.
  - intros n. rewrite knat_R. simpl k0. apply not_0_INR. lia.
Qed.

#[global] Instance R_freal : FReal R.
Proof. constructor. simpl. intros x y H. nra. Qed.

(** ** Complex numbers over a field *)
Record cplx (K : Type) := Cx { re : K; im : K }.
Arguments Cx {K} re im.
Arguments re {K} c.
Arguments im {K} c.

Section Complex.
Context {K : Type} {O : Ops K}.
Local Open Scope K_scope.

Definition cadd (a b : cplx K) := Cx (re a + re b) (im a + im b).
Definition csub (a b : cplx K) := Cx (re a - re b) (im a - im b).
Definition copp (a : cplx K) := Cx (- re a) (- im a).
Definition cmul (a b : cplx K) := Cx (re a * re b - im a * im b) (re a * im b + im a * re b).
Definition cnorm2 (a : cplx K) := re a * re a + im a * im a.
Definition cinv (a : cplx K) := Cx (re a / cnorm2 a) (- im a / cnorm2 a).
Definition conj (a : cplx K) := Cx (re a) (- im a).
(** a real number seen as a complex one *)
Definition cre (x : K) : cplx K := Cx x 0.

#[global] Instance cplx_ops : Ops (cplx K) := {
  k0 := Cx 0 0; k1 := Cx 1 0; kadd := cadd; kmul := cmul; ksub := csub; kopp := copp;
  kdiv := fun a b => cmul a (cinv b); kinv := cinv;
  keqb := fun a b => (re a =? re b) && (im a =? im b) }.

Lemma cplx_eq : forall a b : cplx K, re a = re b -> im a = im b -> a = b.
Proof. intros [x y] [u v]; simpl; intros; subst; reflexivity. Qed.

Lemma knat_cplx_re : forall n, re (knat n : cplx K) = knat n.
Proof. induction n; simpl; [reflexivity|]. rewrite IHn. reflexivity. Qed.

Context {F : Fld K} {FR : FReal K}.
Add Field Kfld2 : (@k_field K O F).

Lemma cnorm2_neq0 : forall a : cplx K, a <> 0 -> cnorm2 a <> 0.
Proof.
  intros [x y] H E. apply H. unfold cnorm2 in E; simpl in *.
  assert (x = 0) by (apply (k_freal x y); auto).
  assert (y = 0) by (apply (k_freal y x); rewrite <- E; ring).
  subst; reflexivity.
Qed.

#[global] Instance cplx_fld : Fld (cplx K).
Proof.
  constructor.
  - constructor.
    + constructor; intros; apply cplx_eq; simpl; ring.
    + intro H. apply (f_equal re) in H. simpl in H. revert H. apply k1_neq0.
    + intros; reflexivity.
    + intros p Hp. generalize (cnorm2_neq0 p Hp). unfold cnorm2. intro Hn.
      apply cplx_eq; simpl; unfold cnorm2; field; auto.
  - intros [a b] [c d]. simpl. rewrite andb_true_iff, !keqb_eq. split.
    + intros [-> ->]; reflexivity.
    + intro H; injection H; auto.
  - intros n H. apply (f_equal re) in H. rewrite knat_cplx_re in H. revert H. apply k_char0.
Qed.

Lemma conj_add : forall a b, conj (cadd a b) = cadd (conj a) (conj b).
Proof. intros; apply cplx_eq; simpl; ring. Qed.
Lemma conj_mul : forall a b, conj (cmul a b) = cmul (conj a) (conj b).
Proof. intros; apply cplx_eq; simpl; ring. Qed.
Lemma conj_sub : forall a b, conj (csub a b) = csub (conj a) (conj b).
Proof. intros; apply cplx_eq; simpl; ring. Qed.
Lemma conj_opp : forall a, conj (copp a) = copp (conj a).
Proof. intros; apply cplx_eq; simpl; ring. Qed.
Lemma conj_conj : forall a, conj (conj a) = a.
Proof. intros; apply cplx_eq; simpl; ring. Qed.
Lemma conj_0 : conj (0 : cplx K) = 0.
Proof. apply cplx_eq; simpl; ring. Qed.
Lemma conj_1 : conj (1 : cplx K) = 1.
Proof. apply cplx_eq; simpl; ring. Qed.
End Complex.

Notation C := (cplx R).
