(** Proofs about ordinary and total least squares. *)
From Coq Require Import Arith Lia List.
From Coq Require Import Ring Field.
From Verif Require Import BasePy BaseFld BaseOrd BaseSum BaseMat BaseLin SpecMatrix ModelLS SpecLS.
Import ListNotations.
Local Open Scope K_scope.

Section CTR.
Context {K : Type} {O : Ops K} {F : Fld K} {O2 : OrdOps K} {OF : OrdFld K}.
Notation CK := (cplx K).
Add Field Kfld : (@k_field K O F).
Add Field CKfld : (@k_field CK _ _).

(** real part of <a, b> entrywise *)
Lemma cnorm2_conj : forall a : CK, cre (cnorm2 a) = conj a * a.
Proof. intros [x y]. apply cplx_eq; simpl; unfold cnorm2; simpl; ring. Qed.
Lemma cre_add : forall a b : K, cre (a + b) = cre a + cre b :> CK.
Proof. intros. apply cplx_eq; simpl; ring. Qed.
Local Arguments kmul : simpl never.
Local Arguments kadd : simpl never.
Local Arguments ksub : simpl never.
Local Arguments kopp : simpl never.
Lemma conj_add' : forall a b : CK, conj (a + b) = conj a + conj b.
Proof. intros; apply conj_add. Qed.
Lemma conj_mul' : forall a b : CK, conj (a * b) = conj a * conj b.
Proof. intros; apply conj_mul. Qed.
Lemma conj_sumn : forall n (f : nat -> CK), conj (sumn n f) = sumn n (fun i => conj (f i)).
Proof. induction n; intros f; cbn [sumn]; [apply conj_0|]. rewrite conj_add', IHn. reflexivity. Qed.

Lemma shape_ctr : forall (a : mat CK) r c, shape a r c -> shape (ctr a) c r.
Proof. intros a r c (_ & Hr & Hc). unfold ctr. rewrite Hr, Hc. apply shape_mk. Qed.
Lemma get_ctr : forall (a : mat CK) i j, (i < nc a)%nat -> (j < nr a)%nat -> get (ctr a) i j = conj (get a j i).
Proof. intros. unfold ctr. rewrite get_mk; auto. Qed.
Lemma ctr_mmul : forall a b : mat CK, nc a = nr b -> ctr (mmul a b) = mmul (ctr b) (ctr a).
Proof.
  intros a b H. apply gmat_ext; try apply wf_mk; auto. simpl. intros i j Hi Hj.
  rewrite get_ctr by auto. rewrite !get_mmul by auto. simpl. rewrite conj_sumn, H. apply sumn_ext. intros k Hk.
  rewrite !get_ctr by lia. rewrite conj_mul'. ring.
Qed.
Lemma ctr_ctr : forall a : mat CK, wf a -> ctr (ctr a) = a.
Proof.
  intros a W. apply gmat_ext; try apply wf_mk; auto. simpl. intros i j Hi Hj. rewrite !get_ctr by auto. apply conj_conj.
Qed.
Lemma ctr_meye : forall n, ctr (meye n : mat CK) = meye n.
Proof.
  intros n. apply gmat_ext; try apply wf_mk; auto. simpl. intros i j Hi Hj. rewrite get_ctr by auto. rewrite !get_meye by auto.
  rewrite Nat.eqb_sym. destruct (i =? j)%nat; [apply conj_1|apply conj_0].
Qed.


Definition mdot (a b : mat CK) : CK := sumn (nr a) (fun i => sumn (nc a) (fun j => conj (get a i j) * get b i j)).

Lemma cre_sumn : forall n (f : nat -> K), cre (sumn n f) = sumn n (fun i => cre (f i)) :> CK.
Proof. induction n; intros f; cbn [sumn]; [reflexivity|]. rewrite cre_add, IHn. reflexivity. Qed.
Lemma fro2_mdot : forall a, cre (fro2 a) = mdot a a.
Proof.
  intro a. unfold fro2, mdot. rewrite cre_sumn. apply sumn_ext. intros i Hi. rewrite cre_sumn. apply sumn_ext. intros j Hj.
  apply cnorm2_conj.
Qed.
Lemma cnorm2_nonneg : forall a : CK, 0 <=! cnorm2 a.
Proof. intros [x y]. unfold cnorm2. apply kle_0_add; apply kle_sqr. Qed.
Lemma fro2_nonneg : forall a, 0 <=! fro2 a.
Proof. intro a. apply sumn_nonneg. intros. apply sumn_nonneg. intros. apply cnorm2_nonneg. Qed.
Lemma cnorm2_zero : forall a : CK, cnorm2 a = 0 -> a = 0.
Proof.
  intros [x y] H. unfold cnorm2 in H. simpl in H. apply kle_add_zero in H; try apply kle_sqr. destruct H as [H1 H2].
  apply sqr_zero in H1. apply sqr_zero in H2. subst. reflexivity.
Qed.
Lemma fro2_zero : forall a r c, shape a r c -> fro2 a = 0 -> a = mzeros r c.
Proof.
  intros a r c Sh H. apply (gshape_ext a _ r c Sh); [apply shape_mk|]. intros i j Hi Hj. unfold mzeros. rewrite get_mk by auto.
  destruct Sh as (_ & Hr & Hc).
  unfold fro2 in H. rewrite Hr, Hc in H. apply cnorm2_zero.
  assert (E := sumn_nonneg_zero r _ ltac:(intros; apply sumn_nonneg; intros; apply cnorm2_nonneg) H i Hi). cbn beta in E.
  apply (sumn_nonneg_zero c (fun j => cnorm2 (get a i j)) ltac:(intros; apply cnorm2_nonneg) E j Hj).
Qed.

(** <x b, r> = <b, x^H r> *)
Lemma mdot_adj : forall x b r : mat CK, nc x = nr b -> nr x = nr r -> nc r = nc b ->
  mdot (mmul x b) r = mdot b (mmul (ctr x) r).
Proof.
  intros x b r H1 H2 H3. unfold mdot. simpl.
  transitivity (sumn (nr x) (fun i => sumn (nc b) (fun j => sumn (nc x) (fun k => conj (get x i k) * conj (get b k j) * get r i j)))).
  { apply sumn_ext. intros i Hi. apply sumn_ext. intros j Hj. rewrite get_mmul by auto. rewrite conj_sumn, <- sumn_scal_r.
    apply sumn_ext. intros k Hk. rewrite conj_mul'. ring. }
  transitivity (sumn (nc x) (fun k => sumn (nc b) (fun j => sumn (nr x) (fun i => conj (get x i k) * conj (get b k j) * get r i j)))).
  { transitivity (sumn (nr x) (fun i => sumn (nc x) (fun k => sumn (nc b) (fun j => conj (get x i k) * conj (get b k j) * get r i j)))).
    - apply sumn_ext. intros i Hi. apply sumn_swap.
    - rewrite sumn_swap. apply sumn_ext. intros k Hk. apply sumn_swap. }
  rewrite H1. apply sumn_ext. intros k Hk. apply sumn_ext. intros j Hj.
  rewrite get_mmul by (simpl; lia). simpl. rewrite <- sumn_scal_l. apply sumn_ext. intros i Hi. rewrite get_ctr by lia. ring.
Qed.

Lemma mdot_zero_r : forall a b : mat CK, (forall i j, (i < nr a)%nat -> (j < nc a)%nat -> get b i j = 0) -> mdot a b = 0.
Proof.
  intros a b H. unfold mdot. apply sumn_zero. intros i Hi. apply sumn_zero. intros j Hj. rewrite H by auto. ring.
Qed.

Lemma mdot_conj : forall a b : mat CK, nr a = nr b -> nc a = nc b -> mdot b a = conj (mdot a b).
Proof.
  intros a b H1 H2. unfold mdot. rewrite conj_sumn, H1. apply sumn_ext. intros i Hi. rewrite conj_sumn, H2. apply sumn_ext. intros j Hj.
  rewrite conj_mul', conj_conj. ring.
Qed.

(** Pythagoras *)
Lemma fro2_add : forall a b, nr a = nr b -> nc a = nc b -> mdot b a = 0 ->
  fro2 (madd a b) = fro2 a + fro2 b.
Proof.
  intros a b H1 H2 E. assert (E2 : mdot a b = 0) by (rewrite (mdot_conj b a), E by auto; apply conj_0).
  apply (f_equal re (x := cre (fro2 (madd a b))) (y := cre (fro2 a + fro2 b))).
  rewrite cre_add, !fro2_mdot. unfold mdot at 1. simpl.
  transitivity (mdot a a + mdot b b + (mdot a b + mdot b a)).
  2:{ rewrite E, E2. ring. }
  unfold mdot. rewrite <- H1, <- H2. rewrite <- !sumn_add. apply sumn_ext. intros i Hi. rewrite <- !sumn_add. apply sumn_ext. intros j Hj.
  rewrite get_madd by auto. rewrite conj_add'. ring.
Qed.
End CTR.

Section OLS.
Context {K : Type} {O : Ops K} {F : Fld K} {O2 : OrdOps K} {OF : OrdFld K}.
Notation CK := (cplx K).
Add Field Kfld3 : (@k_field K O F).
Add Field CKfld3 : (@k_field CK _ _).

Lemma ols_fit_ok : forall pinv (x z : mat CK) T n m, penrose T n x (pinv x) -> shape z T m ->
  complex_regression_fit pinv x z = Ok (mmul (pinv x) z).
Proof.
  intros pinv x z T n m (Sx & Sp & _) Sz. unfold complex_regression_fit, matmul.
  destruct Sp as (_ & _ & Hc), Sz as (_ & Hr & _). rewrite Hc, Hr, Nat.eqb_refl. reflexivity.
Qed.

Lemma penrose_left : forall T n (x p : mat CK), penrose T n x p -> inj x -> mmul p x = meye n.
Proof.
  intros T n x p (Sx & Sp & E1 & _) I. pose proof Sx as (Wx & Rx & Cx_). pose proof Sp as (Wp & Rp & Cp).
  apply (inj_mcancel x _ _ T n n I Sx).
  - apply (shape_mmul p x n T n); auto.
  - apply shape_meye.
  - rewrite <- mmul_assoc by congruence. rewrite E1. symmetry. apply mmul_1_r'; auto.
Qed.

Lemma p_ols_exact : forall pinv (x y : mat CK) T n m,
  penrose T n x (pinv x) -> inj x -> shape y n m ->
  complex_regression_fit pinv x (mmul x y) = Ok y.
Proof.
  intros pinv x y T n m P I Sy. pose proof P as (Sx & Sp & _).
  pose proof Sx as (Wx & Rx & Cx_). pose proof Sp as (Wp & Rp & Cp). pose proof Sy as (Wy & Ry & Cy).
  rewrite (ols_fit_ok pinv x (mmul x y) T n m P) by (apply (shape_mmul x y T n m); auto).
  f_equal. rewrite <- mmul_assoc by congruence. rewrite (penrose_left T n x (pinv x) P I). apply mmul_1_l'; auto.
Qed.

Lemma p_ols_orthogonal : forall pinv (x z : mat CK) T n m,
  penrose T n x (pinv x) -> shape z T m ->
  exists b, complex_regression_fit pinv x z = Ok b /\ shape b n m /\
    mmul (ctr x) (msubt z (mmul x b)) = mzeros n m.
Proof.
  intros pinv x z T n m P Sz. exists (mmul (pinv x) z). rewrite (ols_fit_ok pinv x z T n m P Sz).
  pose proof P as (Sx & Sp & E1 & E2 & E3 & E4).
  pose proof Sx as (Wx & Rx & Cx_). pose proof Sp as (Wp & Rp & Cp). pose proof Sz as (Wz & Rz & Cz).
  split; [auto|]. split; [apply (shape_mmul (pinv x) z n T m); auto|].
  rewrite mmul_msubt_r by (simpl; congruence).
  assert (E : mmul (ctr x) (mmul x (mmul (pinv x) z)) = mmul (ctr x) z).
  { rewrite <- (mmul_assoc x) by congruence. rewrite <- mmul_assoc by (simpl; congruence).
    rewrite <- E3 at 1. rewrite <- ctr_mmul by (simpl; congruence). rewrite E1. auto. }
  rewrite E. apply gmat_ext; try apply wf_mk; simpl; auto; try congruence. intros i j Hi Hj.
  rewrite get_msubt by (simpl; auto). unfold mzeros. rewrite get_mk by (try lia). ring.
Qed.

Lemma p_ols_optimal : forall pinv (x z w : mat CK) T n m,
  penrose T n x (pinv x) -> shape z T m -> shape w n m ->
  exists b, complex_regression_fit pinv x z = Ok b /\
    fro2 (msubt z (mmul x w)) = fro2 (msubt z (mmul x b)) + fro2 (mmul x (msubt b w)) /\
    fro2 (msubt z (mmul x b)) <=! fro2 (msubt z (mmul x w)).
Proof.
  intros pinv x z w T n m P Sz Sw. destruct (p_ols_orthogonal pinv x z T n m P Sz) as (b & Eb & Sb & Or).
  exists b. split; [auto|].
  pose proof P as (Sx & Sp & _). pose proof Sx as (Wx & Rx & Cx_). pose proof Sz as (Wz & Rz & Cz).
  pose proof Sb as (Wb & Rb & Cb). pose proof Sw as (Ww & Rw & Cw).
  assert (E : fro2 (msubt z (mmul x w)) = fro2 (msubt z (mmul x b)) + fro2 (mmul x (msubt b w))).
  { rewrite <- fro2_add.
    - f_equal. rewrite mmul_msubt_r by (simpl; congruence). apply gmat_ext; try apply wf_mk; auto. simpl. intros i j Hi Hj.
      rewrite get_madd, !get_msubt by (simpl; try lia; auto). ring.
    - simpl; congruence.
    - simpl; congruence.
    - rewrite mdot_adj by (simpl; congruence). apply mdot_zero_r. simpl. intros i j Hi Hj. rewrite Or. unfold mzeros. rewrite get_mk by lia. auto. }
  split; [auto|]. rewrite E. apply kle_sub.
  replace (fro2 (msubt z (mmul x b)) + fro2 (mmul x (msubt b w)) - fro2 (msubt z (mmul x b))) with (fro2 (mmul x (msubt b w))) by ring.
  apply fro2_nonneg.
Qed.

(** a strictly better competitor does not exist: with independent columns the minimiser is unique *)
Lemma p_ols_unique : forall pinv (x z w : mat CK) T n m,
  penrose T n x (pinv x) -> inj x -> shape z T m -> shape w n m ->
  exists b, complex_regression_fit pinv x z = Ok b /\
    (fro2 (msubt z (mmul x w)) = fro2 (msubt z (mmul x b)) -> w = b).
Proof.
  intros pinv x z w T n m P I Sz Sw. destruct (p_ols_optimal pinv x z w T n m P Sz Sw) as (b & Eb & E & _).
  exists b. split; [auto|]. intro H. destruct (p_ols_orthogonal pinv x z T n m P Sz) as (b' & Eb' & Sb & _).
  assert (b' = b) by congruence. subst b'. clear Eb'.
  pose proof P as (Sx & Sp & _). pose proof Sx as (Wx & Rx & Cx_).
  pose proof Sb as (Wb & Rb & Cb). pose proof Sw as (Ww & Rw & Cw).
  assert (Z : fro2 (mmul x (msubt b w)) = 0).
  { transitivity (fro2 (msubt z (mmul x w)) - fro2 (msubt z (mmul x b))); [rewrite E; ring|rewrite H; ring]. }
  apply (fro2_zero _ T m) in Z; [|apply (shape_mmul x (msubt b w) T n m); simpl; auto].
  apply (inj_mcancel x w b T n m); auto. rewrite mmul_msubt_r in Z by congruence.
  apply (gshape_ext _ _ T m); try (eapply shape_mmul; eauto). intros i j Hi Hj.
  apply (f_equal (fun M => get M i j)) in Z. unfold mzeros in Z. rewrite get_mk in Z by auto.
  rewrite get_msubt in Z by (simpl; lia). symmetry. apply ksub_eq0. auto.
Qed.

(** the Penrose inverse exists for independent columns, so the hypothesis can be met *)
Lemma gram_inj : forall (x : mat CK) T n, shape x T n -> inj x -> inj (mmul (ctr x) x).
Proof.
  intros x T n Sx I v Hv Z. pose proof Sx as (Wx & Rx & Cx_). simpl in Hv, Z.
  assert (L : length v = n) by congruence.
  set (V := mk n 1 (fun i _ => vget v i)).
  assert (E : mmul x V = mzeros T 1).
  { apply (fro2_zero _ T 1); [apply (shape_mmul x V T n 1); auto|].
    assert (M0 : mdot (mmul x V) (mmul x V) = 0).
    2:{ rewrite <- fro2_mdot in M0. exact (f_equal re M0). }
    rewrite mdot_adj by (simpl; auto). apply mdot_zero_r. simpl. intros i j Hi Hj. assert (j = 0)%nat by lia. subst j.
    rewrite <- mmul_assoc by (simpl; congruence).
    rewrite get_mmul by (simpl; lia). simpl.
    apply (f_equal (fun u => vget u i)) in Z. rewrite vget_vzeros in Z. rewrite vget_mvmul in Z by (simpl; lia). simpl in Z. rewrite <- Z at 1.
    apply sumn_ext. intros k Hk. unfold V. rewrite get_mk by lia. auto. }
  change (v = vzeros (nc x)). apply I; [auto|]. apply vec_ext; [rewrite length_mvmul, length_vzeros; auto|].
  intros i Hi. rewrite length_mvmul in Hi. rewrite vget_vzeros, vget_mvmul by auto.
  apply (f_equal (fun M => get M i 0)) in E. unfold mzeros in E. rewrite get_mk in E by lia. rewrite get_mmul in E by (simpl; lia).
  rewrite <- E at 1. apply sumn_ext. intros k Hk. unfold V. rewrite get_mk by lia. auto.
Qed.

Lemma p_pinv_exists : forall (x : mat CK) T n, shape x T n -> inj x -> exists p, penrose T n x p.
Proof.
  intros x T n Sx I. pose proof Sx as (Wx & Rx & Cx_).
  assert (Sg : shape (mmul (ctr x) x) n n) by (apply (shape_mmul (ctr x) x n T n); simpl; auto).
  destruct (inj_kinverse _ n Sg (gram_inj x T n Sx I)) as [g Eg].
  destruct (kinverse_sound _ n g Sg Eg) as (Sgi & G1 & G2). pose proof Sgi as (Wg & Rg & Cg).
  exists (mmul g (ctr x)).
  assert (PX : mmul (mmul g (ctr x)) x = meye n) by (rewrite mmul_assoc by (simpl; congruence); auto).
  assert (Hg : ctr g = g).
  { (* inverse of a Hermitian matrix *)
    assert (E2 : mmul (mmul (ctr x) x) (ctr g) = meye n).
    { rewrite <- (ctr_meye n), <- G2, ctr_mmul by (simpl; congruence). f_equal. rewrite ctr_mmul by (simpl; congruence). rewrite ctr_ctr by auto. auto. }
    apply (inj_mcancel (mmul (ctr x) x) (ctr g) g n n n); auto; [apply gram_inj with T n; auto|apply shape_ctr; auto|congruence]. }
  split; [auto|]. split; [apply (shape_mmul g (ctr x) n n T); simpl; auto|]. split; [|split; [|split]].
  - rewrite mmul_assoc by (simpl; congruence). rewrite PX. apply mmul_1_r'; auto.
  - rewrite PX. apply mmul_1_l'; [apply wf_mk|simpl; auto].
  - rewrite ctr_mmul by (simpl; congruence). rewrite ctr_mmul by (simpl; congruence). rewrite ctr_ctr by auto. rewrite Hg.
    rewrite mmul_assoc by (simpl; congruence). auto.
  - rewrite PX. apply ctr_meye.
Qed.
End OLS.
