(** Fitting data whose rows were mixed by an orthogonal matrix, in particular reordered. *)
From Coq Require Import Bool Arith List Lia Ring Field.
From Verif Require Import BasePy BaseFld BaseOrd BaseSum BaseMat BaseNumpy BaseLin ModelMatrixOps ModelFit SpecMatrix SpecLS SpecFit ProofMatrixOps ProofLS ProofFitBase ProofFitOpt.
Import ListNotations.
Local Open Scope nat_scope.

Section Order.
Context {K : Type} {O : Ops K} {F : Fld K} {O2 : OrdOps K} {OF : OrdFld K}.
Notation CK := (cplx K).
Add Field KfldO : (@k_field K O F).

(** *** real orthogonal matrices *)
Section Orth.
Variables (N : nat) (B : mat K).
Hypothesis (HB : shape B N N) (OB : mmul (tr B) B = meye N).
Lemma orth_gram : forall A p, shape A N p -> mmul (tr (mmul B A)) (mmul B A) = mmul (tr A) A.
Proof.
  intros A p HA. destruct HB as (WB & RB & CB). destruct HA as (WA & RA & CA). rewrite tr_mmul by congruence. rewrite mmul_assoc by (cbn; congruence).
  rewrite <- (mmul_assoc (tr B) B A) by (cbn; congruence). rewrite OB, mmul_1_l' by auto. reflexivity.
Qed.
Lemma orth_back : forall v, length v = N -> mvmul (tr B) (mvmul B v) = v.
Proof. intros v L. destruct HB as (WB & RB & CB). rewrite <- mvmul_assoc by (cbn; congruence). rewrite OB, <- L. apply mvmul_1. Qed.
Lemma orth_adj : forall A p v, shape A N p -> length v = N -> mvmul (tr (mmul B A)) (mvmul B v) = mvmul (tr A) v.
Proof.
  intros A p v HA L. destruct HA as (WA & RA & CA). rewrite tr_mmul by (destruct HB as (_ & _ & ->); auto). rewrite mvmul_assoc by (destruct HB as (_ & R & C); cbn; congruence). rewrite orth_back by exact L. reflexivity.
Qed.
Lemma orth_dot : forall u v, length u = N -> length v = N -> vdot (mvmul B u) (mvmul B v) = vdot u v.
Proof.
  intros u v LU LV. destruct HB as (WB & RB & CB). rewrite vdot_mvmul by (try rewrite length_mvmul; congruence). rewrite orth_back by exact LU. reflexivity.
Qed.
Lemma orth_right : mmul B (tr B) = meye N.
Proof. apply (right_inverse_two_sided (tr B) B N); auto. destruct HB as (WB & RB & CB). split; [apply wf_mk|]. cbn. auto. Qed.
Lemma orth_back' : forall v, length v = N -> mvmul B (mvmul (tr B) v) = v.
Proof. intros v L. destruct HB as (WB & RB & CB). rewrite <- mvmul_assoc by (cbn; congruence). rewrite orth_right, <- L. apply mvmul_1. Qed.
End Orth.

(** *** the same mixing applied to every channel *)
Section Mix.
Variables (T : nat) (Q : mat K).
Hypothesis (HQ : shape Q T T) (OQ : mmul (tr Q) Q = meye T).
Definition lifted (n : nat) : mat CK := mkron (meye n) (cmat Q).
Definition big (n : nat) : mat K := make_real_matrix (lifted n).
Lemma shape_cQ : shape (cmat Q) T T.
Proof. apply shape_mmap. exact HQ. Qed.
Lemma shape_lifted : forall n, shape (lifted n) (n * T) (n * T).
Proof. intro n. destruct shape_cQ as (_ & R & C). split; [apply wf_mk|]. unfold lifted, mkron. rewrite nr_mk, nc_mk, R, C. auto. Qed.
Lemma shape_big : forall n, shape (big n) (2 * (n * T)) (2 * (n * T)).
Proof. intro n. destruct (shape_lifted n) as (_ & R & C). pose proof (shape_make_real_matrix (lifted n)) as H. rewrite R, C in H. replace (2 * (n * T)) with (n * T + n * T) by lia. exact H. Qed.
Lemma unitary_cQ : mmul (ctr (cmat Q)) (cmat Q) = meye T.
Proof.
  destruct HQ as (WQ & RQ & CQ). assert (R : nr (cmat Q) = T) by exact RQ. assert (C : nc (cmat Q) = T) by exact CQ.
  apply (gshape_ext _ _ T T); [apply shape_mmul with (m := T); [exact CQ|exact CQ|exact RQ]|apply shape_meye|].
  intros i j Hi Hj. rewrite get_mmul by (change (nr (ctr (cmat Q))) with (nc (cmat Q)); rewrite C; assumption). change (nc (ctr (cmat Q))) with (nr (cmat Q)). rewrite R, get_meye by assumption.
  assert (E : get (mmul (tr Q) Q) i j = get (meye T) i j) by (rewrite OQ; reflexivity).
  rewrite get_mmul in E by (change (nr (tr Q)) with (nc Q); rewrite CQ; assumption). change (nc (tr Q)) with (nr Q) in E. rewrite RQ, get_meye in E by assumption.
  transitivity (cre (sumn T (fun k => (get (tr Q) i k * get Q k j)%K)) : CK).
  - rewrite cre_sumn. apply sumn_ext. intros k Hk. rewrite get_ctr by (rewrite ?C, ?R; assumption). rewrite !get_cmat by (rewrite ?RQ, ?CQ; assumption). rewrite get_tr by (rewrite ?RQ, ?CQ; assumption).
    apply cplx_eq; cbn; ring.
  - rewrite E. destruct (i =? j); reflexivity.
Qed.
Lemma ctr_mkron : forall a b : mat CK, ctr (mkron a b) = mkron (ctr a) (ctr b).
Proof.
  intros a b. apply (gshape_ext _ _ (nc a * nc b) (nr a * nr b)); [split; [apply wf_mk|cbn; auto]|split; [apply wf_mk|cbn; auto]|]. intros i j Hi Hj.
  rewrite get_ctr by (cbn; auto). rewrite !get_mkron' by (cbn; auto). cbn [nr nc ctr mk].
  assert (nc b <> 0) by (intro E; rewrite E in Hi; lia). assert (nr b <> 0) by (intro E; rewrite E in Hj; lia).
  rewrite !get_ctr by (try apply Nat.div_lt_upper_bound; try apply Nat.mod_upper_bound; lia). apply conj_mul'.
Qed.
Lemma big_orth : forall n, mmul (tr (big n)) (big n) = meye (2 * (n * T)).
Proof.
  intro n. unfold big. destruct (shape_lifted n) as (W & R & C). rewrite <- make_real_matrix_ctr by exact W.
  rewrite <- make_real_matrix_mmul by (try apply wf_mk; auto; cbn; congruence). unfold lifted. rewrite ctr_mkron, ctr_meye. destruct shape_cQ as (_ & R1 & C1).
  rewrite mmul_mkron by (cbn; auto). rewrite unitary_cQ, mmul_1_l' by (try apply wf_mk; auto). rewrite mkron_eye, make_real_matrix_eye. f_equal. lia.
Qed.
(** *** data *)
Lemma mix_matrix : forall n x (D : mat CK), shape x T n -> nr D = n * n -> make_real_matrix (mmul (mkron (meye n) (mmul (cmat Q) x)) D) = mmul (big n) (make_real_matrix (mmul (mkron (meye n) x) D)).
Proof.
  intros n x D (WX & RX & CX) HD. destruct shape_cQ as (WQ & RQ & CQ). assert (E : mkron (meye n) (mmul (cmat Q) x) = mmul (lifted n) (mkron (meye n) x)).
  { unfold lifted. rewrite mmul_mkron by (first [reflexivity|congruence]). rewrite mmul_1_l' by (try apply wf_mk; auto). reflexivity. }
  rewrite E. rewrite mmul_assoc; [|destruct (shape_lifted n) as (_ & _ & C); rewrite C; cbn; rewrite RX; reflexivity|cbn; rewrite CX; auto].
  unfold big. apply make_real_matrix_mmul; try apply wf_mk. destruct (shape_lifted n) as (_ & _ & C). rewrite C. cbn. rewrite RX. reflexivity.
Qed.
Lemma mix_vector : forall n z, shape z T n -> make_real_vector (vectorize_matrix (mmul (cmat Q) z)) = mvmul (big n) (make_real_vector (vectorize_matrix z)).
Proof.
  intros n z (WZ & RZ & CZ). destruct shape_cQ as (WQ & RQ & CQ). unfold big, lifted. rewrite make_real_matrix_mvmul.
  - rewrite kron_eye_vec by (auto; congruence). reflexivity.
  - apply wf_mk.
  - change (nc (mkron (meye n) (cmat Q))) with (n * nc (cmat Q)). rewrite length_vectorize, CQ, RZ, CZ. lia.
Qed.
Lemma length_stacked : forall n (z : mat CK), shape z T n -> length (make_real_vector (vectorize_matrix z)) = 2 * (n * T).
Proof. intros n z (_ & R & C). rewrite length_make_real_vector, length_vectorize, R, C. lia. Qed.
Lemma shape_mixed : forall n x, shape x T n -> shape (mmul (cmat Q) x) T n.
Proof. intros n x (_ & R & C). destruct shape_cQ as (_ & RQ & CQ). apply shape_mmul with (m := T); auto. Qed.

(** *** the regression *)
Lemma br_step_mixed : forall sv (e : estimator K) DT N B (A : mat K) b n s p, shape B N N -> mmul (tr B) B = meye N -> shape A N p -> length b = N ->
  br_step sv e DT (mmul B A) (mvmul B b) n s = br_step sv e DT A b n s.
Proof.
  intros sv e DT N B A b n [[y0 M] mu] p HB OB HA L. unfold br_step. pose proof HA as (WA & RA & CA). pose proof HB as (WB & RB & CB).
  rewrite (matmul_ok K O (tr (mmul B A)) (mmul B A)) by (cbn; auto). rewrite (matmul_ok K O (tr A) A) by (cbn; auto). cbn [bind].
  rewrite (orth_gram N B HB OB A p HA). destruct (sp_add (mmul (tr A) A) (mscal (e_lambda e) M)) as [iASA|]; [|reflexivity]. cbn [bind].
  rewrite (matvec_ok K O (tr (mmul B A)) (mvmul B b)) by (rewrite length_mvmul; reflexivity). rewrite (matvec_ok K O (tr A) b) by (cbn; congruence). cbn [bind].
  rewrite (orth_adj N B HB OB A p b HA L). destruct (np_vadd _ _) as [ASb|]; [|reflexivity]. cbn [bind].
  destruct (solve_y sv e DT n iASA ASb) as [[[y s'] pen]|]; [|reflexivity]. cbn [bind].
  unfold matvec. change (nc (mmul B A)) with (nc A). destruct (nc A =? length y) eqn:E; [|reflexivity]. apply Nat.eqb_eq in E. cbn [bind].
  rewrite mvmul_assoc by congruence.
  rewrite (np_vsub_ok (mvmul B b)) by (rewrite !length_mvmul; auto). rewrite (np_vsub_ok b) by (rewrite length_mvmul; congruence). cbn [bind].
  rewrite <- mvmul_vsubt by (rewrite ?length_mvmul; congruence). rewrite (orth_dot N B HB OB) by (rewrite length_vsubt; exact L). reflexivity.
Qed.
Lemma loop_ext : forall at_ rt (step step' : lstate K -> res (lstate K * K)) (Inv : lstate K -> Prop),
  (forall s, Inv s -> step' s = step s) -> (forall s s' t, Inv s -> step s = Ok (s', t) -> Inv s') ->
  forall fuel it iters s, Inv s -> fit_loop at_ rt step' fuel it iters s = fit_loop at_ rt step fuel it iters s.
Proof.
  intros at_ rt step step' Inv E P. induction fuel as [|fuel IH]; intros it iters s HI; [reflexivity|]. cbn [fit_loop]. rewrite (E s HI).
  destruct (step s) as [[s' t]|er] eqn:ES; [|reflexivity]. cbv zeta. destruct (if 0 <? it then _ else _); [reflexivity|]. apply IH. exact (P s s' t HI ES).
Qed.
Lemma br_mixed : forall sv (e : estimator K) n x z y0, shape x T n -> shape z T n -> br_fit sv e (mmul (cmat Q) x) (mmul (cmat Q) z) y0 = br_fit sv e x z y0.
Proof.
  intros sv e n x z y0 HX HZ. pose proof HX as (WX & RX & CX). unfold br_fit, fit_init. change (nc (mmul (cmat Q) x)) with (nc x). rewrite CX.
  destruct (e_dt e n) as [DT|]; [|reflexivity]. cbn [bind]. destruct (e_el e n) as [El|]; [|reflexivity]. cbn [bind].
  unfold matmul at 1 2. change (nc (mkron (meye n) (mmul (cmat Q) x))) with (n * nc x). change (nc (mkron (meye n) x)) with (n * nc x). rewrite CX.
  destruct (n * n =? nr (cmat DT)) eqn:ED; [|reflexivity]. apply Nat.eqb_eq in ED. cbn [bind].
  destruct (matvec (cmat El) (vectorize_matrix y0)) as [vy|]; [|reflexivity]. cbn [bind]. destruct (e_prior e (make_real_vector vy)) as [[[M mu] pen]|]; [|reflexivity]. cbn [bind].
  f_equal. rewrite (mix_matrix n x (cmat DT) HX (eq_sym ED)), (mix_vector n z HZ).
  apply (loop_ext _ _ _ _ (fun _ => True)); auto. intros s _. apply (br_step_mixed sv e DT (2 * (n * T)) (big n) _ _ n s (nc (cmat DT) + nc (cmat DT))).
  - apply shape_big.
  - apply big_orth.
  - pose proof (shape_make_real_matrix (mmul (mkron (meye n) x) (cmat DT))) as H. cbn [nr nc mmul mk mkron meye] in H. rewrite RX in H. replace (2 * (n * T)) with (n * T + n * T) by lia. exact H.
  - apply length_stacked. exact HZ.
Qed.
End Mix.
End Order.
