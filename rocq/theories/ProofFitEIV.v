(** BayesianEIVRegression: the two half-steps, noise-free data, projection. *)
From Coq Require Import Arith ZArith Lia List Bool Ring Field.
From Verif Require Import BasePy BaseFld BaseSum BaseMat BaseNumpy BaseOrd BaseLin ModelMatrixOps SpecMatrix SpecLS
  ModelPrior SpecPrior ProofPrior ProofMatrixOps ProofStruct ProofMatrixProps ProofLS ModelFit SpecFit ProofFitBase ProofFit ProofFitOpt ProofFitBR.
Import ListNotations.
Local Open Scope K_scope.

Ltac dims := cbn [nr nc mmul tr mtr mk madd msubt mscal mopp].

Section EIV.
Context {K : Type} {O : Ops K} {F : Fld K} {O2 : OrdOps K} {OF : OrdFld K}.
Notation CK := (cplx K).
Add Field Kfld : (@k_field K O F).

Lemma underline_y_real : forall T n (Y : mat CK), shape Y n n ->
  underline_y T Y = make_real_matrix (mkron Y (meye T)).
Proof.
  intros T n Y (Hw & Hr & Hc). unfold underline_y, make_real_matrix.
  assert (E1 : mmap re (mkron Y (meye T)) = mkron (mmap re Y) (meye T)).
  { apply (gmat_ext _ _); [apply wf_mmap, wf_mk|apply wf_mk|reflexivity|reflexivity|].
    cbn [mmap nr nc]. intros i j Hi Hj. unfold get. rewrite (gget_mmap _ _ re (0 : CK)) by (try apply wf_mk; assumption).
    change (re (get (mkron Y (meye T)) i j) = get (mkron (mmap re Y) (meye T)) i j).
    cbn [nr nc mkron mk meye] in Hi, Hj.
    assert (HT : T <> 0%nat) by (intros ->; rewrite Nat.mul_0_r in Hi; lia).
    rewrite !get_mkron' by (cbn [nr nc mkron mk meye mmap]; assumption). cbn [nr nc meye mk].
    assert (i / T < nr Y)%nat by (apply Nat.div_lt_upper_bound; [exact HT|lia]).
    assert (j / T < nc Y)%nat by (apply Nat.div_lt_upper_bound; [exact HT|lia]).
    assert (i mod T < T)%nat by (apply Nat.mod_upper_bound; exact HT). assert (j mod T < T)%nat by (apply Nat.mod_upper_bound; exact HT).
    rewrite !get_meye by assumption. unfold get at 2. rewrite (gget_mmap _ _ re (0 : CK)) by assumption.
    fold (get Y (i / T) (j / T)). destruct (i mod T =? j mod T)%nat.
    - change (re (cmul (get Y (i / T) (j / T)) (cre 1)) = re (get Y (i / T) (j / T)) * 1). unfold cmul, cre; cbn [re im]; ring.
    - change (re (cmul (get Y (i / T) (j / T)) (cre 0)) = re (get Y (i / T) (j / T)) * 0). unfold cmul, cre; cbn [re im]; ring. }
  assert (E2 : mmap im (mkron Y (meye T)) = mkron (mmap im Y) (meye T)).
  { apply (gmat_ext _ _); [apply wf_mmap, wf_mk|apply wf_mk|reflexivity|reflexivity|].
    cbn [mmap nr nc]. intros i j Hi Hj. unfold get. rewrite (gget_mmap _ _ im (0 : CK)) by (try apply wf_mk; assumption).
    change (im (get (mkron Y (meye T)) i j) = get (mkron (mmap im Y) (meye T)) i j).
    cbn [nr nc mkron mk meye] in Hi, Hj.
    assert (HT : T <> 0%nat) by (intros ->; rewrite Nat.mul_0_r in Hi; lia).
    rewrite !get_mkron' by (cbn [nr nc mkron mk meye mmap]; assumption). cbn [nr nc meye mk].
    assert (i / T < nr Y)%nat by (apply Nat.div_lt_upper_bound; [exact HT|lia]).
    assert (j / T < nc Y)%nat by (apply Nat.div_lt_upper_bound; [exact HT|lia]).
    assert (i mod T < T)%nat by (apply Nat.mod_upper_bound; exact HT). assert (j mod T < T)%nat by (apply Nat.mod_upper_bound; exact HT).
    rewrite !get_meye by assumption. unfold get at 2. rewrite (gget_mmap _ _ im (0 : CK)) by assumption.
    fold (get Y (i / T) (j / T)). destruct (i mod T =? j mod T)%nat.
    - change (im (cmul (get Y (i / T) (j / T)) (cre 1)) = im (get Y (i / T) (j / T)) * 1). unfold cmul, cre; cbn [re im]; ring.
    - change (im (cmul (get Y (i / T) (j / T)) (cre 0)) = im (get Y (i / T) (j / T)) * 0). unfold cmul, cre; cbn [re im]; ring. }
  rewrite E1, E2. reflexivity.
Qed.

Lemma shape_underline_y : forall T n (Y : mat CK), shape Y n n -> shape (underline_y T Y) (2 * (n * T)) (2 * (n * T)).
Proof.
  intros T n Y HY. rewrite (underline_y_real T n Y HY). destruct HY as (_ & Hr & Hc).
  replace (2 * (n * T))%nat with (nr (mkron Y (meye T)) + nr (mkron Y (meye T)))%nat at 1 by (cbn [nr mkron mk meye]; rewrite Hr; lia).
  replace (2 * (n * T))%nat with (nc (mkron Y (meye T)) + nc (mkron Y (meye T)))%nat by (cbn [nc mkron mk meye]; rewrite Hc; lia).
  apply shape_make_real_matrix.
Qed.

Lemma underline_y_apply : forall T n (Y X : mat CK), shape Y n n -> shape X T n ->
  mvmul (underline_y T Y) (make_real_vector (vectorize_matrix X)) = make_real_vector (vectorize_matrix (mmul X (tr Y))).
Proof.
  intros T n Y X HY (HwX & HrX & HcX). rewrite (underline_y_real T n Y HY). destruct HY as (_ & Hr & Hc).
  rewrite make_real_matrix_mvmul; [|apply wf_mk|rewrite length_vectorize; cbn [nc mkron mk meye]; rewrite Hc, HrX, HcX; lia].
  rewrite eye_kron_vec by (try assumption; congruence). reflexivity.
Qed.

(** every real vector of the right size is the real form of a matrix *)
Lemma real_matrix_form : forall T n (d : list K), length d = (2 * (n * T))%nat ->
  exists D : mat CK, shape D T n /\ d = make_real_vector (vectorize_matrix D) /\
    make_complex_vector d = Ok (vectorize_matrix D) /\ unvectorize_matrix (vectorize_matrix D) T n = Ok D.
Proof.
  intros T n d H. destruct (even_real d (n * T) H) as (v & -> & Hv).
  destruct (unvectorize_ok v T n) as (D & HD & Hs & _); [lia|].
  pose proof (vectorize_unvectorize v T n D HD) as E. exists D. split; [exact Hs|]. rewrite E.
  split; [reflexivity|]. split; [apply make_complex_real|exact HD].
Qed.


Lemma length_rv : forall T n (X : mat CK), shape X T n -> length (make_real_vector (vectorize_matrix X)) = (2 * (n * T))%nat.
Proof. intros T n X (_ & Hr & Hc). rewrite length_make_real_vector, length_vectorize, Hr, Hc. lia. Qed.

(** the misfit as a function of the input error, in real form *)
Lemma input_misfit : forall T n (x z Y D : mat CK), shape x T n -> shape z T n -> shape Y n n -> shape D T n ->
  vsubt (vsubt (mvmul (underline_y T Y) (make_real_vector (vectorize_matrix x))) (make_real_vector (vectorize_matrix z)))
        (mvmul (underline_y T Y) (make_real_vector (vectorize_matrix D))) =
  vscal (- (1)) (make_real_vector (vectorize_matrix (msubt z (mmul (msubt x D) (tr Y))))).
Proof.
  intros T n x z Y D Hx Hz HY HD.
  rewrite !(underline_y_apply T n) by assumption.
  pose proof Hx as (_ & Hrx & Hcx). pose proof Hz as (_ & Hrz & Hcz). pose proof HY as (_ & HrY & HcY). pose proof HD as (_ & HrD & HcD).
  rewrite mmul_msubt_l by congruence.
  rewrite <- vectorize_msubt by (dims; congruence). rewrite <- real_vector_sub by (rewrite !length_vectorize; dims; congruence).
  rewrite <- vectorize_msubt by (dims; congruence). rewrite <- real_vector_sub by (rewrite !length_vectorize; dims; congruence).
  apply vec_ext.
  - rewrite length_vscal, !length_vsubt, !length_make_real_vector, !length_vectorize. dims. congruence.
  - rewrite !length_vsubt. intros i Hi.
    assert (Hi' : (i < length (make_real_vector (vectorize_matrix z)))%nat).
    { revert Hi. rewrite !length_make_real_vector, !length_vectorize. dims. rewrite Hrx, HrY, Hrz, Hcz. auto. }
    rewrite vget_vscal by (rewrite !length_vsubt; exact Hi').
    rewrite !vget_vsubt by (rewrite ?length_vsubt; assumption). ring.
Qed.

Lemma vdot_neg : forall (W : mat K) m (v : list K), shape W m m -> length v = m ->
  vdot (vscal (- (1)) v) (mvmul W (vscal (- (1)) v)) = vdot v (mvmul W v).
Proof.
  intros W m v (_ & Hr & Hc) Hv. rewrite mvmul_vscal by congruence.
  rewrite vdot_vscal_l, vdot_vscal_r by (rewrite length_mvmul; congruence). ring.
Qed.

Lemma wnorm2_nonneg : forall m W (X : mat CK) T n, psd m W -> m = (2 * (n * T))%nat -> shape X T n -> 0 <=! wnorm2 W X.
Proof. intros m W X T n (_ & _ & H) -> HX. apply H. apply length_rv; exact HX. Qed.

(** what the input error solves, in matrix form *)
Lemma input_error_eq : forall spsolve T n (x z Y : mat CK) zw xw m, m = (2 * (n * T))%nat ->
  shape x T n -> shape z T n -> shape Y n n -> shape zw m m -> shape xw m m ->
  let U := underline_y T Y in
  let a := make_real_vector (vectorize_matrix x) in let b := make_real_vector (vectorize_matrix z) in
  input_error spsolve T Y xw zw a b =
  spsolve (madd (mmul (mmul (tr U) zw) U) xw) (vsubt (mvmul (mmul (mmul (tr U) zw) U) a) (mvmul (mmul (tr U) zw) b)).
Proof.
  intros spsolve T n x z Y zw xw m Hm Hx Hz HY (_ & Rz & Cz) (_ & Rx & Cx) U a b.
  pose proof (shape_underline_y T n Y HY) as (_ & HrU & HcU). fold U in HrU, HcU.
  pose proof (length_rv T n x Hx) as La. pose proof (length_rv T n z Hz) as Lb. fold a in La. fold b in Lb.
  unfold input_error. fold U.
  rewrite matmul_ok by (dims; congruence). cbn [bind]. rewrite matmul_ok by (dims; congruence). cbn [bind].
  rewrite sp_add_ok by (dims; congruence). cbn [bind]. rewrite matvec_ok by (dims; congruence). cbn [bind].
  rewrite matvec_ok by (dims; congruence). cbn [bind].
  rewrite np_vsub_ok by (rewrite !length_mvmul; reflexivity). reflexivity.
Qed.

Theorem p_input_error : forall spsolve T n (x z Y : mat CK) zw xw m da, m = (2 * (n * T))%nat ->
  solver_sound spsolve -> shape x T n -> shape z T n -> shape Y n n -> psd m zw -> psd m xw ->
  input_error spsolve T Y xw zw (make_real_vector (vectorize_matrix x)) (make_real_vector (vectorize_matrix z)) = Ok da ->
  exists D, shape D T n /\ da = make_real_vector (vectorize_matrix D) /\
    forall D', shape D' T n -> input_objective zw xw x z (tr Y) D <=! input_objective zw xw x z (tr Y) D'.
Proof.
  intros spsolve T n x z Y zw xw m da Hm Hsound Hx Hz HY Hzw Hxw H.
  pose proof Hzw as (HsZ & HtZ & HpZ). pose proof Hxw as (HsX & HtX & HpX).
  rewrite (input_error_eq spsolve T n x z Y zw xw m) in H by assumption.
  pose proof (shape_underline_y T n Y HY) as HU. rewrite <- Hm in HU. set (U := underline_y T Y) in *.
  pose proof HU as (_ & HrU & HcU). pose proof HsZ as (_ & RZ & CZ). pose proof HsX as (_ & RX & CX).
  pose proof (length_rv T n x Hx) as La. pose proof (length_rv T n z Hz) as Lb. rewrite <- Hm in La, Lb.
  set (a := make_real_vector (vectorize_matrix x)) in *. set (b := make_real_vector (vectorize_matrix z)) in *.
  destruct ((fun q1 q2 => Hsound _ m _ _ q1 q2 H)) as (Hl & HN);
    [split; [apply wf_mk|dims; split; congruence]|rewrite length_vsubt, length_mvmul; dims; congruence|].
  rewrite Hm in Hl. destruct (real_matrix_form T n da Hl) as (D & HD & ED & _). rewrite <- Hm in Hl.
  exists D. split; [exact HD|]. split; [exact ED|]. intros D' HD'.
  pose proof (length_rv T n D' HD') as Ld'. rewrite <- Hm in Ld'.
  set (d' := make_real_vector (vectorize_matrix D')) in *.
  assert (Hobj : forall E, shape E T n -> let e := make_real_vector (vectorize_matrix E) in
     input_objective zw xw x z (tr Y) E = wls U zw xw (vsubt (mvmul U a) b) (vzeros m) 1 e).
  { intros E HE e. unfold wls, input_objective, wnorm2.
    pose proof (input_misfit T n x z Y E Hx Hz HY HE) as Em. fold U a b e in Em. rewrite Em.
    assert (HsM : shape (msubt z (mmul (msubt x E) (tr Y))) T n)
      by (destruct Hz as (_ & R & C); rewrite <- R, <- C; apply shape_mk).
    rewrite (vdot_neg zw m) by (try assumption; rewrite (length_rv T n _ HsM); symmetry; exact Hm).
    assert (E0 : vdot (vzeros m) e = 0) by (apply sumn_zero; intros; rewrite vget_vzeros; ring).
    rewrite E0. fold e. ring. }
  rewrite (Hobj D HD), (Hobj D' HD'). rewrite <- ED. fold d'.
  apply (wls_min U zw xw _ _ 1 da d' m m); try assumption.
  - apply kle_01.
  - rewrite length_vsubt, length_mvmul. exact HrU.
  - apply length_vzeros.
  - (* normal equations *)
    rewrite (mvmul_vsubt zw) by (rewrite ?length_mvmul; congruence).
    rewrite (mvmul_vsubt (tr U)) by (rewrite ?length_mvmul; dims; congruence).
    rewrite mvmul_madd in HN by (dims; congruence).
    rewrite !(mvmul_assoc (mmul (tr U) zw)) in HN by (dims; congruence). rewrite !(mvmul_assoc (tr U)) in HN by (dims; congruence).
    assert (V1 : forall v : list K, vscal 1 v = v).
    { intros v. apply vec_ext; [apply length_vscal|]. rewrite length_vscal. intros i Hi. rewrite vget_vscal by exact Hi. ring. }
    rewrite !V1, HN.
    apply vec_ext; [rewrite length_vadd; reflexivity|]. rewrite length_vsubt. intros i Hi.
    rewrite vget_vadd by (rewrite length_vsubt; exact Hi). rewrite vget_vzeros. ring.
Qed.

(** *** The weighted iteration *)


Definition eiv_update (lam : K) (p : sprior K) (DT : mat K) (T n P : nat) (zw xw : mat K) (x z : mat CK)
    (w u : list K) (s s' : lstate K) (t : K) : Prop :=
  rebuild DT n u = Ok (fst (fst s')) /\
  exists D, shape D T n /\
    t = eiv_target lam p zw xw x z D u (fst (fst s')) /\
    (forall D', shape D' T n -> input_objective zw xw x z (tr (fst (fst s))) D <=! input_objective zw xw x z (tr (fst (fst s))) D') /\
    forall v Yv, length v = (2 * P)%nat -> rebuild DT n v = Ok Yv ->
      eiv_objective lam p zw (msubt x D) z w u (fst (fst s')) <=! eiv_objective lam p zw (msubt x D) z w v Yv.

Section Run.
Variables (spsolve : mat K -> list K -> res (list K)) (e : estimator K) (p : sprior K) (DT : mat K) (x z : mat CK)
  (zw xw : mat K) (T n P m : nat).
Hypothesis Hm : m = (2 * (n * T))%nat.
Hypothesis Hsound : solver_sound spsolve.
Hypothesis Hprior : (forall v, e_prior e v = log_distribution p v).
Hypothesis Hp : well_formed p (2 * P).
Hypothesis Ha : 0 <! alpha p.
Hypothesis Hlam : 0 <=! e_lambda e.
Hypothesis Hx : shape x T n.
Hypothesis Hz : shape z T n.
Hypothesis HDT : shape DT (n * n) P.
Hypothesis Hzw : psd m zw.
Hypothesis Hxw : psd m xw.

Let b := make_real_vector (vectorize_matrix z).
Let a := make_real_vector (vectorize_matrix x).

Lemma eiv_optimal : forall xc w s u Y v Yv, shape xc T n -> tracks p (2 * P) w s -> length u = (2 * P)%nat -> length v = (2 * P)%nat ->
  rebuild DT n u = Ok Y -> rebuild DT n v = Ok Yv ->
  (let A := regressor n xc DT in
   vadd (mvmul (tr A) (mvmul zw (mvmul A u))) (vscal (e_lambda e) (mvmul (snd (fst s)) u)) =
   vadd (mvmul (tr A) (mvmul zw b)) (vscal (e_lambda e) (snd s))) ->
  eiv_objective (e_lambda e) p zw xc z w u Y <=! eiv_objective (e_lambda e) p zw xc z w v Yv.
Proof.
  intros xc w s u Y v Yv Hxc Ht Hu Hv HY HYv HN. cbv zeta in HN.
  destruct (tracks_inv p T n P Hp Ha w s Ht) as (HM & Hlm & (c & Hc)).
  pose proof (shape_regressor n T xc DT P Hxc HDT) as HA. rewrite <- Hm in HA. set (A := regressor n xc DT) in *.
  pose proof HA as (_ & HrA & HcA). pose proof (length_rv T n z Hz) as Hb. rewrite <- Hm in Hb. fold b in Hb.
  destruct (real_misfit_fro n T xc z DT P u Y Hxc Hz HDT Hu HY) as (Eu & _).
  destruct (real_misfit_fro n T xc z DT P v Yv Hxc Hz HDT Hv HYv) as (Ev & _).
  unfold eiv_objective, wnorm2. cbv zeta. rewrite !Hc by assumption. rewrite <- Eu, <- Ev. fold A b.
  pose proof (wls_min A zw (snd (fst s)) b (snd s) (e_lambda e) u v m (2 * P) HA Hzw HM Hlam Hb Hlm Hu Hv HN) as H.
  unfold wls in H. apply (proj2 (kle_sub _ _)). apply (proj1 (kle_sub _ _)) in H.
  match type of H with 0 <=! ?q => match goal with |- 0 <=! ?r => replace r with q by ring end end. exact H.
Qed.

Lemma eivw_step_follow : forall w s s' t, tracks p (2 * P) w s /\ shape (fst (fst s)) n n ->
  eiv_step_weighted spsolve e DT (regressor n x DT) xw zw a b T n s = Ok (s', t) ->
  exists u, (tracks p (2 * P) u s' /\ shape (fst (fst s')) n n) /\ eiv_update (e_lambda e) p DT T n P zw xw x z w u s s' t.
Proof.
  intros w ((Y & M) & mu) s' t (Ht & HY) H. cbn [fst] in HY. unfold eiv_step_weighted in H.
  apply bind_ok in H. destruct H as (da & Hda & H).
  destruct (p_input_error spsolve T n x z Y zw xw m da Hm Hsound Hx Hz HY Hzw Hxw Hda) as (D & HD & ED & Hmin).
  pose proof (length_rv T n D HD) as Ld. rewrite <- ED in Ld.
  assert (Ecv : make_complex_vector da = Ok (vectorize_matrix D)) by (rewrite ED; apply make_complex_real).
  rewrite Ecv in H. cbn [bind] in H.
  assert (EU : unvectorize_matrix (vectorize_matrix D) T n = Ok D)
    by (pose proof (unvectorize_vectorize D (proj1 HD)) as E; destruct HD as (_ & R & C); rewrite R, C in E; exact E).
  rewrite EU in H. cbn [bind] in H.
  pose proof HDT as (HwD & HrD & HcD). pose proof HD as (_ & HrDD & HcDD). pose proof Hx as (_ & Hrx & Hcx).
  rewrite matmul_ok in H by (cbn [nr nc mkron mk meye cmat mmap]; congruence). cbn [bind] in H.
  change (make_real_matrix (mmul (mkron (meye n) D) (cmat DT))) with (regressor n D DT) in H.
  pose proof (shape_regressor n T x DT P Hx HDT) as (_ & R1 & C1). pose proof (shape_regressor n T D DT P HD HDT) as (_ & R2 & C2).
  rewrite R1, R2, C1, C2, !Nat.eqb_refl in H. cbn [andb bind] in H.
  rewrite (regressor_sub n T x D DT P Hx HD HDT) in H.
  assert (Hxc : shape (msubt x D) T n) by (rewrite <- Hrx, <- Hcx; apply shape_mk).
  pose proof (shape_regressor n T _ DT P Hxc HDT) as HA. rewrite <- Hm in HA. set (A := regressor n (msubt x D) DT) in *.
  pose proof HA as (_ & HrA & HcA). pose proof Hzw as (HsZ & HtZ & HpZ). pose proof HsZ as (_ & RZ & CZ).
  pose proof Hxw as (HsX & HtX & HpX). pose proof HsX as (_ & RX & CX).
  pose proof (length_rv T n z Hz) as Hb. rewrite <- Hm in Hb. fold b in Hb.
  destruct (tracks_inv p T n P Hp Ha w _ Ht) as ((HsM & HtM & HpM) & Hlm & _). cbn [fst snd] in HsM, Hlm. pose proof HsM as (_ & RM & CM).
  rewrite matmul_ok in H by (dims; congruence). cbn [bind] in H.
  rewrite matmul_ok in H by (dims; congruence). cbn [bind] in H.
  rewrite sp_add_ok in H by (dims; congruence). cbn [bind] in H.
  rewrite matvec_ok in H by (dims; congruence). cbn [bind] in H.
  rewrite np_vadd_ok in H by (rewrite length_mvmul, length_vscal; dims; congruence). cbn [bind] in H.
  apply bind_ok in H. destruct H as (((u & s1) & pen) & Hs & H).
  apply solve_y_inv in Hs. destruct Hs as (Hsol & HYu & Hpr). rewrite Hprior in Hpr.
  destruct ((fun q1 q2 => Hsound _ (2 * P)%nat _ _ q1 q2 Hsol)) as (Hu & HN);
    [split; [apply wf_mk|dims; split; congruence]|rewrite length_vadd, length_mvmul; dims; congruence|].
  rewrite matvec_ok in H by congruence. cbn [bind] in H.
  rewrite np_vsub_ok in H by (rewrite length_mvmul; congruence). cbn [bind] in H.
  rewrite matvec_ok in H by (rewrite length_vsubt; congruence). cbn [bind] in H.
  rewrite matvec_ok in H by congruence. cbn [bind] in H. inversion H; subst s1 t. clear H.
  exists u. split; [split; [split; [exact Hu|eauto]|]|].
  { destruct (rebuild_even DT n P u _ HDT Hu HYu) as (? & _ & _ & HsY & _). exact HsY. }
  split; [exact HYu|]. exists D. split; [exact HD|]. split; [|split; [exact Hmin|]].
  - destruct (real_misfit_fro n T _ z DT P u _ Hxc Hz HDT Hu HYu) as (Eu & _). fold A b in Eu. rewrite Eu, ED.
    destruct (p_log_value p (2 * P) u Hp Hu ltac:(lia)) as (M' & mu' & Hl & _). rewrite Hpr in Hl. inversion Hl.
    rewrite kabs_pos_id; [reflexivity|]. apply kle_0_add; [apply kle_0_add|].
    + apply HpZ. rewrite <- Eu, length_vsubt. exact Hb.
    + apply HpX. rewrite <- ED, Hm. exact Ld.
    + apply kle_mul; [exact Hlam|apply wt_sum_nonneg; exact Ha].
  - intros v Yv Hv HYv. apply (eiv_optimal (msubt x D) w ((Y, M), mu) u _ v Yv); try assumption. cbv zeta. fold A. cbn [fst snd].
    rewrite mvmul_madd in HN by (dims; congruence). rewrite mvmul_mscal in HN.
    rewrite !(mvmul_assoc (mmul (tr A) zw)) in HN by (dims; congruence). rewrite !(mvmul_assoc (tr A)) in HN by (dims; congruence).
    exact HN.
Qed.
End Run.


(** initialisation, spelled out *)
Lemma fit_init_inv : forall (e : estimator K) (x y0 : mat CK) n DT El r, nc x = n -> e_dt e n = Ok DT -> e_el e n = Ok El ->
  fit_init e x y0 = Ok r ->
  exists M mu pen, r = (DT, regressor n x DT, M, mu) /\
    e_prior e (make_real_vector (mvmul (cmat El) (vectorize_matrix y0))) = Ok (M, mu, pen).
Proof.
  intros e x y0 n DT El r Hcx Hdt Hel Ei. unfold fit_init in Ei. rewrite Hcx, Hdt, Hel in Ei. cbn [bind] in Ei.
  apply bind_ok in Ei. destruct Ei as (kd & Hkd & Ei).
  apply bind_ok in Ei. destruct Ei as (vy & Hvy & Ei).
  apply bind_ok in Ei. destruct Ei as (((M & mu) & pen) & Hpr & Ei).
  unfold matmul in Hkd. destruct (Nat.eqb (nc (mkron (meye n) x)) (nr (cmat DT))); inversion Hkd; subst kd.
  unfold matvec in Hvy. destruct (Nat.eqb (nc (cmat El)) (length (vectorize_matrix y0))); inversion Hvy; subst vy.
  exists M, mu, pen. split; [inversion Ei; reflexivity|exact Hpr].
Qed.

Theorem p_eiv_fit : forall spsolve cabs e p (x z y0 : mat CK) W zarg T n P m DT El e' ex,
  m = (2 * (n * T))%nat ->
  solver_sound spsolve -> (forall v, e_prior e v = log_distribution p v) -> well_formed p (2 * P) -> 0 <! alpha p -> 0 <=! e_lambda e ->
  shape x T n -> shape z T n -> shape y0 n n -> e_dt e n = Ok DT -> e_el e n = Ok El -> shape DT (n * n) P -> psd m W ->
  eiv_fit spsolve cabs e x z (Some W) (Some zarg) y0 = (e', ex) ->
  exists new ws, e_iters e' = e_iters e ++ new /\ length ws = S (length new) /\
    nth 0 ws [] = make_real_vector (mvmul (cmat El) (vectorize_matrix y0)) /\
    forall k d, (k < length new)%nat ->
      rebuild DT n (nth (S k) ws []) = Ok (st_y (nth k new d)) /\ length (nth (S k) ws []) = (2 * P)%nat /\
      exists D, shape D T n /\
        st_target (nth k new d) = eiv_target (e_lambda e) p W W x z D (nth (S k) ws []) (st_y (nth k new d)) /\
        (forall D', shape D' T n -> input_objective W W x z (tr (prev_y y0 new k)) D <=! input_objective W W x z (tr (prev_y y0 new k)) D') /\
        forall v Yv, length v = (2 * P)%nat -> rebuild DT n v = Ok Yv ->
          eiv_objective (e_lambda e) p W (msubt x D) z (nth k ws []) (nth (S k) ws []) (st_y (nth k new d)) <=!
          eiv_objective (e_lambda e) p W (msubt x D) z (nth k ws []) v Yv.
Proof.
  intros spsolve cabs e p x z y0 W zarg T n P m DT El e' ex Hm Hsound Hprior Hp Ha Hlam Hx Hz Hy0 Hdt Hel HDT HW H. unfold eiv_fit in H.
  pose proof Hx as (_ & Hrx & Hcx).
  destruct (fit_init e x y0) as [r|err] eqn:Ei.
  - destruct (fit_init_inv e x y0 n DT El r Hcx Hdt Hel Ei) as (M & mu & pen & -> & Hpr). rewrite Hprior in Hpr. cbn [eiv_z_weight] in H.
    rewrite Hcx, Hrx in H.
    match type of H with finish_fit _ (fit_loop ?a ?b ?st ?f ?i ?it ?s) = _ =>
      destruct (fit_loop a b st f i it s) as (iters' & r) eqn:El' end.
    destruct (fit_loop_spec _ _ _ _ _ _ _ _ _ (Nat.le_0_l _) El') as (ss & ts & Hch & H0 & Hle & Hit & _ & _).
    destruct (finish_inv _ _ _ _ H) as (H1 & _ & _). simpl in H1.
    set (w0 := make_real_vector (mvmul (cmat El) (vectorize_matrix y0))) in *.
    destruct (chain_follow _ [] _ (fun w s => tracks p (2 * P) w s /\ shape (fst (fst s)) n n)
       (eiv_update (e_lambda e) p DT T n P W W x z) ts ss w0 Hch) as (ws & Hlw & Hw0 & HR & HQ).
    { rewrite H0. split; [|exact Hy0]. split; [|simpl; eauto]. apply (log_length p _ _ _ Hp Hpr). }
    { intros w s s' t. apply (eivw_step_follow spsolve e p DT x z W W T n P m); assumption. }
    exists (recs 0 ss ts), ws. split; [rewrite H1; exact Hit|]. rewrite length_recs. split; [exact Hlw|]. split; [exact Hw0|].
    intros k d Hk. rewrite nth_recs by exact Hk. simpl. destruct (HQ k Hk) as (Q1 & D & HD & Q2 & Q3 & Q4).
    destruct (HR (S k) ltac:(lia)) as ((Hlen & _) & _). split; [exact Q1|]. split; [exact Hlen|].
    exists D. split; [exact HD|]. split; [exact Q2|]. split; [|exact Q4].
    assert (Ep : prev_y y0 (recs 0 ss ts) k = fst (fst (nth k ss dstate))).
    { destruct k as [|k]; [rewrite H0; reflexivity|]. unfold prev_y. rewrite nth_recs by lia. reflexivity. }
    rewrite Ep. exact Q3.
  - inversion H; subst. exists [], [make_real_vector (mvmul (cmat El) (vectorize_matrix y0))]. rewrite app_nil_r.
    split; [reflexivity|]. split; [reflexivity|]. split; [reflexivity|]. intros k d Hk. simpl in Hk. lia.
Qed.
End EIV.
