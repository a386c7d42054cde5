(** The factor of the penalties and the weights of the measurements. *)
From Coq Require Import Bool Arith List ZArith Lia Ring Field Permutation.
From Verif Require Import BasePy BaseFld BaseOrd BaseSum BaseMat BaseNumpy BaseLin ModelMatrixOps SpecMatrix ModelPrior ModelFit ModelLS ModelIdent ModelRun
  SpecPrior SpecLS SpecFit SpecIdent SpecBayes SpecOrder SpecTLS SpecRenumber SpecFactor ProofRagged ProofMatrixOps ProofStruct ProofElim ProofMatrixProps ProofPrior ProofLS ProofFitBase ProofFit ProofFitOpt ProofFitBR ProofFitRep
  ProofIdent ProofPenalty ProofIdentMain ProofIdentThm ProofFrozen ProofBayes ProofBayesRun ProofRunIO ProofOffset ProofRenumber ProofRenumber2 ProofEquiv ProofEquiv2 ProofEquiv3 ProofEquiv4 ProofEquiv5 ProofEquiv6 ProofRoutines.
Import ListNotations.
Local Open Scope K_scope.

Section Factor.
Context {K : Type} {O : Ops K} {F : Fld K} {O2 : OrdOps K} {OF : OrdFld K}.
Notation CK := (cplx K).
Add Field KfldFa : (@k_field K O F).

Section Scale.
Variable c : K.
Hypothesis Hc0 : 0 <! c.
Let Cn : c <> 0 := klt_neq c Hc0.

Lemma le_scale : forall x y, (c * x <=! c * y) <-> (x <=! y).
Proof.
  intros x y. split; intro H; [|apply kle_mul_l; [apply klt_le; exact Hc0|exact H]].
  apply (kle_mul_l (1 / c)) in H; [|apply kle_inv; exact Hc0]. replace (1 / c * (c * x)) with x in H by (field; exact Cn). replace (1 / c * (c * y)) with y in H by (field; exact Cn). exact H.
Qed.
Lemma leb_scale : forall x y, kleb (c * x) (c * y) = kleb x y.
Proof. intros x y. pose proof (le_scale x y) as H. unfold kle in H. destruct (kleb (c * x) (c * y)), (kleb x y); try reflexivity; destruct H as [H1 H2]; [symmetry; apply H1; reflexivity|apply H2; reflexivity]. Qed.
Lemma stationary_scale : forall at_ rt f g, is_stationary_point (c * at_) rt (c * f) (c * g) = is_stationary_point at_ rt f g.
Proof.
  intros at_ rt f g. unfold is_stationary_point, kltb. rewrite leb_scale. replace (c * f - c * g) with (c * (f - g)) by ring. rewrite !kabs_mul. rewrite (kabs_pos_id c (klt_le _ _ Hc0)). rewrite leb_scale.
  destruct (keqb g 0) eqn:E.
  - apply keqb_eq in E. subst g. replace (c * 0) with (0 : K) by ring. rewrite (proj2 (keqb_eq 0 0) eq_refl). reflexivity.
  - assert (G : g <> 0) by (intro G; apply keqb_eq in G; congruence). assert (E' : keqb (c * g) 0 = false).
    { destruct (keqb (c * g) 0) eqn:E'; [|reflexivity]. exfalso. apply keqb_eq in E'. apply G. replace g with (1 / c * (c * g)) by (field; exact Cn). rewrite E'. ring. }
    rewrite E'. assert (A : kabs g <> 0) by (intro A; apply G; apply kabs_zero; exact A). replace (c * kabs (f - g) / (c * kabs g)) with (kabs (f - g) / kabs g) by (field; split; assumption). reflexivity.
Qed.

Lemma loop_scale : forall (RS : lstate K -> lstate K -> Prop) at_ rt (step step' : lstate K -> res (lstate K * K)),
  (forall s s', RS s s' -> fst (fst s') = fst (fst s)) ->
  (forall s s', RS s s' -> exists s1 s1' t, step s = Ok (s1, t) /\ step' s' = Ok (s1', c * t) /\ RS s1 s1') ->
  forall fuel it iters iters' s s', RS s s' -> Forall2 (record_scaled c) iters iters' ->
  exists l l' f f', fit_loop at_ rt step fuel it iters s = (l, Ok f) /\ fit_loop (c * at_) rt step' fuel it iters' s' = (l', Ok f') /\ Forall2 (record_scaled c) l l' /\ RS f f'.
Proof.
  intros RS at_ rt step step' HR HS. induction fuel as [|fuel IH]; intros it iters iters' s s' H HI.
  - exists iters, iters', s, s'. auto.
  - destruct (HS s s' H) as (s1 & s1' & t & E & E' & H1). cbn [fit_loop]. rewrite E, E'. cbv zeta.
    assert (HI2 : Forall2 (record_scaled c) (iters ++ [St it (fst (fst s1)) t]) (iters' ++ [St it (fst (fst s1')) (c * t)])).
    { apply Forall2_app; [exact HI|]. constructor; [|constructor]. split; [reflexivity|]. split; [cbn [st_y]; apply HR; exact H1|reflexivity]. }
    assert (NE : forall k, match nth_error (iters ++ [St it (fst (fst s1)) t]) k, nth_error (iters' ++ [St it (fst (fst s1')) (c * t)]) k with
      | Some a, Some b => st_target b = c * st_target a | None, None => True | _, _ => False end).
    { revert HI2. generalize (iters ++ [St it (fst (fst s1)) t]) (iters' ++ [St it (fst (fst s1')) (c * t)]). clear. intros l0 l0' HI2. induction HI2 as [|a b l l' (_ & _ & Q) HL IHL]; intros [|k]; cbn [nth_error]; auto; try exact (IHL k). }
    specialize (NE (it - 1)%nat).
    destruct (nth_error (iters ++ [St it (fst (fst s1)) t]) (it - 1)) as [a|]; destruct (nth_error (iters' ++ [St it (fst (fst s1')) (c * t)]) (it - 1)) as [b|]; try contradiction.
    + rewrite NE, stationary_scale. destruct (if (0 <? it)%nat then _ else _); [eexists _, _, _, _; eauto|apply IH; assumption].
    + destruct (if (0 <? it)%nat then _ else _); [eexists _, _, _, _; eauto|apply IH; assumption].
Qed.

Lemma scaled_is : forall W W' : mat K, weights_scaled c W W' -> W' = mscal c W.
Proof. intros W W' (H & H' & R & C & E). apply (gshape_ext _ _ (nr W) (nc W)); [split; [exact H'|split; assumption]|apply shape_mk|]. intros i j Hi Hj. unfold mscal. rewrite get_mk by assumption. apply E; assumption. Qed.
Lemma wnorm2_scale : forall (W : mat K) (X : mat CK), length (make_real_vector (vectorize_matrix X)) = nr W -> wnorm2 (mscal c W) X = c * wnorm2 W X.
Proof. intros W X L. unfold wnorm2. cbv zeta. rewrite mvmul_mscal. apply vdot_vscal_r. rewrite length_mvmul. exact L. Qed.
Lemma posdef_scale : forall N (W : mat K), posdef N W -> posdef N (mscal c W).
Proof.
  intros N W (((WW & R & C) & TW & PP) & PD). split; [split; [|split]|].
  - unfold mscal. rewrite R, C. apply shape_mk.
  - assert (SM : shape (mscal c W) N N) by (unfold mscal; rewrite R, C; apply shape_mk). pose proof SM as (_ & RM & CM). apply (gshape_ext _ _ N N); [unfold tr, mtr; rewrite RM, CM; apply shape_mk|exact SM|]. intros i j Hi Hj.
    assert (E : get (tr W) i j = get W i j) by (rewrite TW; reflexivity). rewrite get_tr in E by congruence. rewrite get_tr by congruence. unfold mscal. rewrite !get_mk by congruence. rewrite E. reflexivity.
  - intros v Lv. rewrite mvmul_mscal, vdot_vscal_r by (rewrite length_mvmul; congruence). apply kle_mul; [apply klt_le; exact Hc0|apply PP; exact Lv].
  - intros v Lv E. rewrite mvmul_mscal, vdot_vscal_r in E by (rewrite length_mvmul; congruence). apply PD; [exact Lv|]. replace (vdot v (mvmul W v)) with (1 / c * (c * vdot v (mvmul W v))) by (field; exact Cn). rewrite E. ring.
Qed.

Lemma real_length : forall T n (X : mat CK), shape X T n -> length (make_real_vector (vectorize_matrix X)) = (2 * (n * T))%nat.
Proof. intros T n X (_ & R & C). unfold make_real_vector. rewrite app_length, !map_length, length_vectorize, R, C. lia. Qed.

(** *** the weighted fit with all weights and the factor multiplied *)
Section Fit.
Variables (n m N : nat) (lap : bool) (al lam at_ rt : K) (prior : spprior K).
Variable pf : (K -> K -> K) -> list K -> list K -> K.
Variable q : (K -> K -> K) -> mat CK -> mat CK -> K.
Hypothesis G : rows_are al (psize lap n + psize lap n) m prior pf.
Hypothesis Hm : (1 < m)%nat.
Hypothesis Hal : 0 <! al.
Hypothesis Hlam : 0 <! lam.
Hypothesis Hq : forall g M0 M, even g -> symmetric n M0 -> symmetric n M -> pf g (parameters lap M0) (parameters lap M) = q g M0 M.
Hypothesis Dc : decisive (dense prior) (2 * psize lap n).
Lemma lam_scale : 0 <! c * lam.
Proof. apply klt_spec2. split; [apply kle_mul; apply klt_le; assumption|]. intro E. apply (klt_neq lam Hlam). replace lam with (1 / c * (c * lam)) by (field; exact Cn). rewrite <- E. ring. Qed.

Theorem eivw_scale : forall spsolve spsolve' cabs T (x z Y0 : mat CK) W Z Z', solver_sound spsolve -> solver_complete spsolve -> solver_sound spsolve' -> solver_complete spsolve' ->
  shape x T n -> shape z T n -> posdef (2 * (n * T)) W -> symmetric n Y0 ->
  exists y its its', fit_result (eiv_fit spsolve cabs (object prior lam at_ rt N lap) x z (Some W) (Some Z) Y0) = Ok (y, its) /\
    fit_result (eiv_fit spsolve' cabs (object prior (c * lam) (c * at_) rt N lap) x z (Some (mscal c W)) (Some Z') Y0) = Ok (y, its') /\ Forall2 (record_scaled c) its its'.
Proof.
  intros spsolve spsolve' cabs T x z Y0 W Z Z' Hs Hc Hs' Hc' HX HZ PW SY. assert (PW' := posdef_scale _ W PW).
  destruct (dt_is n lap) as (D & ED & HD). destruct (e_is n lap) as (E & EE & HE).
  destruct (start_at n lap m N al lam at_ rt prior pf G Hm Hal E Y0 HE SY) as (M & mu & pen & EM & A0).
  pose proof HX as (_ & Rx & Cx). pose proof PW as (((_ & RW & CW) & _) & _).
  unfold eiv_fit. rewrite (begin_ok n lap N lam at_ rt D E prior x Y0 M mu pen ED HD EE HE Cx (proj1 SY) EM), (begin_ok n lap N (c * lam) (c * at_) rt D E prior x Y0 M mu pen ED HD EE HE Cx (proj1 SY) EM). rewrite Cx, Rx. cbn [object new_estimator e_abs_tol e_rel_tol e_max e_iters eiv_z_weight].
  destruct (loop_scale (fun s s' => exists M0, at_matrix n lap prior M0 s /\ at_matrix n lap prior M0 s') at_ rt
    (eiv_step_weighted spsolve (object prior lam at_ rt N lap) D (regressor n x D) W W (make_real_vector (vectorize_matrix x)) (make_real_vector (vectorize_matrix z)) T n)
    (eiv_step_weighted spsolve' (object prior (c * lam) (c * at_) rt N lap) D (regressor n x D) (mscal c W) (mscal c W) (make_real_vector (vectorize_matrix x)) (make_real_vector (vectorize_matrix z)) T n)) with (fuel := N) (it := 0%nat) (iters := @nil (status K)) (iters' := @nil (status K)) (s := (Y0, M, mu)) (s' := (Y0, M, mu))
    as (l & l' & f & f' & L1 & L2 & L3 & L4).
  - intros s s' (A & (<- & _) & (-> & _)). reflexivity.
  - intros s s' (A & AA & AB).
    destruct (eivw_round n lap m N al lam at_ rt prior pf q G Hm Hal Hlam Hq Dc spsolve x z W T D s A Hs Hc HX HZ PW HD AA) as (s1 & Q & C & E1 & B1 & SC & BC & B2 & B3 & _).
    destruct (eivw_round n lap m N al (c * lam) (c * at_) rt prior pf q G Hm Hal lam_scale Hq Dc spsolve' x z (mscal c W) T D s' A Hs' Hc' HX HZ PW' HD AB) as (s1' & Q' & C' & E1' & B1' & SC' & BC' & B2' & _ & B4').
    assert (SA : symmetric n A) by apply AA. pose proof (admissible_sym _ _ _ B2) as SQ. pose proof (admissible_sym _ _ _ B2') as SQ'.
    assert (NW : forall X : mat CK, shape X T n -> wnorm2 (mscal c W) X = c * wnorm2 W X) by (intros X SX; apply wnorm2_scale; rewrite (real_length T n X SX), RW; reflexivity).
    assert (SR : forall (C0 M1 : mat CK), shape (msubt z (mmul (msubt x C0) M1)) T n) by (intros C0 M1; destruct HZ as (_ & <- & <-); apply shape_mk).
    assert (IO : forall C0, shape C0 T n -> input_objective (mscal c W) (mscal c W) x z A C0 = c * input_objective W W x z A C0) by (intros C0 S0; unfold input_objective; rewrite !NW by (assumption || apply SR); ring).
    assert (EC : C' = C).
    { apply (correction_unique W T n x z A C C'); try assumption; [apply SA|]. apply le_scale. rewrite <- !IO by assumption. apply BC'. exact SC. }
    subst C'. assert (VS : forall X, value_w al (c * lam) q (mscal c W) (msubt x C) z A X = c * value_w al lam q W (msubt x C) z A X) by (intros X; unfold value_w; rewrite NW by apply SR; ring).
    assert (EQ : Q = Q') by (apply B4'; [exact B2|]; rewrite !VS; apply le_scale; apply B3; exact B2'). subst Q'.
    exists s1, s1'. eexists. split; [exact E1|]. split; [|exists Q; auto]. rewrite E1'. rewrite !NW by (assumption || apply SR). f_equal. f_equal. ring.
  - exists Y0. auto.
  - constructor.
  - rewrite L1, L2. unfold finish_fit. cbn [snd fst fit_result e_adm e_iters]. exists (fst (fst f)), l, l'. split; [reflexivity|]. split; [|exact L3]. destruct L4 as (A & (-> & _) & (-> & _)). reflexivity.
Qed.
End Fit.
End Scale.

(** *** one round with two factors *)
Lemma trade : forall l1 l2 f1 f2 g1 g2 : K, 0 <=! l1 -> l1 <! l2 -> f1 + l1 * g1 <=! f2 + l1 * g2 -> f2 + l2 * g2 <=! f1 + l2 * g1 -> g2 <=! g1 /\ f1 <=! f2.
Proof.
  intros l1 l2 f1 f2 g1 g2 H1 H2 A B.
  assert (D : 0 <! l2 - l1). { apply klt_spec2. apply klt_spec2 in H2. destruct H2 as [H2 N]. split; [apply kle_sub in H2; exact H2|]. intro E. apply N. replace l2 with (l1 + (l2 - l1)) by ring. rewrite <- E. ring. }
  assert (P : g2 <=! g1).
  { apply (le_scale (l2 - l1) D). apply kle_sub. apply kle_sub in A. apply kle_sub in B. pose proof (kle_0_add _ _ A B) as S.
    replace ((l2 - l1) * g1 - (l2 - l1) * g2) with (f2 + l1 * g2 - (f1 + l1 * g1) + (f1 + l2 * g1 - (f2 + l2 * g2))) by ring. exact S. }
  split; [exact P|]. apply kle_sub. apply kle_sub in A. apply kle_sub in P. pose proof (kle_0_add _ _ A (kle_mul _ _ H1 P)) as S.
  replace (f2 - f1) with (f2 + l1 * g2 - (f1 + l1 * g1) + l1 * (g1 - g2)) by ring. exact S.
Qed.
Lemma one_round : forall at_ rt (step : lstate K -> res (lstate K * K)) s s1 t, step s = Ok (s1, t) -> fit_loop at_ rt step 1 0 [] s = ([St 0 (fst (fst s1)) t], Ok s1).
Proof. intros at_ rt step s s1 t H. cbn [fit_loop]. rewrite H. reflexivity. Qed.

Section Two.
Variables (n m : nat) (lap : bool) (al at_ rt : K) (prior : spprior K).
Variable pf : (K -> K -> K) -> list K -> list K -> K.
Variable q : (K -> K -> K) -> mat CK -> mat CK -> K.
Hypothesis G : rows_are al (psize lap n + psize lap n) m prior pf.
Hypothesis Hm : (1 < m)%nat.
Hypothesis Hal : 0 <! al.
Hypothesis Hq : forall g M0 M, even g -> symmetric n M0 -> symmetric n M -> pf g (parameters lap M0) (parameters lap M) = q g M0 M.

(** what one round returns: the best admissible matrix *)
Lemma br_one : forall lam spsolve T (x z Y0 : mat CK), 0 <=! lam -> solver_sound spsolve -> solver_complete spsolve -> shape x T n -> shape z T n -> inj x -> symmetric n Y0 ->
  exists y its, fit_result (br_fit spsolve (object prior lam at_ rt 1 lap) x z Y0) = Ok (y, its) /\ admissible lap n y /\
    forall M2, admissible lap n M2 -> value al lam q x z Y0 y <=! value al lam q x z Y0 M2.
Proof.
  intros lam spsolve T x z Y0 Hlam Hs Hc HX HZ Ix SY.
  destruct (dt_is n lap) as (D & ED & HD). destruct (e_is n lap) as (E & EE & HE). assert (ID := dt_inj lap n D ED).
  destruct (start_at n lap m 1 al lam at_ rt prior pf G Hm Hal E Y0 HE SY) as (M & mu & pen & EM & A0). pose proof HX as (_ & Rx & Cx).
  destruct (br_round n lap m 1 al lam at_ rt prior pf q G Hm Hal Hlam Hq spsolve x z T D (Y0, M, mu) Y0 Hs Hc HX HZ Ix HD ID A0) as (s1 & Q & E1 & (B1 & _) & B2 & B3 & _).
  unfold br_fit. rewrite (begin_ok n lap 1 lam at_ rt D E prior x Y0 M mu pen ED HD EE HE Cx (proj1 SY) EM). rewrite Cx. cbn [object new_estimator e_abs_tol e_rel_tol e_max e_iters].
  rewrite (one_round _ _ _ _ _ _ E1). unfold finish_fit. cbn [snd fst fit_result e_adm e_iters]. rewrite B1. eexists _, _. split; [reflexivity|]. auto.
Qed.
Lemma eivw_one : forall lam spsolve cabs T (x z Y0 : mat CK) W Z, decisive (dense prior) (2 * psize lap n) -> 0 <! lam -> solver_sound spsolve -> solver_complete spsolve ->
  shape x T n -> shape z T n -> posdef (2 * (n * T)) W -> symmetric n Y0 ->
  exists y its C, fit_result (eiv_fit spsolve cabs (object prior lam at_ rt 1 lap) x z (Some W) (Some Z) Y0) = Ok (y, its) /\ admissible lap n y /\
    shape C T n /\ (forall C', shape C' T n -> input_objective W W x z Y0 C <=! input_objective W W x z Y0 C') /\
    forall M2, admissible lap n M2 -> value_w al lam q W (msubt x C) z Y0 y <=! value_w al lam q W (msubt x C) z Y0 M2.
Proof.
  intros lam spsolve cabs T x z Y0 W Z Dc Hlam Hs Hc HX HZ PW SY.
  destruct (dt_is n lap) as (D & ED & HD). destruct (e_is n lap) as (E & EE & HE).
  destruct (start_at n lap m 1 al lam at_ rt prior pf G Hm Hal E Y0 HE SY) as (M & mu & pen & EM & A0). pose proof HX as (_ & Rx & Cx).
  destruct (eivw_round n lap m 1 al lam at_ rt prior pf q G Hm Hal Hlam Hq Dc spsolve x z W T D (Y0, M, mu) Y0 Hs Hc HX HZ PW HD A0) as (s1 & Q & C & E1 & (B1 & _) & SC & BC & B2 & B3 & _).
  unfold eiv_fit. rewrite (begin_ok n lap 1 lam at_ rt D E prior x Y0 M mu pen ED HD EE HE Cx (proj1 SY) EM). rewrite Cx, Rx. cbn [object new_estimator e_abs_tol e_rel_tol e_max e_iters eiv_z_weight].
  rewrite (one_round _ _ _ _ _ _ E1). unfold finish_fit. cbn [snd fst fit_result e_adm e_iters]. rewrite B1. eexists _, _, C. split; [reflexivity|]. auto.
Qed.
End Two.
End Factor.
