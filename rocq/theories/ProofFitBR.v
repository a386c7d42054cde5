(** BayesianRegression: optimality of every iteration. *)
From Coq Require Import Arith ZArith Lia List Bool Ring Field.
From Verif Require Import BasePy BaseFld BaseSum BaseMat BaseNumpy BaseOrd BaseLin ModelMatrixOps SpecMatrix SpecLS
  ModelPrior SpecPrior ProofPrior ProofMatrixOps ProofStruct ProofMatrixProps ProofLS ModelFit SpecFit ProofFitBase ProofFit ProofFitOpt.
Import ListNotations.
Local Open Scope K_scope.

Section Chain.
Context {K : Type} {O : Ops K}.

Lemma chain_follow : forall (W : Type) (dw : W) (step : lstate K -> res (lstate K * K))
  (R : W -> lstate K -> Prop) (Q : W -> W -> lstate K -> lstate K -> K -> Prop) ts ss w0,
  chain step ss ts -> R w0 (nth 0 ss dstate) ->
  (forall w s s' t, R w s -> step s = Ok (s', t) -> exists u, R u s' /\ Q w u s s' t) ->
  exists ws, length ws = S (length ts) /\ nth 0 ws dw = w0 /\
    (forall k, (k < S (length ts))%nat -> R (nth k ws dw) (nth k ss dstate)) /\
    forall k, (k < length ts)%nat -> Q (nth k ws dw) (nth (S k) ws dw) (nth k ss dstate) (nth (S k) ss dstate) (nth k ts 0).
Proof.
  intros W dw step R Q. induction ts as [|t ts IH]; intros ss w0 (Hl & Hc) HR H.
  - exists [w0]. split; [reflexivity|]. split; [reflexivity|]. split.
    + intros k Hk. simpl in Hk. assert (k = 0)%nat by lia. subst k. exact HR.
    + intros k Hk. simpl in Hk. lia.
  - destruct ss as [|s [|s' ss]]; simpl in Hl; try lia.
    pose proof (Hc 0%nat (Nat.lt_0_succ _)) as E0. cbn [nth] in E0. cbn [nth] in HR.
    destruct (H _ _ _ _ HR E0) as (u & HRu & HQ).
    destruct (IH (s' :: ss) u) as (ws & Hlw & Hw0 & HRs & HQs).
    + split; [simpl; lia|]. intros k Hk. exact (Hc (S k) ltac:(simpl; lia)).
    + exact HRu.
    + exact H.
    + exists (w0 :: ws). split; [simpl; lia|]. split; [reflexivity|]. split.
      * intros [|k] Hk; [exact HR|]. cbn [nth]. apply HRs. simpl in Hk. lia.
      * intros [|k] Hk.
        -- cbn [nth]. destruct ws as [|u' ws]; [simpl in Hlw; lia|]. cbn [nth] in Hw0. subst u'. exact HQ.
        -- change (nth (S k) (w0 :: ws) dw) with (nth k ws dw). change (nth (S (S k)) (w0 :: ws) dw) with (nth (S k) ws dw).
           apply (HQs k). simpl in Hk. lia.
Qed.
End Chain.

Section BR.
Context {K : Type} {O : Ops K} {F : Fld K} {O2 : OrdOps K} {OF : OrdFld K}.
Notation CK := (cplx K).
Add Field Kfld : (@k_field K O F).



Definition tracks (p : sprior K) (m : nat) (w : list K) (s : lstate K) : Prop :=
  length w = m /\ exists pen, log_distribution p w = Ok (snd (fst s), snd s, pen).

Definition br_update (lam : K) (p : sprior K) (DT : mat K) (n P : nat) (x z : mat CK) (w u : list K) (s s' : lstate K) (t : K) : Prop :=
  rebuild DT n u = Ok (fst (fst s')) /\
  t = br_target lam p x z u (fst (fst s')) /\
  forall v Yv, length v = (2 * P)%nat -> rebuild DT n v = Ok Yv ->
    br_objective lam p x z w u (fst (fst s')) <=! br_objective lam p x z w v Yv.

Lemma wt_sum_nonneg : forall p u, 0 <! alpha p -> 0 <=! sumn (length (bmu (base p))) (wt p u).
Proof. intros. apply sumn_nonneg. intros. apply klt_le, wt_pos; assumption. Qed.

Lemma rebuild_even : forall (DT : mat K) n P u Y, shape DT (n * n) P -> length u = (2 * P)%nat -> rebuild DT n u = Ok Y ->
  exists v, u = make_real_vector v /\ length v = P /\ shape Y n n /\ vectorize_matrix Y = mvmul (cmat DT) v.
Proof.
  intros DT n P u Y (_ & Hr & Hc) Hu H. destruct (even_real u P Hu) as (v & -> & Hv).
  destruct (rebuild_ok DT n _ Y H) as (HY & v' & Hv' & Hl & HvY & _).
  rewrite make_complex_real in Hv'. inversion Hv'; subst v'. exists v. auto.
Qed.

Lemma real_misfit_fro : forall n T (x z : mat CK) DT P u Y, shape x T n -> shape z T n -> shape DT (n * n) P ->
  length u = (2 * P)%nat -> rebuild DT n u = Ok Y ->
  let db := vsubt (make_real_vector (vectorize_matrix z)) (mvmul (regressor n x DT) u) in
  db = make_real_vector (vectorize_matrix (msubt z (mmul x Y))) /\ vdot db db = fro2 (msubt z (mmul x Y)).
Proof.
  intros n T x z DT P u Y Hx Hz HD Hu HY db.
  destruct (rebuild_even DT n P u Y HD Hu HY) as (v & -> & Hv & HsY & HvY).
  assert (E : db = make_real_vector (vectorize_matrix (msubt z (mmul x Y)))) by (apply (misfit_real n T x z DT P v Y); assumption).
  split; [exact E|]. rewrite E. apply vdot_real_vec.
Qed.

Section Run.
Variables (spsolve : mat K -> list K -> res (list K)) (e : estimator K) (p : sprior K) (DT : mat K) (x z : mat CK) (T n P : nat).
Hypothesis Hsound : solver_sound spsolve.
Hypothesis Hprior : (forall v, e_prior e v = log_distribution p v).
Hypothesis Hp : well_formed p (2 * P).
Hypothesis Ha : 0 <! alpha p.
Hypothesis Hlam : 0 <=! e_lambda e.
Hypothesis Hx : shape x T n.
Hypothesis Hz : shape z T n.
Hypothesis HDT : shape DT (n * n) P.

Let b := make_real_vector (vectorize_matrix z).
Let A := regressor n x DT.
Let m := (2 * (n * T))%nat.

Lemma Hlb : length b = m.
Proof. unfold b, m. rewrite length_make_real_vector, length_vectorize. destruct Hz as (_ & -> & ->). lia. Qed.
Lemma HsA : shape A m (2 * P).
Proof. apply shape_regressor; assumption. Qed.

Lemma tracks_inv : forall w s, tracks p (2 * P) w s -> psd (2 * P) (snd (fst s)) /\ length (snd s) = (2 * P)%nat /\
  exists c, forall u, length u = (2 * P)%nat ->
    frozen_penalty p w u = vdot u (mvmul (snd (fst s)) u) - (vdot (snd s) u + vdot (snd s) u) + c.
Proof.
  intros w ((Y & M) & mu) (Hw & pen & Hl). simpl in *.
  destruct (log_frozen p (2 * P) w Hp Hw ltac:(lia) Ha) as (M' & mu' & Hl' & H). rewrite Hl in Hl'. inversion Hl'; subst. exact H.
Qed.

(** the step as a function of the solver's answer *)
Lemma br_step_eq : forall w s, tracks p (2 * P) w s ->
  br_step spsolve e DT A b n s =
  ('(y, s', penalty) <- solve_y spsolve e DT n (madd (mmul (tr A) A) (mscal (e_lambda e) (snd (fst s))))
       (vadd (mvmul (tr A) b) (vscal (e_lambda e) (snd s))) ;;
   ay <- matvec A y ;; db <- np_vsub b ay ;; Ok (s', kabs (vdot db db + e_lambda e * penalty))).
Proof.
  intros w s Ht. destruct (tracks_inv w s Ht) as ((HsM & _) & Hlm & _). destruct s as ((Y & M) & mu). cbn [fst snd br_step] in *.
  destruct HsM as (_ & HrM & HcM). destruct HsA as (_ & HrA & HcA). pose proof Hlb as Hb.
  rewrite matmul_ok by reflexivity. cbn [bind]. rewrite sp_add_ok by (cbn [nr nc mmul tr mtr mk madd mscal mmap]; congruence). cbn [bind].
  rewrite matvec_ok by (cbn [nr nc mmul tr mtr mk madd mscal mmap]; congruence). cbn [bind].
  rewrite np_vadd_ok by (rewrite length_mvmul, length_vscal; cbn [nr nc mmul tr mtr mk madd mscal mmap]; congruence). reflexivity.
Qed.

Lemma br_system_shape : forall w s, tracks p (2 * P) w s ->
  shape (madd (mmul (tr A) A) (mscal (e_lambda e) (snd (fst s)))) (2 * P) (2 * P) /\
  length (vadd (mvmul (tr A) b) (vscal (e_lambda e) (snd s))) = (2 * P)%nat.
Proof.
  intros w s Ht. destruct HsA as (_ & HrA & HcA). split.
  - split; [apply wf_mk|]. cbn [nr nc mmul tr mtr mk madd mscal mmap]. auto.
  - rewrite length_vadd, length_mvmul. cbn [nr nc mmul tr mtr mk]. exact HcA.
Qed.

(** applying the system matrix *)
Lemma br_system_apply : forall w s u, tracks p (2 * P) w s -> length u = (2 * P)%nat ->
  mvmul (madd (mmul (tr A) A) (mscal (e_lambda e) (snd (fst s)))) u =
  vadd (mvmul (tr A) (mvmul A u)) (vscal (e_lambda e) (mvmul (snd (fst s)) u)).
Proof.
  intros w s u Ht Hu. destruct (tracks_inv w s Ht) as (((_ & HrM & HcM) & _) & _). destruct HsA as (_ & HrA & HcA).
  rewrite mvmul_madd by (cbn [nr nc mmul tr mtr mk madd mscal mmap]; congruence). rewrite mvmul_assoc by reflexivity. rewrite mvmul_mscal. reflexivity.
Qed.

Lemma br_optimal : forall w s u Y v Yv, tracks p (2 * P) w s -> length u = (2 * P)%nat -> length v = (2 * P)%nat ->
  rebuild DT n u = Ok Y -> rebuild DT n v = Ok Yv ->
  vadd (mvmul (tr A) (mvmul A u)) (vscal (e_lambda e) (mvmul (snd (fst s)) u)) = vadd (mvmul (tr A) b) (vscal (e_lambda e) (snd s)) ->
  br_objective (e_lambda e) p x z w u Y <=! br_objective (e_lambda e) p x z w v Yv.
Proof.
  intros w s u Y v Yv Ht Hu Hv HY HYv HN. destruct (tracks_inv w s Ht) as (HM & Hlm & (c & Hc)).
  pose proof HsA as HA. pose proof HA as (_ & HrA & HcA). pose proof Hlb as Hb.
  destruct (real_misfit_fro n T x z DT P u Y Hx Hz HDT Hu HY) as (_ & Eu).
  destruct (real_misfit_fro n T x z DT P v Yv Hx Hz HDT Hv HYv) as (_ & Ev).
  unfold br_objective. rewrite !Hc by assumption. rewrite <- Eu, <- Ev. fold A b.
  assert (EI : forall q, length q = m -> mvmul (meye m) q = q) by (intros q <-; apply mvmul_1).
  pose proof (wls_min A (meye m) (snd (fst s)) b (snd s) (e_lambda e) u v m (2 * P) HA (psd_meye m) HM Hlam Hb Hlm Hu Hv) as H.
  rewrite !EI in H by (rewrite ?length_mvmul; assumption). specialize (H HN).
  unfold wls in H. rewrite !EI in H by (rewrite length_vsubt; assumption).
  apply (proj2 (kle_sub _ _)). apply (proj1 (kle_sub _ _)) in H.
  match type of H with 0 <=! ?a => match goal with |- 0 <=! ?b => replace b with a by ring end end. exact H.
Qed.

Lemma br_step_follow : forall w s s' t, tracks p (2 * P) w s -> br_step spsolve e DT A b n s = Ok (s', t) ->
  exists u, tracks p (2 * P) u s' /\ br_update (e_lambda e) p DT n P x z w u s s' t.
Proof.
  intros w s s' t Ht H. rewrite (br_step_eq w s Ht) in H.
  apply bind_ok in H. destruct H as (((u & s1) & pen) & Hs & H).
  apply solve_y_inv in Hs. destruct Hs as (Hsol & HY & Hpr). rewrite Hprior in Hpr.
  destruct (br_system_shape w s Ht) as (Hsh & Hlen).
  destruct (Hsound _ _ _ _ Hsh Hlen Hsol) as (Hu & HN).
  rewrite (br_system_apply w s u Ht Hu) in HN.
  pose proof HsA as (_ & HrA & HcA). pose proof Hlb as Hb.
  rewrite matvec_ok in H by congruence. cbn [bind] in H.
  rewrite np_vsub_ok in H by (rewrite length_mvmul; congruence). cbn [bind] in H. inversion H; subst s1 t. clear H.
  exists u. split; [split; [exact Hu|eauto]|]. split; [exact HY|]. split.
  - destruct (real_misfit_fro n T x z DT P u _ Hx Hz HDT Hu HY) as (_ & Eu). fold A b in Eu. rewrite Eu.
    destruct (p_log_value p (2 * P) u Hp Hu ltac:(lia)) as (M' & mu' & Hl & _). rewrite Hpr in Hl. inversion Hl.
    rewrite kabs_pos_id; [reflexivity|]. apply kle_0_add; [apply fro2_nonneg|]. apply kle_mul; [exact Hlam|apply wt_sum_nonneg; exact Ha].
  - intros v Yv Hv HYv. apply (br_optimal w s); assumption.
Qed.
End Run.

Theorem p_br_fit : forall spsolve e p (x z y0 : mat CK) T n P DT El e' ex,
  solver_sound spsolve -> (forall v, e_prior e v = log_distribution p v) -> well_formed p (2 * P) -> 0 <! alpha p -> 0 <=! e_lambda e ->
  shape x T n -> shape z T n -> e_dt e n = Ok DT -> e_el e n = Ok El -> shape DT (n * n) P ->
  br_fit spsolve e x z y0 = (e', ex) ->
  exists new ws, e_iters e' = e_iters e ++ new /\ length ws = S (length new) /\
    nth 0 ws [] = make_real_vector (mvmul (cmat El) (vectorize_matrix y0)) /\
    forall k d, (k < length new)%nat ->
      rebuild DT n (nth (S k) ws []) = Ok (st_y (nth k new d)) /\ length (nth (S k) ws []) = (2 * P)%nat /\
      st_target (nth k new d) = br_target (e_lambda e) p x z (nth (S k) ws []) (st_y (nth k new d)) /\
      forall v Yv, length v = (2 * P)%nat -> rebuild DT n v = Ok Yv ->
        br_objective (e_lambda e) p x z (nth k ws []) (nth (S k) ws []) (st_y (nth k new d)) <=!
        br_objective (e_lambda e) p x z (nth k ws []) v Yv.
Proof.
  intros spsolve e p x z y0 T n P DT El e' ex Hsound Hprior Hp Ha Hlam Hx Hz Hdt Hel HDT H. unfold br_fit in H.
  pose proof Hx as (_ & Hrx & Hcx).
  destruct (fit_init e x y0) as [(((DT' & A) & M) & mu)|err] eqn:Ei.
  - unfold fit_init in Ei. rewrite Hcx, Hdt, Hel in Ei. cbn [bind] in Ei.
    apply bind_ok in Ei. destruct Ei as (kd & Hkd & Ei).
    apply bind_ok in Ei. destruct Ei as (vy & Hvy & Ei).
    apply bind_ok in Ei. destruct Ei as (((M0 & mu0) & pen) & Hpr & Ei). rewrite Hprior in Hpr.
    inversion Ei; subst M0 mu0 DT' A. clear Ei.
    unfold matmul in Hkd. destruct (Nat.eqb (nc (mkron (meye n) x)) (nr (cmat DT))); inversion Hkd; subst kd.
    unfold matvec in Hvy. destruct (Nat.eqb (nc (cmat El)) (length (vectorize_matrix y0))); inversion Hvy; subst vy.
    change (make_real_matrix (mmul (mkron (meye n) x) (cmat DT))) with (regressor n x DT) in H. rewrite Hcx in H.
    destruct (fit_loop (e_abs_tol e) (e_rel_tol e) (br_step spsolve e DT (regressor n x DT) (make_real_vector (vectorize_matrix z)) n)
      (e_max e) 0 (e_iters e) (y0, M, mu)) as (iters' & r) eqn:El'.
    destruct (fit_loop_spec _ _ _ _ _ _ _ _ _ (Nat.le_0_l _) El') as (ss & ts & Hch & H0 & Hle & Hit & _ & _).
    destruct (finish_inv _ _ _ _ H) as (H1 & _ & _). simpl in H1.
    set (w0 := make_real_vector (mvmul (cmat El) (vectorize_matrix y0))) in *.
    destruct (chain_follow _ [] _ (tracks p (2 * P)) (br_update (e_lambda e) p DT n P x z) ts ss w0 Hch) as (ws & Hlw & Hw0 & HR & HQ).
    { rewrite H0. split; [|simpl; eauto]. apply (log_length p _ _ _ Hp Hpr). }
    { intros w s s' t. apply (br_step_follow spsolve e p DT x z T n P); assumption. }
    exists (recs 0 ss ts), ws. split; [rewrite H1; exact Hit|]. rewrite length_recs. split; [exact Hlw|]. split; [exact Hw0|].
    intros k d Hk. rewrite nth_recs by exact Hk. simpl. destruct (HQ k Hk) as (Q1 & Q2 & Q3).
    destruct (HR (S k) ltac:(lia)) as (Hlen & _). split; [exact Q1|]. split; [exact Hlen|]. split; [exact Q2|exact Q3].
  - inversion H; subst. exists [], [make_real_vector (mvmul (cmat El) (vectorize_matrix y0))]. rewrite app_nil_r.
    split; [reflexivity|]. split; [reflexivity|]. split; [reflexivity|]. intros k d Hk. simpl in Hk. lia.
Qed.

(** *** Noise-free data *)

Definition identifiable_r (x : mat CK) (DT : mat K) (n P : nat) : Prop :=
  forall u v Yu Yv, length u = (2 * P)%nat -> length v = (2 * P)%nat -> rebuild DT n u = Ok Yu -> rebuild DT n v = Ok Yv ->
    mmul x Yu = mmul x Yv -> u = v.

Lemma frozen_nonneg : forall p w u, 0 <! alpha p -> 0 <=! frozen_penalty p w u.
Proof.
  intros p w u Ha. apply sumn_nonneg. intros i Hi. apply kle_div; [apply kle_sqr|]. apply (wt_pos p w i Ha).
Qed.

Lemma frozen_zero : forall p w u, (forall i, (i < length (bmu (base p)))%nat -> residual (base p) u i = 0) ->
  frozen_penalty p w u = 0.
Proof. intros p w u H. apply sumn_zero. intros i Hi. rewrite (H i Hi), kdiv_def. ring. Qed.

Lemma msubt_eq0 : forall (a b : mat CK) r c, shape a r c -> shape b r c -> msubt a b = mzeros r c -> a = b.
Proof.
  intros a b r c Hsa Hsb H. apply (gshape_ext _ _ r c Hsa Hsb). intros i j Hi Hj.
  pose proof (f_equal (fun m => get m i j) H) as E. cbv beta in E. destruct Hsa as (_ & Ra & Ca).
  rewrite get_msubt in E by congruence. unfold mzeros in E. rewrite get_mk in E by assumption. apply ksub_eq0. exact E.
Qed.

Lemma fro2_self : forall a : mat CK, fro2 (msubt a a) = 0.
Proof.
  intros a. apply sumn_zero. intros i Hi. apply sumn_zero. intros j Hj. simpl in Hi, Hj.
  rewrite get_msubt by assumption. unfold cnorm2. rewrite re_sub, im_sub. ring.
Qed.

Theorem p_br_fixed : forall spsolve e p (x y0 : mat CK) T n P DT El u0 e' ex,
  solver_sound spsolve -> (forall v, e_prior e v = log_distribution p v) -> well_formed p (2 * P) -> 0 <! alpha p -> 0 <=! e_lambda e ->
  shape x T n -> e_dt e n = Ok DT -> e_el e n = Ok El -> shape DT (n * n) P ->
  length u0 = (2 * P)%nat -> rebuild DT n u0 = Ok y0 ->
  (forall i, (i < length (bmu (base p)))%nat -> residual (base p) u0 i = 0) ->
  identifiable_r x DT n P ->
  br_fit spsolve e x (mmul x y0) y0 = (e', ex) ->
  exists new, e_iters e' = e_iters e ++ new /\ Forall (fun r => st_y r = y0) new /\ (ex = None -> e_adm e' = Some y0).
Proof.
  intros spsolve e p x y0 T n P DT El u0 e' ex Hsound Hprior Hp Ha Hlam Hx Hdt Hel HDT Hu0 HY0 Hres Hid H.
  pose proof Hx as (_ & Hrx & Hcx). destruct (rebuild_even DT n P u0 y0 HDT Hu0 HY0) as (v0 & _ & _ & HsY0 & _).
  assert (Hz : shape (mmul x y0) T n) by (apply (shape_mmul x y0 T n n); [exact Hrx|apply HsY0|exact Hcx]).
  destruct (p_br_fit spsolve e p x (mmul x y0) y0 T n P DT El e' ex Hsound Hprior Hp Ha Hlam Hx Hz Hdt Hel HDT H)
    as (new & ws & Hit & Hlw & Hw0 & Hk).
  assert (Hall : forall k d, (k < length new)%nat -> st_y (nth k new d) = y0).
  { intros k d Hkn. destruct (Hk k d Hkn) as (HY & Hl & _ & Hmin). specialize (Hmin u0 y0 Hu0 HY0).
    unfold br_objective in Hmin. rewrite fro2_self, (frozen_zero p _ u0 Hres) in Hmin.
    replace (0 + e_lambda e * 0) with (0 : K) in Hmin by ring.
    assert (Hf := fro2_nonneg (msubt (mmul x y0) (mmul x (st_y (nth k new d))))).
    assert (Hg : 0 <=! e_lambda e * frozen_penalty p (nth k ws []) (nth (S k) ws [])) by (apply kle_mul; [exact Hlam|apply frozen_nonneg; exact Ha]).
    assert (E0 : fro2 (msubt (mmul x y0) (mmul x (st_y (nth k new d)))) + e_lambda e * frozen_penalty p (nth k ws []) (nth (S k) ws []) = 0).
    { apply kle_antisym; [exact Hmin|apply kle_0_add; assumption]. }
    destruct (kle_add_zero _ _ Hf Hg E0) as (E1 & _).
    destruct (rebuild_even DT n P _ _ HDT Hl HY) as (v1 & _ & _ & HsY & _).
    assert (Hz' : shape (mmul x (st_y (nth k new d))) T n) by (apply (shape_mmul x _ T n n); [exact Hrx|apply HsY|exact Hcx]).
    apply (fro2_zero _ T n) in E1; [|destruct Hz as (_ & R & C); rewrite <- R, <- C; apply shape_mk].
    apply (msubt_eq0 _ _ T n Hz Hz') in E1.
    pose proof (Hid _ _ _ _ Hu0 Hl HY0 HY E1) as Eu. rewrite <- Eu, HY0 in HY. inversion HY. reflexivity. }
  exists new. split; [exact Hit|]. split.
  - apply Forall_forall. intros r Hin. destruct (In_nth _ _ r Hin) as (k & Hkn & <-). apply Hall; exact Hkn.
  - intros Hex. pose proof (br_is_fit _ _ _ _ _ _ _ H) as Hf.
    destruct Hf as [(err & _ & _ & E)|(DT' & A & M & mu & step & Hi & Hst & Hfin)]; [congruence|].
    destruct (fit_loop (e_abs_tol e) (e_rel_tol e) step (e_max e) 0 (e_iters e) (y0, M, mu)) as (iters' & r) eqn:El'.
    destruct (fit_loop_spec _ _ _ _ _ _ _ _ _ (Nat.le_0_l _) El') as (ss & ts & Hch & H0 & Hle & Hit' & _ & Hr).
    symmetry in Hfin. destruct (finish_inv _ _ _ _ Hfin) as (H1 & H2 & _). simpl in H1, H2.
    destruct (H2 Hex) as (s & Hs & Hadm). rewrite Hadm. f_equal.
    destruct Hr as [(Hr & _)|(er & Hr & _)]; [|congruence]. rewrite Hr in Hs. inversion Hs; subst s.
    assert (En : new = recs 0 ss ts) by (rewrite H1, Hit' in Hit; apply app_inv_head in Hit; symmetry; exact Hit).
    destruct (length ts) as [|k] eqn:Ets; [rewrite H0; reflexivity|].
    pose proof (Hall k (St 0 y0 0)) as E. rewrite En, length_recs, Ets in E. specialize (E ltac:(lia)).
    rewrite nth_recs in E by lia. exact E.
Qed.

(** with a solver that solves every regular system, no exception is raised *)
Lemma br_system_inj : forall e p (x : mat CK) DT T n P w s,
  well_formed p (2 * P) -> 0 <! alpha p -> 0 <=! e_lambda e -> shape x T n -> shape DT (n * n) P ->
  tracks p (2 * P) w s -> identifiable_r x DT n P ->
  inj (madd (mmul (tr (regressor n x DT)) (regressor n x DT)) (mscal (e_lambda e) (snd (fst s)))).
Proof.
  intros e p x DT T n P w s Hp Ha Hlam Hx HDT Ht Hid v.
  pose proof (shape_regressor n T x DT P Hx HDT) as (_ & HrA & HcA).
  set (A := regressor n x DT) in *. cbn [nr nc mmul tr mtr mk madd mscal mmap]. rewrite HcA. intros Hv Hz.
  destruct (tracks_inv p T n P Hp Ha w s Ht) as ((HsM & HtM & HpM) & _). destruct HsM as (_ & HrM & HcM).
  rewrite mvmul_madd in Hz by (cbn [nr nc mmul tr mtr mk madd mscal mmap]; congruence).
  rewrite mvmul_assoc in Hz by reflexivity. rewrite mvmul_mscal in Hz.
  assert (E : vdot (mvmul A v) (mvmul A v) + e_lambda e * vdot v (mvmul (snd (fst s)) v) = 0).
  { rewrite (vdot_mvmul A) by (rewrite ?length_mvmul; congruence).
    rewrite (vdot_comm _ v) by (rewrite length_mvmul; cbn [nr nc tr mtr mk]; congruence).
    rewrite <- vdot_vscal_r by (rewrite length_mvmul; congruence).
    rewrite <- vdot_vadd_r by (rewrite ?length_vscal, ?length_mvmul; cbn [nr nc tr mtr mk]; congruence).
    rewrite Hz. apply sumn_zero. intros i Hi. rewrite vget_vzeros. ring. }
  assert (H1 : 0 <=! vdot (mvmul A v) (mvmul A v)) by (apply sumn_nonneg; intros; apply kle_sqr).
  assert (H2 : 0 <=! e_lambda e * vdot v (mvmul (snd (fst s)) v)) by (apply kle_mul; [exact Hlam|apply HpM; exact Hv]).
  destruct (kle_add_zero _ _ H1 H2 E) as (E1 & _).
  assert (EA : mvmul A v = vzeros (nr A)).
  { apply vec_ext; [rewrite length_mvmul, length_vzeros; reflexivity|]. rewrite length_mvmul. intros i Hi. rewrite vget_vzeros.
    apply sqr_zero. refine (sumn_nonneg_zero _ _ _ E1 i _); [intros; apply kle_sqr|rewrite length_mvmul; exact Hi]. }
  pose proof HDT as (HwD & HrD & HcD).
  destruct (even_real v P Hv) as (vc & -> & Hvc).
  destruct (even_real (vzeros (2 * P)) P (length_vzeros _)) as (zc & Ez & Hzc).
  destruct (rebuild_ex DT n vc HrD) as (Yv & HYv & HsYv & HvYv); [congruence|].
  destruct (rebuild_ex DT n zc HrD) as (Yz & HYz & HsYz & HvYz); [congruence|].
  rewrite Ez.
  apply (Hid _ _ Yv Yz); [rewrite length_make_real_vector; lia|rewrite length_make_real_vector; lia|exact HYv|exact HYz|].
  pose proof (regressor_apply n T x DT P vc Yv Hx HDT Hvc HsYv HvYv) as R1.
  pose proof (regressor_apply n T x DT P zc Yz Hx HDT Hzc HsYz HvYz) as R2.
  fold A in R1, R2. rewrite <- Ez in R2. rewrite EA in R1. rewrite mvmul_vzeros in R2. rewrite R2 in R1.
  apply real_vector_inj in R1. destruct Hx as (_ & Hrx & Hcx). destruct HsYv as (_ & RY & CY). destruct HsYz as (_ & RZ & CZ).
  assert (U1 := unvectorize_vectorize (mmul x Yv) (wf_mk _ _ _)). assert (U2 := unvectorize_vectorize (mmul x Yz) (wf_mk _ _ _)).
  rewrite R1 in U2. cbn [nr nc mmul mk] in U1, U2. rewrite CY in U1. rewrite CZ in U2. congruence.
Qed.

Theorem p_br_fixed_runs : forall spsolve e p (x y0 : mat CK) T n P DT El u0 e' ex,
  solver_sound spsolve -> solver_complete spsolve ->
  (forall v, e_prior e v = log_distribution p v) -> well_formed p (2 * P) -> 0 <! alpha p -> 0 <=! e_lambda e ->
  shape x T n -> e_dt e n = Ok DT -> e_el e n = Ok El -> shape DT (n * n) P -> shape El P (n * n) ->
  length u0 = (2 * P)%nat -> rebuild DT n u0 = Ok y0 ->
  identifiable_r x DT n P ->
  br_fit spsolve e x (mmul x y0) y0 = (e', ex) -> ex = None.
Proof.
  intros spsolve e p x y0 T n P DT El u0 e' ex Hsound Hcompl Hprior Hp Ha Hlam Hx Hdt Hel HDT HEl Hu0 HY0 Hid H.
  pose proof Hx as (_ & Hrx & Hcx). pose proof HDT as (HwD & HrD & HcD). pose proof HEl as (HwE & HrE & HcE).
  destruct (rebuild_even DT n P u0 y0 HDT Hu0 HY0) as (v0 & _ & _ & HsY0 & _). pose proof HsY0 as (_ & HrY & HcY).
  assert (Hz : shape (mmul x y0) T n) by (apply (shape_mmul x y0 T n n); [exact Hrx|exact HcY|exact Hcx]).
  set (w0 := make_real_vector (mvmul (cmat El) (vectorize_matrix y0))).
  assert (Hw0 : length w0 = (2 * P)%nat) by (unfold w0; rewrite length_make_real_vector, length_mvmul; simpl; lia).
  destruct (log_frozen p (2 * P) w0 Hp Hw0 ltac:(lia) Ha) as (M & mu & Hlog & _).
  unfold br_fit in H.
  assert (Ei : fit_init e x y0 = Ok (DT, regressor n x DT, M, mu)).
  { unfold fit_init. rewrite Hcx, Hdt, Hel. cbn [bind].
    rewrite matmul_ok by (simpl; rewrite Hcx, HrD; reflexivity). cbn [bind].
    rewrite matvec_ok by (rewrite length_vectorize; simpl; rewrite HcE, HrY, HcY; reflexivity). cbn [bind].
    rewrite Hprior. fold w0. rewrite Hlog. reflexivity. }
  rewrite Ei, Hcx in H. clear Ei.
  match type of H with finish_fit _ (fit_loop ?a ?b ?st ?f ?i ?it ?s) = _ =>
    destruct (fit_loop a b st f i it s) as (iters' & r) eqn:El' end.
  destruct (fit_loop_spec _ _ _ _ _ _ _ _ _ (Nat.le_0_l _) El') as (ss & ts & Hch & H0 & Hle & Hit & _ & Hr).
  destruct (chain_follow _ [] _ (tracks p (2 * P)) (br_update (e_lambda e) p DT n P x (mmul x y0)) ts ss w0 Hch) as (ws & Hlw & Hws0 & HR & HQ).
  { rewrite H0. split; [exact Hw0|simpl; eauto]. }
  { intros w s s' t. apply (br_step_follow spsolve e p DT x (mmul x y0) T n P); assumption. }
  destruct Hr as [(Hr & _)|(er & Hr & Her & _)].
  - subst r. unfold finish_fit in H. simpl in H. inversion H. reflexivity.
  - exfalso. pose proof (HR (length ts) ltac:(lia)) as Ht.
    set (s := nth (length ts) ss dstate) in *. set (w := nth (length ts) ws []) in *.
    rewrite (br_step_eq spsolve e p DT x (mmul x y0) T n P Hp Ha Hx Hz HDT w s Ht) in Her.
    destruct (br_system_shape e p DT x (mmul x y0) T n P Hx HDT w s Ht) as (Hsh & Hlen).
    destruct (Hcompl _ _ _ Hsh Hlen (br_system_inj e p x DT T n P w s Hp Ha Hlam Hx HDT Ht Hid)) as (u & Hu).
    destruct (Hsound _ _ _ _ Hsh Hlen Hu) as (Hlu & _).
    unfold solve_y in Her. rewrite Hu in Her. cbn [bind] in Her.
    destruct (even_real u P Hlu) as (uc & Euc & Hluc).
    destruct (rebuild_ex DT n uc HrD) as (Yu & HYu & _); [congruence|]. rewrite Euc, HYu in Her. cbn [bind] in Her.
    rewrite <- Euc, Hprior in Her.
    destruct (log_frozen p (2 * P) u Hp Hlu ltac:(lia) Ha) as (M' & mu' & Hlog' & _). rewrite Hlog' in Her. cbn [bind] in Her.
    pose proof (shape_regressor n T x DT P Hx HDT) as (_ & HrA & HcA).
    rewrite matvec_ok in Her by congruence. cbn [bind] in Her.
    rewrite np_vsub_ok in Her by (rewrite length_mvmul, length_make_real_vector, length_vectorize; simpl; rewrite Hrx, HcY; simpl in HrA; lia).
    cbn [bind] in Her. discriminate.
Qed.
End BR.
