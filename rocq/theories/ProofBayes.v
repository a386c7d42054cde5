(** Rounds of the estimators, in terms of matrices instead of parameters *)
From Coq Require Import String.
From Coq Require Import Bool Arith List ZArith Lia Ring Field.
From Verif Require Import BasePy BaseFld BaseOrd BaseSum BaseMat BaseNumpy BaseLin ModelMatrixOps SpecMatrix ModelPrior ModelFit
  ModelLS ModelIdent ModelRun SpecPrior SpecLS SpecFit SpecIdent SpecBayes SpecRun ProofRagged ProofMatrixOps ProofStruct ProofElim ProofMatrixProps ProofFitBase ProofFitRep
  ProofPrior ProofFit ProofLS ProofFitBR ProofFitEIV ProofFitFix ProofSet ProofIdent ProofPenalty ProofIdentMain ProofIdentThm ProofFrozen.
Import ListNotations.
Close Scope string_scope.
Local Open Scope K_scope.

Section Rounds.
Context {K : Type} {O : Ops K} {F : Fld K} {O2 : OrdOps K} {OF : OrdFld K}.
Notation CK := (cplx K).
Add Field Kfld : (@k_field K O F).

Definition structured (lap : bool) (n : nat) (w : list CK) : mat CK := if lap then lap_of n w else sym_of n w.
Lemma re_sym_of : forall n (w : list CK), mmap re (sym_of n w) = sym_of n (map re w).
Proof.
  intros n w. apply (gshape_ext _ _ n n); [apply shape_mmap; apply shape_mk|apply shape_mk|].
  intros i j Hi Hj. rewrite get_mmap_re by (try apply wf_mk; assumption). unfold sym_of. rewrite !get_mk by assumption. rewrite vget_map_re. reflexivity.
Qed.
Lemma im_sym_of : forall n (w : list CK), mmap im (sym_of n w) = sym_of n (map im w).
Proof.
  intros n w. apply (gshape_ext _ _ n n); [apply shape_mmap; apply shape_mk|apply shape_mk|].
  intros i j Hi Hj. rewrite get_mmap_im by (try apply wf_mk; assumption). unfold sym_of. rewrite !get_mk by assumption. rewrite vget_map_im. reflexivity.
Qed.
Lemma shape_structured : forall lap n w, shape (structured lap n w) n n.
Proof. intros [|] n w; apply shape_mk. Qed.
Lemma dt_complex : forall lap n D w, is_dt lap n D -> length w = psize lap n -> mvmul (cmat D) w = vectorize_matrix (structured lap n w).
Proof.
  intros lap n D w [SD HD] Hw. assert (WD : wf D) by apply SD. assert (WS : wf (structured lap n w)) by apply shape_structured. apply map_re_rv.
  - rewrite map_re_mvmul, map_re_vectorize by assumption. rewrite HD by (rewrite map_length; assumption). f_equal.
    destruct lap; [symmetry; apply re_lap_of|symmetry; apply re_sym_of].
  - rewrite map_im_mvmul, map_im_vectorize by assumption. rewrite HD by (rewrite map_length; assumption). f_equal.
    destruct lap; [symmetry; apply im_lap_of|symmetry; apply im_sym_of].
Qed.
Lemma rebuild_structured : forall lap n D w, is_dt lap n D -> length w = psize lap n -> rebuild D n (make_real_vector w) = Ok (structured lap n w).
Proof.
  intros lap n D w HD Hw. unfold rebuild. rewrite make_complex_real. cbn [bind]. unfold matvec.
  change (nc (cmat D)) with (nc D). assert (C : nc D = psize lap n) by apply (proj1 HD). rewrite C, Hw, Nat.eqb_refl. cbn [bind].
  rewrite (dt_complex lap n D w HD Hw). pose proof (shape_structured lap n w) as (WS & RS & CS).
  pose proof (unvectorize_vectorize (structured lap n w) WS) as U. rewrite RS, CS in U. exact U.
Qed.
Lemma structured_admissible : forall lap n w, admissible lap n (structured lap n w).
Proof. intros [|] n w; [apply laplacian_lap_of|apply symmetric_sym_of]. Qed.
Lemma parameters_structured : forall lap n w, length w = psize lap n -> parameters lap (structured lap n w) = make_real_vector w.
Proof. intros [|] n w H; unfold parameters; f_equal; [apply ve_lap_of|apply vech_sym_of]; exact H. Qed.
Lemma structured_pv : forall lap n M, admissible lap n M -> structured lap n (pv lap M) = M.
Proof. intros [|] n M H; [apply lap_of_ve|apply (sym_of_vech CK _ _)]; exact H. Qed.
Lemma length_pv_adm : forall lap n (M : mat CK), shape M n n -> length (pv lap M) = psize lap n.
Proof. intros lap n M (_ & R & _). rewrite length_pv, R. reflexivity. Qed.

Lemma rebuild_params : forall lap n D u Y, is_dt lap n D -> length u = (2 * psize lap n)%nat -> rebuild D n u = Ok Y ->
  admissible lap n Y /\ u = parameters lap Y.
Proof.
  intros lap n D u Y HD Hu H. destruct (even_real u _ Hu) as (w & -> & Hw). rewrite (rebuild_structured lap n D w HD Hw) in H. injection H as <-.
  split; [apply structured_admissible|]. symmetry. apply parameters_structured. assumption.
Qed.
Lemma params_rebuild : forall lap n D M, is_dt lap n D -> admissible lap n M -> rebuild D n (parameters lap M) = Ok M.
Proof.
  intros lap n D M HD HM. unfold parameters. change (if lap then ve M else vech M) with (pv lap M).
  rewrite (rebuild_structured lap n D _ HD); [rewrite structured_pv by assumption; reflexivity|]. apply length_pv_adm. apply (admissible_sym _ _ _ HM).
Qed.
Lemma half_twice : forall a : CK, (a + a) / (1 + 1) = a.
Proof. intros a. apply cplx_eq; [rewrite re_half|rewrite im_half]; field; apply (k2_neq0 (K := K)). Qed.
Lemma sym_part_id : forall n (Y : mat CK), symmetric n Y -> sym_part n Y = Y.
Proof.
  intros n Y [Sh Sy]. apply (gshape_ext _ _ n n); [apply shape_mk|assumption|]. intros i j Hi Hj. rewrite get_sym_part by assumption.
  rewrite (Sy j i) by assumption. apply half_twice.
Qed.
Lemma length_parameters2 : forall lap n (M : mat CK), shape M n n -> length (parameters lap M) = (2 * psize lap n)%nat.
Proof. intros. rewrite (length_parameters lap n) by assumption. lia. Qed.

(** ** the rounds *)
Definition object (prior : spprior K) (lam at_ rt : K) (N : nat) (lap : bool) : estimator K :=
  new_estimator (sp_log_distribution prior) lam at_ rt N (fun n => dt_of n lap) (fun n => e_of n lap).

Section Fit.
Variables (lap : bool) (n m N : nat) (al lam at_ rt : K) (prior : spprior K).
Variable pf : (K -> K -> K) -> list K -> list K -> K.
Variable q : (K -> K -> K) -> mat CK -> mat CK -> K.
Hypothesis G : rows_are al (psize lap n + psize lap n) m prior pf.
Hypothesis Hm : (1 < m)%nat.
Hypothesis Hal : 0 <! al.
Hypothesis Hlam : 0 <=! lam.
Hypothesis HN : (0 < N)%nat.
Hypothesis Hq : forall g M0 M, even g -> symmetric n M0 -> symmetric n M -> pf g (parameters lap M0) (parameters lap M) = q g M0 M.

Let e := object prior lam at_ rt N lap.
Lemma frozen_is : forall M0 M, symmetric n M0 -> symmetric n M -> frozen_penalty (dense prior) (parameters lap M0) (parameters lap M) = q (relaxed al) M0 M.
Proof.
  intros M0 M H0 H1. rewrite (rows_frozen al _ m prior pf _ _ G) by (apply length_parameters; apply H0 || apply H1). apply Hq; auto. apply even_relaxed.
Qed.
Lemma sum_is : forall M0 M, symmetric n M0 -> symmetric n M -> prior_sum (dense prior) (parameters lap M) = q (fun _ => cost al) M0 M.
Proof.
  intros M0 M H0 H1. rewrite (rows_sum al _ m prior pf (parameters lap M0) _ G) by (apply length_parameters; apply H0 || apply H1). apply Hq; auto. apply even_cost.
Qed.
Lemma wf2 : well_formed (dense prior) (2 * psize lap n).
Proof. replace (2 * psize lap n)%nat with (psize lap n + psize lap n)%nat by lia. apply (r_wf _ _ _ _ _ G). Qed.
Lemma start_is : forall E Y0, is_e lap n E -> symmetric n Y0 ->
  make_real_vector (mvmul (cmat E) (vectorize_matrix Y0)) = parameters lap Y0.
Proof. intros E Y0 HE HY. rewrite (eliminated_vec lap n E Y0 HE) by apply HY. rewrite sym_part_id by assumption. reflexivity. Qed.

(** the previous estimate and its parameters *)
Lemma previous_is : forall Y0 D (new : list (status K)) ws k, is_dt lap n D -> symmetric n Y0 -> nth 0 ws [] = parameters lap Y0 ->
  (forall k d, (k < length new)%nat -> rebuild D n (nth (S k) ws []) = Ok (st_y (nth k new d)) /\ length (nth (S k) ws []) = (2 * psize lap n)%nat) ->
  (k <= length new)%nat -> symmetric n (prev_y Y0 new k) /\ nth k ws [] = parameters lap (prev_y Y0 new k).
Proof.
  intros Y0 D new ws k HD HY H0 H Hk. destruct k as [|k]; cbn [prev_y]; [auto|]. destruct (H k (St 0 Y0 0) Hk) as [A B].
  destruct (rebuild_params lap n D _ _ HD B A) as [C E]. split; [apply (admissible_sym _ _ _ C)|exact E].
Qed.

Theorem p_weighted_rounds : forall spsolve cabs (x z Y0 y : mat CK) W zarg T its,
  solver_sound spsolve -> shape x T n -> shape z T n -> symmetric n Y0 -> psd (2 * (n * T)) W ->
  fit_result (eiv_fit spsolve cabs e x z (Some W) (Some zarg) Y0) = Ok (y, its) ->
  history_of (weighted_round lap T n W x z lam (fun M => q (fun _ => cost al) M M) (q (relaxed al))) Y0 y its.
Proof.
  intros spsolve cabs x z Y0 y W zarg T its Hs Hx Hz HY HW H.
  destruct (eiv_fit spsolve cabs e x z (Some W) (Some zarg) Y0) as [e' ex] eqn:EF.
  assert (EX : ex = None /\ e_adm e' = Some y /\ e_iters e' = its).
  { unfold fit_result in H. destruct ex; [discriminate|]. destruct (e_adm e') as [y'|]; [|discriminate]. injection H as -> ->. auto. }
  destruct EX as (-> & EA & EI).
  destruct (dt_is n lap) as (D & ED & HD). destruct (e_is n lap) as (E & EE & HE).
  destruct (p_records e x Y0 e' None (eiv_is_fit _ _ _ _ _ _ _ _ _ _ EF) eq_refl) as (_ & _ & R & _).
  destruct (R eq_refl HN) as (R1 & R2). rewrite EI in R1, R2.
  destruct (p_eiv_fit spsolve cabs e (dense prior) x z Y0 W zarg T n (psize lap n) _ D E e' None eq_refl Hs) as (new & ws & E1 & E2 & E3 & E4); auto.
  - intros v. apply (rows_log al _ m prior pf v G Hm).
  - apply wf2.
  - rewrite (r_al _ _ _ _ _ G). assumption.
  - apply HY.
  - apply (proj1 HD).
  - rewrite EI in E1. cbn [e object new_estimator e_iters app] in E1. subst new.
    rewrite (start_is E Y0 HE HY) in E3.
    assert (PR := fun k => previous_is Y0 D its ws k HD HY E3 (fun k d Hk => Logic.conj (proj1 (E4 k d Hk)) (proj1 (proj2 (E4 k d Hk))))).
    split; [intros ->; cbn in R1; lia|]. split; [intros d; specialize (R2 d); rewrite EA in R2; injection R2 as R2; exact R2|].
    intros k d Hk. destruct (E4 k d Hk) as (A1 & A2 & D1 & B1 & B2 & B3 & B4).
    destruct (rebuild_params lap n D _ _ HD A2 A1) as [AD EP]. assert (SM := admissible_sym _ _ _ AD).
    destruct (PR k ltac:(lia)) as [S0 E0].
    split; [exact AD|]. exists D1. split; [exact B1|]. split; [|split].
    + rewrite B2. unfold eiv_target, misfit. rewrite EP, (sum_is (st_y (nth k its d)) _ SM SM). reflexivity.
    + intros D' HD'. specialize (B3 D' HD'). rewrite (tr_symmetric n _ S0) in B3. exact B3.
    + intros M HM. assert (SM2 := admissible_sym _ _ _ HM).
      specialize (B4 (parameters lap M) M (length_parameters2 lap n M (proj1 SM2)) (params_rebuild lap n D M HD HM)).
      unfold eiv_objective in B4. rewrite EP, E0, !frozen_is in B4 by assumption. exact B4.
Qed.

Theorem p_plain_rounds : forall spsolve cabs (x z Y0 y : mat CK) zarg T its,
  solver_sound spsolve -> shape x T n -> shape z T n -> symmetric n Y0 ->
  fit_result (eiv_fit spsolve cabs e x z None zarg Y0) = Ok (y, its) ->
  history_of (plain_round lap T n x z lam (q (relaxed al))) Y0 y its.
Proof.
  intros spsolve cabs x z Y0 y zarg T its Hs Hx Hz HY H.
  destruct (eiv_fit spsolve cabs e x z None zarg Y0) as [e' ex] eqn:EF.
  assert (EX : ex = None /\ e_adm e' = Some y /\ e_iters e' = its).
  { unfold fit_result in H. destruct ex; [discriminate|]. destruct (e_adm e') as [y'|]; [|discriminate]. injection H as -> ->. auto. }
  destruct EX as (-> & EA & EI).
  destruct (dt_is n lap) as (D & ED & HD). destruct (e_is n lap) as (E & EE & HE).
  destruct (p_records e x Y0 e' None (eiv_is_fit _ _ _ _ _ _ _ _ _ _ EF) eq_refl) as (_ & _ & R & _).
  destruct (R eq_refl HN) as (R1 & R2). rewrite EI in R1, R2.
  destruct (p_eivu_fit spsolve cabs e (dense prior) x z Y0 zarg T n (psize lap n) D E e' None Hs) as (new & ws & E1 & E2 & E3 & E4); auto.
  - intros v. apply (rows_log al _ m prior pf v G Hm).
  - apply wf2.
  - rewrite (r_al _ _ _ _ _ G). assumption.
  - apply HY.
  - apply (proj1 HD).
  - rewrite EI in E1. cbn [e object new_estimator e_iters app] in E1. subst new.
    rewrite (start_is E Y0 HE HY) in E3.
    assert (PR := fun k => previous_is Y0 D its ws k HD HY E3 (fun k d Hk => Logic.conj (proj1 (E4 k d Hk)) (proj1 (proj2 (E4 k d Hk))))).
    split; [intros ->; cbn in R1; lia|]. split; [intros d; specialize (R2 d); rewrite EA in R2; injection R2 as R2; exact R2|].
    intros k d Hk. destruct (E4 k d Hk) as (A1 & A2 & q1 & B1 & B2 & B4).
    destruct (rebuild_params lap n D _ _ HD A2 A1) as [AD EP]. assert (SM := admissible_sym _ _ _ AD).
    destruct (PR k ltac:(lia)) as [S0 E0].
    destruct (p_project n T (prev_y Y0 its k) x z (proj1 S0) Hx Hz) as (d1 & P1 & P2 & P3 & _ & P5). rewrite B1 in P1. injection P1 as <-.
    split; [exact AD|]. exists q1. split; [exact B2|]. split; [exact P3|]. split.
    + intros q' Hq' Hf. rewrite (P5 q' Hq' Hf). apply kle_sub. match goal with |- kle _ (?a + ?b - ?a)%K => replace (a + b - a)%K with b end.
      * apply fro2_nonneg.
      * apply add_sub_cancel.
    + intros M HM. assert (SM2 := admissible_sym _ _ _ HM).
      specialize (B4 (parameters lap M) M (length_parameters2 lap n M (proj1 SM2)) (params_rebuild lap n D M HD HM)).
      unfold br_objective in B4. rewrite EP, E0, !frozen_is in B4 by assumption. exact B4.
Qed.

Theorem p_reweighted : forall spsolve (x z Y0 y : mat CK) T its,
  solver_sound spsolve -> shape x T n -> shape z T n -> symmetric n Y0 ->
  fit_result (br_fit spsolve e x z Y0) = Ok (y, its) ->
  reweighted lap n x z lam (q (relaxed al)) N Y0 y.
Proof.
  intros spsolve x z Y0 y T its Hs Hx Hz HY H.
  destruct (br_fit spsolve e x z Y0) as [e' ex] eqn:EF.
  assert (EX : ex = None /\ e_adm e' = Some y /\ e_iters e' = its).
  { unfold fit_result in H. destruct ex; [discriminate|]. destruct (e_adm e') as [y'|]; [|discriminate]. injection H as -> ->. auto. }
  destruct EX as (-> & EA & EI).
  destruct (dt_is n lap) as (D & ED & HD). destruct (e_is n lap) as (E & EE & HE).
  destruct (p_records e x Y0 e' None (br_is_fit _ _ _ _ _ _ _ EF) eq_refl) as (L & _ & R & _).
  destruct (R eq_refl HN) as (R1 & R2). rewrite EI in L, R1, R2. cbn [e object new_estimator e_max] in L.
  destruct (p_br_fit spsolve e (dense prior) x z Y0 T n (psize lap n) D E e' None Hs) as (new & ws & E1 & E2 & E3 & E4); auto.
  - intros v. apply (rows_log al _ m prior pf v G Hm).
  - apply wf2.
  - rewrite (r_al _ _ _ _ _ G). assumption.
  - apply (proj1 HD).
  - rewrite EI in E1. cbn [e object new_estimator e_iters app] in E1. subst new.
    rewrite (start_is E Y0 HE HY) in E3.
    assert (PR := fun k => previous_is Y0 D its ws k HD HY E3 (fun k d Hk => Logic.conj (proj1 (E4 k d Hk)) (proj1 (proj2 (E4 k d Hk))))).
    set (d0 := St 0 Y0 0 : status K).
    assert (NT : forall k, nth k (map st_y its) Y0 = st_y (nth k its d0)) by (intros k; change Y0 with (st_y d0) at 1; apply map_nth).
    exists (map st_y its). rewrite map_length. split; [intros Q; apply map_eq_nil in Q; rewrite Q in R1; cbn in R1; lia|].
    split; [exact L|]. split; [rewrite NT; specialize (R2 d0); rewrite EA in R2; injection R2 as R2; exact R2|].
    intros k Hk. destruct (E4 k d0 Hk) as (A1 & A2 & _ & B4).
    destruct (rebuild_params lap n D _ _ HD A2 A1) as [AD EP]. assert (SM := admissible_sym _ _ _ AD).
    destruct (PR k ltac:(lia)) as [S0 E0].
    assert (NP : nth k (Y0 :: map st_y its) Y0 = prev_y Y0 its k) by (destruct k as [|k]; [reflexivity|cbn [nth prev_y]; apply NT]).
    rewrite NT, NP. split; [exact AD|].
    intros M HM. assert (SM2 := admissible_sym _ _ _ HM).
    specialize (B4 (parameters lap M) M (length_parameters2 lap n M (proj1 SM2)) (params_rebuild lap n D M HD HM)).
    unfold br_objective in B4. rewrite EP, E0, !frozen_is in B4 by assumption. exact B4.
Qed.
End Fit.
End Rounds.
