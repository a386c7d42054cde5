(** Renumbered nodes: the rounds of the error-in-variable regression. *)
From Coq Require Import Bool Arith List ZArith Lia Ring Field Permutation.
From Verif Require Import BasePy BaseFld BaseOrd BaseSum BaseMat BaseNumpy BaseLin ModelMatrixOps SpecMatrix ModelPrior ModelFit ModelLS ModelIdent ModelRun
  SpecPrior SpecLS SpecFit SpecIdent SpecBayes SpecOrder SpecTLS SpecRenumber ProofRagged ProofMatrixOps ProofStruct ProofElim ProofMatrixProps ProofPrior ProofLS ProofFitBase ProofFit ProofFitOpt ProofFitBR ProofFitEIV ProofFitFix ProofFitRep
  ProofIdent ProofPenalty ProofIdentMain ProofIdentThm ProofFrozen ProofBayes ProofBayesRun ProofOrder4 ProofOrder5 ProofOrderRun ProofRenumber ProofRenumber2 ProofEquiv ProofEquiv2 ProofEquiv4.
Import ListNotations.
Local Open Scope K_scope.

Section Equiv.
Context {K : Type} {O : Ops K} {F : Fld K} {O2 : OrdOps K} {OF : OrdFld K}.
Notation CK := (cplx K).
Add Field KfldE5 : (@k_field K O F).
Ltac dims := cbn [nr nc mmul tr mtr mk madd msubt mscal mopp mkron meye cmat mmap].

Lemma input_system : forall m (U W : mat K), shape U m m -> posdef m W -> inj (madd (mmul (mmul (tr U) W) U) W).
Proof.
  intros m U W (WU & RU & CU) ((HW & SW & PW) & DW) v Lv H. pose proof HW as (WW & RW & CW). assert (L : length v = m) by (rewrite Lv; cbn; exact CU).
  assert (SH : shape (mmul (mmul (tr U) W) U) m m) by (apply shape_mmul with (m := m); auto).
  rewrite mvmul_madd in H by (destruct SH as (_ & R1 & C1); congruence).
  assert (E : vdot v (vadd (mvmul (mmul (mmul (tr U) W) U) v) (mvmul W v)) = 0).
  { rewrite H. unfold vdot. apply sumn_zero. intros i Hi. rewrite vget_vzeros. ring. }
  rewrite vdot_vadd_r in E by (rewrite ?length_mvmul; destruct SH as (_ & R1 & C1); congruence).
  rewrite mvmul_assoc in E by (cbn; congruence). rewrite mvmul_assoc in E by (cbn; congruence).
  assert (Q1 : vdot v (mvmul (tr U) (mvmul W (mvmul U v))) = vdot (mvmul U v) (mvmul W (mvmul U v))).
  { rewrite vdot_mvmul by (rewrite ?length_mvmul; cbn; congruence). rewrite tr_tr by exact WU. reflexivity. }
  rewrite Q1 in E. assert (P1 := PW (mvmul U v) ltac:(rewrite length_mvmul; exact RU)). assert (P2 := PW v L).
  destruct (kle_add_zero _ _ P1 P2 E) as [_ Z]. rewrite (DW v L Z). f_equal. cbn. rewrite CU. reflexivity.
Qed.
Lemma eye_psd : forall m, psd m (meye m : mat K).
Proof.
  intros m. split; [apply shape_mk|]. split.
  - apply (gshape_ext _ _ m m); [apply shape_mk|apply shape_mk|]. intros i j Hi Hj. rewrite get_tr by (cbn; assumption). unfold meye. rewrite !get_mk by assumption. rewrite Nat.eqb_sym. reflexivity.
  - intros v <-. rewrite mvmul_1. apply sumn_nonneg. intros. apply kle_sqr.
Qed.
Lemma eye_norm : forall T n (X : mat CK), shape X T n -> wnorm2 (meye (2 * (n * T))) X = fro2 X.
Proof. intros T n X HX. unfold wnorm2. cbv zeta. rewrite <- (length_rv T n X HX), mvmul_1. apply vdot_real_vec. Qed.

Section Rounds.
Variables (n : nat) (lap : bool) (m N : nat) (al lam at_ rt : K) (prior : spprior K).
Variable pf : (K -> K -> K) -> list K -> list K -> K.
Variable q : (K -> K -> K) -> mat CK -> mat CK -> K.
Hypothesis G : rows_are al (psize lap n + psize lap n) m prior pf.
Hypothesis Hm : (1 < m)%nat.
Hypothesis Hal : 0 <! al.
Hypothesis Hlam : 0 <! lam.
Hypothesis Hq : forall g M0 M, even g -> symmetric n M0 -> symmetric n M -> pf g (parameters lap M0) (parameters lap M) = q g M0 M.
Hypothesis Dc : decisive (dense prior) (2 * psize lap n).
Let e := object prior lam at_ rt N lap.
Let P := psize lap n.
Let Hprior : forall v, e_prior e v = log_distribution (dense prior) v := fun v => rows_log al _ m prior pf v G Hm.
Let Hp : well_formed (dense prior) (2 * P) := prior_wf n lap m al prior pf G.
Let Ha : 0 <! alpha (dense prior).
Proof. rewrite (r_al _ _ _ _ _ G). exact Hal. Qed.
Let Hl0 : 0 <=! lam := klt_le _ _ Hlam.

Lemma solve_ok : forall spsolve D (A W : mat K) M mu r b M0 M1 w, solver_sound spsolve -> solver_complete spsolve -> is_dt lap n D -> shape A r (2 * P) -> psd r W ->
  tracks (dense prior) (2 * P) w (M0, M, mu) -> length b = (2 * P)%nat -> M1 = madd (mmul (mmul (tr A) W) A) (mscal lam M) ->
  exists u s1 pen, solve_y spsolve e D n M1 b = Ok (u, s1, pen) /\ length u = (2 * P)%nat.
Proof.
  intros spsolve D A W M mu r b M0 M1 w Hs Hc HD HA HW Ht Lb ->.
  pose proof (settled_system (dense prior) (2 * P) A W M lam w (M0, M, mu) r Hp Ha Hlam ltac:(lia) Ht eq_refl HA HW Dc) as I.
  destruct HA as (WA & RA & CA). destruct (tracks_inv (dense prior) r n P Hp Ha w _ Ht) as ((HsM & _ & _) & _). cbn [fst snd] in HsM. pose proof HsM as (_ & RM & CM). pose proof HW as ((_ & RW & CW) & _).
  assert (Hsh : shape (madd (mmul (mmul (tr A) W) A) (mscal lam M)) (2 * P) (2 * P)) by (split; [apply wf_mk|dims; split; congruence]).
  destruct (Hc _ _ b Hsh Lb I) as (u & Hu). destruct (Hs _ _ _ _ Hsh Lb Hu) as (Hlu & _). unfold solve_y. rewrite Hu. cbn [bind].
  destruct (rebuild_total D n P u (proj1 HD) Hlu) as (Yu & HYu). rewrite HYu. cbn [bind]. rewrite Hprior.
  destruct (log_frozen (dense prior) (2 * P) u Hp Hlu ltac:(lia) Ha) as (M' & mu' & Hlog' & _). rewrite Hlog'. cbn [bind]. eauto.
Qed.

Definition value_w (W : mat K) (x z M0 M : mat CK) : K := wnorm2 W (msubt z (mmul x M)) + lam * q (relaxed al) M0 M.
Lemma value_is : forall W x z M0 M, symmetric n M0 -> admissible lap n M -> eiv_objective lam (dense prior) W x z (parameters lap M0) (parameters lap M) M = value_w W x z M0 M.
Proof. intros W x z M0 M H0 H. unfold eiv_objective, value_w. rewrite (frozen_is lap n m al prior pf q G Hq) by (assumption || apply (admissible_sym _ _ _ H)). reflexivity. Qed.
Lemma best_one : forall W x z T D M0 u M, psd (2 * (n * T)) W -> shape x T n -> shape z T n -> is_dt lap n D -> symmetric n M0 -> length u = (2 * P)%nat -> rebuild D n u = Ok M ->
  (forall v Yv, length v = (2 * P)%nat -> rebuild D n v = Ok Yv -> eiv_objective lam (dense prior) W x z (parameters lap M0) u M <=! eiv_objective lam (dense prior) W x z (parameters lap M0) v Yv) ->
  admissible lap n M /\ u = parameters lap M /\ (forall M2, admissible lap n M2 -> value_w W x z M0 M <=! value_w W x z M0 M2) /\
  (forall M2, admissible lap n M2 -> value_w W x z M0 M2 <=! value_w W x z M0 M -> M2 = M).
Proof.
  intros W x z T D M0 u M PW Hx Hz HD S0 Lu HB Best. destruct (rebuild_params lap n D u M HD Lu HB) as [AD EP]. split; [exact AD|]. split; [exact EP|]. split.
  - intros M2 H2. rewrite <- !value_is by assumption. rewrite <- EP. apply Best; [apply length_parameters2; apply (admissible_sym _ _ _ H2)|apply params_rebuild; assumption].
  - intros M2 H2 L. rewrite <- !value_is in L by assumption. rewrite <- EP in L.
    pose proof (params_rebuild lap n D M2 HD H2) as R2. assert (L2 := length_parameters2 lap n M2 (proj1 (admissible_sym _ _ _ H2))).
    assert (E := settled_unique lam (dense prior) W x z D T n P (parameters lap M0) u (parameters lap M2) M M2 Ha Hlam PW Hx Hz (proj1 HD) Lu L2 HB R2 Dc Best L).
    rewrite E, HB in R2. assert (Q : forall a b : mat CK, Ok a = Ok b -> a = b) by (intros a b Q; congruence). symmetry. apply Q. exact R2.
Qed.

(** *** with weights *)
Lemma eivw_round : forall spsolve (x z : mat CK) W T D s M0, solver_sound spsolve -> solver_complete spsolve -> shape x T n -> shape z T n -> posdef (2 * (n * T)) W -> is_dt lap n D ->
  at_matrix n lap prior M0 s ->
  exists s1 M C, eiv_step_weighted spsolve e D (regressor n x D) W W (make_real_vector (vectorize_matrix x)) (make_real_vector (vectorize_matrix z)) T n s =
      Ok (s1, wnorm2 W (msubt z (mmul (msubt x C) M)) + wnorm2 W C + lam * q (fun _ => cost al) M M) /\
    at_matrix n lap prior M s1 /\ shape C T n /\ (forall C', shape C' T n -> input_objective W W x z M0 C <=! input_objective W W x z M0 C') /\
    admissible lap n M /\ (forall M2, admissible lap n M2 -> value_w W (msubt x C) z M0 M <=! value_w W (msubt x C) z M0 M2) /\
    (forall M2, admissible lap n M2 -> value_w W (msubt x C) z M0 M2 <=! value_w W (msubt x C) z M0 M -> M2 = M).
Proof.
  intros spsolve x z W T D [[Y M] mu] M0 Hs Hc Hx Hz PW HD (EM & SM & Ht). cbn [fst] in EM. subst Y. pose proof PW as (PSW & _). pose proof PSW as (HW & TW & PP). pose proof HW as (WW & RW & CW).
  pose proof (proj1 HD) as SD. pose proof SD as (WD & RD & CD). pose proof Hx as (Wx & Rx & Cx). pose proof Hz as (Wz & Rz & Cz).
  assert (R : exists s1 t, eiv_step_weighted spsolve e D (regressor n x D) W W (make_real_vector (vectorize_matrix x)) (make_real_vector (vectorize_matrix z)) T n (M0, M, mu) = Ok (s1, t)).
  { unfold eiv_step_weighted.
    pose proof (input_error_eq spsolve T n x z M0 W W (2 * (n * T)) eq_refl Hx Hz (proj1 SM) HW HW) as E. cbv zeta in E. rewrite E. clear E.
    pose proof (length_rv T n x Hx) as La. pose proof (length_rv T n z Hz) as Lb. set (a := make_real_vector (vectorize_matrix x)) in *. set (b := make_real_vector (vectorize_matrix z)) in *.
    pose proof (shape_underline_y T n M0 (proj1 SM)) as HU. set (U := underline_y T M0) in *. pose proof (input_system _ U W HU PW) as IU.
    pose proof HU as (_ & RU & CU).
    assert (HS : shape (madd (mmul (mmul (tr U) W) U) W) (2 * (n * T)) (2 * (n * T))) by (split; [apply wf_mk|dims; split; congruence]).
    match goal with |- context [spsolve _ ?v] => assert (Lv : length v = (2 * (n * T))%nat) by (rewrite length_vsubt, length_mvmul; dims; congruence); destruct (Hc _ _ v HS Lv IU) as (da & Eda); destruct (Hs _ _ _ _ HS Lv Eda) as (Lda & _) end.
    rewrite Eda. cbn [bind]. destruct (real_matrix_form T n da Lda) as (C & HC & _ & E1 & E2). rewrite E1. cbn [bind]. rewrite E2. cbn [bind].
    pose proof HC as (_ & RC & CC). rewrite matmul_ok by (dims; congruence). cbn [bind].
    change (make_real_matrix (mmul (mkron (meye n) C) (cmat D))) with (regressor n C D).
    pose proof (shape_regressor n T x D P Hx SD) as (_ & R1 & C1). pose proof (shape_regressor n T C D P HC SD) as (_ & R2 & C2).
    rewrite R1, R2, C1, C2, !Nat.eqb_refl. cbn [andb bind]. rewrite (regressor_sub n T x C D P Hx HC SD).
    assert (Hxc : shape (msubt x C) T n) by (rewrite <- Rx, <- Cx; apply shape_mk).
    pose proof (shape_regressor n T _ D P Hxc SD) as HA. set (A := regressor n (msubt x C) D) in *. pose proof HA as (WA & HrA & HcA).
    destruct (tracks_inv (dense prior) T n P Hp Ha _ _ Ht) as ((HsM & _ & _) & Hlm & _). cbn [fst snd] in HsM, Hlm. pose proof HsM as (_ & RM & CM).
    rewrite matmul_ok by (dims; congruence). cbn [bind]. rewrite matmul_ok by (dims; congruence). cbn [bind].
    rewrite sp_add_ok by (dims; congruence). cbn [bind]. rewrite matvec_ok by (dims; congruence). cbn [bind].
    rewrite np_vadd_ok by (rewrite length_mvmul, length_vscal; dims; congruence). cbn [bind].
    match goal with |- context [solve_y _ _ _ _ ?S ?v] => destruct (solve_ok spsolve D A W M mu (2 * (n * T)) v M0 S (parameters lap M0) Hs Hc HD HA PSW Ht ltac:(rewrite length_vadd, length_mvmul; dims; congruence) eq_refl) as (u & s1 & pen & Es & Lu) end.
    change (e_lambda e) with lam in *. rewrite Es. cbn [bind].
    rewrite matvec_ok by congruence. cbn [bind]. rewrite np_vsub_ok by (rewrite length_mvmul; congruence). cbn [bind].
    rewrite matvec_ok by (rewrite length_vsubt; congruence). cbn [bind]. rewrite matvec_ok by congruence. cbn [bind]. eauto. }
  destruct R as (s1 & t & R).
  destruct (eivw_step_follow spsolve e (dense prior) D x z W W T n P (2 * (n * T)) eq_refl Hs Hprior Hp Ha Hl0 Hx Hz SD PSW PSW (parameters lap M0) (M0, M, mu) s1 t (Logic.conj Ht (proj1 SM)) R)
    as (u & (Ht1 & SY) & HB & C & HC & Et & BC & BM).
  cbn [fst snd] in BC. assert (TM : tr M0 = M0).
  { destruct SM as [(WM & RM & CM) S]. apply (gshape_ext _ _ n n); [split; [apply wf_mk|split; assumption]|split; auto|]. intros i j Hi Hj. rewrite get_tr by congruence. apply S; assumption. }
  rewrite TM in BC. change (e_lambda e) with lam in *.
  assert (Hxc : shape (msubt x C) T n) by (rewrite <- Rx, <- Cx; apply shape_mk).
  destruct (best_one W (msubt x C) z T D M0 u (fst (fst s1)) PSW Hxc Hz HD SM (proj1 Ht1) HB BM) as (AD & EP & B1 & B2).
  exists s1, (fst (fst s1)), C. split; [|split; [|split; [exact HC|]; split; [exact BC|]; split; [exact AD|]; split; [exact B1|exact B2]]].
  - rewrite R, Et. unfold eiv_target. rewrite EP. rewrite (sum_is lap n m al prior pf q G Hq (fst (fst s1)) (fst (fst s1)) (admissible_sym _ _ _ AD) (admissible_sym _ _ _ AD)). reflexivity.
  - split; [reflexivity|]. split; [apply (admissible_sym _ _ _ AD)|]. rewrite <- EP. exact Ht1.
Qed.

(** *** without weights *)
Lemma eivu_round : forall spsolve cabs (x z : mat CK) T D s M0, solver_sound spsolve -> solver_complete spsolve -> shape x T n -> shape z T n -> is_dt lap n D ->
  at_matrix n lap prior M0 s ->
  exists s1 M d, eiv_project n M0 x z = Ok d /\ shape (first_half n d) T n /\
    eiv_step_unweighted spsolve cabs e D x z (make_real_vector (vectorize_matrix z)) n s =
      Ok (s1, cabs (cre (fro2 (msubt z (mmul (first_half n d) M))) + vdot (vectorize_matrix (first_half n d)) (vectorize_matrix (first_half n d)) + cre (lam * q (fun _ => cost al) M M))) /\
    at_matrix n lap prior M s1 /\
    admissible lap n M /\ (forall M2, admissible lap n M2 -> value al lam q (first_half n d) z M0 M <=! value al lam q (first_half n d) z M0 M2) /\
    (forall M2, admissible lap n M2 -> value al lam q (first_half n d) z M0 M2 <=! value al lam q (first_half n d) z M0 M -> M2 = M).
Proof.
  intros spsolve cabs x z T D [[Y M] mu] M0 Hs Hc Hx Hz HD (EM & SM & Ht). cbn [fst] in EM. subst Y.
  pose proof (proj1 HD) as SD. pose proof SD as (WD & RD & CD). pose proof Hz as (Wz & Rz & Cz).
  destruct (p_project n T M0 x z (proj1 SM) Hx Hz) as (d & Hd & Hsd & _). pose proof Hsd as (_ & Rd & Cd). destruct (halves d T n Hsd) as (S1 & _ & _).
  assert (EF : first_half n d = mslice d 0 T 0 n) by (unfold first_half; rewrite Rd; reflexivity).
  set (xc := mslice d 0 T 0 n) in *. pose proof S1 as (_ & R1 & C1).
  assert (R : exists u s1, eiv_step_unweighted spsolve cabs e D x z (make_real_vector (vectorize_matrix z)) n (M0, M, mu) =
     Ok (s1, cabs (cre (fro2 (msubt z (mmul xc (fst (fst s1))))) + vdot (vectorize_matrix xc) (vectorize_matrix xc) + cre (lam * prior_sum (dense prior) u))) /\ length u = (2 * P)%nat /\ rebuild D n u = Ok (fst (fst s1))).
  { unfold eiv_step_unweighted. rewrite Hd. cbn [bind]. rewrite Rd. fold xc. rewrite matmul_ok by (dims; congruence). cbn [bind].
    change (make_real_matrix (mmul (mkron (meye n) xc) (cmat D))) with (regressor n xc D).
    pose proof (shape_regressor n T xc D P S1 SD) as HA. pose proof (fun u Y => real_misfit_fro n T xc z D P u Y S1 Hz SD) as RMF. cbv zeta in RMF. set (A := regressor n xc D) in *. pose proof HA as (WA & HrA & HcA).
    pose proof (length_rv T n z Hz) as Lb. set (b := make_real_vector (vectorize_matrix z)) in *.
    destruct (tracks_inv (dense prior) T n P Hp Ha _ _ Ht) as ((HsM & _ & _) & Hlm & _). cbn [fst snd] in HsM, Hlm. pose proof HsM as (_ & RM & CM).
    rewrite matmul_ok by reflexivity. cbn [bind]. rewrite sp_add_ok by (dims; congruence). cbn [bind]. rewrite matvec_ok by (dims; congruence). cbn [bind].
    rewrite np_vadd_ok by (rewrite length_mvmul, length_vscal; dims; congruence). cbn [bind].
    match goal with |- context [solve_y _ _ _ _ ?S ?v] => destruct (solve_ok spsolve D A (meye (2 * (n * T))) M mu (2 * (n * T)) v M0 S (parameters lap M0) Hs Hc HD HA (eye_psd _) Ht ltac:(rewrite length_vadd, length_mvmul; dims; congruence)) as (u & s1 & pen & Es & Lu) end.
    { change (e_lambda e) with lam. rewrite (mmul_1_r' (2 * (n * T)) (tr A) (wf_mk _ _ _) HrA). reflexivity. }
    change (e_lambda e) with lam in *. rewrite Es. cbn [bind]. apply solve_y_inv in Es. destruct Es as (_ & HB & Hpr). rewrite Hprior in Hpr.
    rewrite matvec_ok by congruence. cbn [bind]. rewrite np_vsub_ok by (rewrite length_mvmul; congruence). cbn [bind].
    exists u, s1. split; [|split; assumption]. rewrite (proj2 (RMF u _ Lu HB)).
    destruct (p_log_value (dense prior) (2 * P) u Hp Lu ltac:(lia)) as (M' & mu' & Hl & _). rewrite Hpr in Hl. assert (EP : pen = prior_sum (dense prior) u) by (inversion Hl; reflexivity). rewrite EP. reflexivity. }
  destruct R as (u & s1 & R & Lu & HB).
  destruct (eivu_step_follow spsolve cabs e (dense prior) D x z T n P (parameters lap M0) (M0, M, mu) s1 _ Hs Hprior Hp Ha Hl0 Hx Hz SD (Logic.conj Ht (proj1 SM)) R) as (u' & (Ht1 & SY) & HB' & d' & Hd' & _ & BM).
  cbn [fst snd] in Hd'. assert (d' = d) as ->. { assert (Q : forall a b : mat CK, Ok a = Ok b -> a = b) by (intros a b Q; congruence). apply Q. rewrite <- Hd', <- Hd. reflexivity. }
  change (e_lambda e) with lam in *. rewrite EF in *.
  assert (V : forall X, shape (msubt z (mmul xc X)) T n) by (intros X; rewrite <- Rz, <- Cz; apply shape_mk).
  assert (VE : forall a X, value_w (meye (2 * (n * T))) xc z a X = value al lam q xc z a X) by (intros a X; unfold value_w, value; rewrite (eye_norm T n _ (V X)); reflexivity).
  destruct (best_one (meye (2 * (n * T))) xc z T D M0 u' (fst (fst s1)) (eye_psd _) S1 Hz HD SM (proj1 Ht1) HB') as (AD & EP & B1 & B2).
  { intros v Yv Hv HYv. unfold eiv_objective. rewrite !(eye_norm T n _ (V _)). apply BM; assumption. }
  destruct (rebuild_params lap n D u _ HD Lu HB) as [_ EU].
  exists s1, (fst (fst s1)), d. rewrite EF. split; [exact Hd|]. split; [exact S1|]. split; [|split; [|split; [exact AD|]; split]].
  - rewrite R. rewrite EU at 1. rewrite (sum_is lap n m al prior pf q G Hq (fst (fst s1)) (fst (fst s1)) (admissible_sym _ _ _ AD) (admissible_sym _ _ _ AD)). reflexivity.
  - split; [reflexivity|]. split; [apply (admissible_sym _ _ _ AD)|]. rewrite <- EP. exact Ht1.
  - intros M2 H2. rewrite <- !VE. apply B1. exact H2.
  - intros M2 H2 L. rewrite <- !VE in L. apply B2; assumption.
Qed.
End Rounds.
End Equiv.
