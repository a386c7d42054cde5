(** Rows mixed by a complex unitary matrix, in particular another reference of the angles for every sample. *)
From Coq Require Import Bool Arith List Lia Ring Field.
From Verif Require Import BasePy BaseFld BaseOrd BaseSum BaseMat BaseNumpy BaseLin ModelMatrixOps ModelFit SpecMatrix SpecLS SpecFit ProofMatrixOps ProofLS ProofFitBase ProofFitOpt ProofFitEIV ProofOrder.
Import ListNotations.
Local Open Scope nat_scope.

Section Angle.
Context {K : Type} {O : Ops K} {F : Fld K} {O2 : OrdOps K} {OF : OrdFld K}.
Notation CK := (cplx K).
Add Field KfldAn : (@k_field K O F).
(** *** the same mixing applied to every channel *)
Section Mix.
Variables (T : nat) (q : mat CK).
Hypothesis (HQ : shape q T T) (UQ : mmul (ctr q) q = meye T).
Definition lifted (n : nat) : mat CK := mkron (meye n) q.
Definition big (n : nat) : mat K := make_real_matrix (lifted n).
Lemma shape_lifted : forall n, shape (lifted n) (n * T) (n * T).
Proof. intro n. destruct HQ as (_ & R & C). split; [apply wf_mk|]. unfold lifted, mkron. rewrite nr_mk, nc_mk, R, C. auto. Qed.
Lemma shape_big : forall n, shape (big n) (2 * (n * T)) (2 * (n * T)).
Proof. intro n. destruct (shape_lifted n) as (_ & R & C). pose proof (shape_make_real_matrix (lifted n)) as H. rewrite R, C in H. replace (2 * (n * T)) with (n * T + n * T) by lia. exact H. Qed.
Lemma big_orth : forall n, mmul (tr (big n)) (big n) = meye (2 * (n * T)).
Proof.
  intro n. unfold big. destruct (shape_lifted n) as (W & R & C). rewrite <- make_real_matrix_ctr by exact W.
  rewrite <- make_real_matrix_mmul by (try apply wf_mk; auto; cbn; congruence). unfold lifted. rewrite ctr_mkron, ctr_meye. destruct HQ as (_ & R1 & C1).
  rewrite mmul_mkron by (cbn; auto). rewrite UQ, mmul_1_l' by (try apply wf_mk; auto). rewrite mkron_eye, make_real_matrix_eye. f_equal. lia.
Qed.
(** *** data *)
Lemma mix_matrix : forall n x (D : mat CK), shape x T n -> nr D = n * n -> make_real_matrix (mmul (mkron (meye n) (mmul q x)) D) = mmul (big n) (make_real_matrix (mmul (mkron (meye n) x) D)).
Proof.
  intros n x D (WX & RX & CX) HD. destruct HQ as (WQ & RQ & CQ). assert (E : mkron (meye n) (mmul q x) = mmul (lifted n) (mkron (meye n) x)).
  { unfold lifted. rewrite mmul_mkron by (first [reflexivity|congruence]). rewrite mmul_1_l' by (try apply wf_mk; auto). reflexivity. }
  rewrite E. rewrite mmul_assoc; [|destruct (shape_lifted n) as (_ & _ & C); rewrite C; cbn; rewrite RX; reflexivity|cbn; rewrite CX; auto].
  unfold big. apply make_real_matrix_mmul; try apply wf_mk. destruct (shape_lifted n) as (_ & _ & C). rewrite C. cbn. rewrite RX. reflexivity.
Qed.
Lemma mix_vector : forall n z, shape z T n -> make_real_vector (vectorize_matrix (mmul q z)) = mvmul (big n) (make_real_vector (vectorize_matrix z)).
Proof.
  intros n z (WZ & RZ & CZ). destruct HQ as (WQ & RQ & CQ). unfold big, lifted. rewrite make_real_matrix_mvmul.
  - rewrite kron_eye_vec by (auto; congruence). reflexivity.
  - apply wf_mk.
  - change (nc (mkron (meye n) q)) with (n * nc q). rewrite length_vectorize, CQ, RZ, CZ. lia.
Qed.
Lemma length_stacked : forall n (z : mat CK), shape z T n -> length (make_real_vector (vectorize_matrix z)) = 2 * (n * T).
Proof. intros n z (_ & R & C). rewrite length_make_real_vector, length_vectorize, R, C. lia. Qed.
Lemma shape_mixed : forall n x, shape x T n -> shape (mmul q x) T n.
Proof. intros n x (_ & R & C). destruct HQ as (_ & RQ & CQ). apply shape_mmul with (m := T); auto. Qed.

Lemma br_mixed : forall sv (e : estimator K) n x z y0, shape x T n -> shape z T n -> br_fit sv e (mmul q x) (mmul q z) y0 = br_fit sv e x z y0.
Proof.
  intros sv e n x z y0 HX HZ. pose proof HX as (WX & RX & CX). unfold br_fit, fit_init. change (nc (mmul q x)) with (nc x). rewrite CX.
  destruct (e_dt e n) as [DT|]; [|reflexivity]. cbn [bind]. destruct (e_el e n) as [El|]; [|reflexivity]. cbn [bind].
  unfold matmul at 1 2. change (nc (mkron (meye n) (mmul q x))) with (n * nc x). change (nc (mkron (meye n) x)) with (n * nc x). rewrite CX.
  destruct (n * n =? nr (cmat DT)) eqn:ED; [|reflexivity]. apply Nat.eqb_eq in ED. cbn [bind].
  destruct (matvec (cmat El) (vectorize_matrix y0)) as [vy|]; [|reflexivity]. cbn [bind]. destruct (e_prior e (make_real_vector vy)) as [[[M mu] pen]|]; [|reflexivity]. cbn [bind].
  f_equal. rewrite (mix_matrix n x (cmat DT) HX (eq_sym ED)), (mix_vector n z HZ).
  apply (loop_ext _ _ _ _ (fun _ => True)); auto. intros s _. apply (br_step_mixed sv e DT (2 * (n * T)) (big n) _ _ n s (nc (cmat DT) + nc (cmat DT))).
  - apply shape_big.
  - apply big_orth.
  - pose proof (shape_make_real_matrix (mmul (mkron (meye n) x) (cmat DT))) as H. cbn [nr nc mmul mk mkron meye] in H. rewrite RX in H. replace (2 * (n * T)) with (n * T + n * T) by lia. exact H.
  - apply length_stacked. exact HZ.
Qed.

(** *** the weighted error-in-variables estimator *)
Definition turned (n : nat) (W : mat K) : mat K := mmul (mmul (big n) W) (tr (big n)).

Section Fixed.
Variables (n : nat).
Let N := 2 * (n * T).
Let B := big n.
Lemma HB : shape B N N. Proof. exact (shape_big n). Qed.
Lemma OB : mmul (tr B) B = meye N. Proof. exact (big_orth n). Qed.
Lemma rB : nr B = N. Proof. apply HB. Qed.
Lemma cB : nc B = N. Proof. apply HB. Qed.
Lemma HtB : shape (tr B) N N. Proof. split; [apply wf_mk|]. split; [exact cB|exact rB]. Qed.
Lemma rtB : nr (tr B) = N. Proof. apply HtB. Qed.
Lemma ctB : nc (tr B) = N. Proof. apply HtB. Qed.
Lemma shape_turned : forall W, shape (turned n W) N N.
Proof. intro W. apply shape_mmul with (m := nc W); [exact rB|exact rB|reflexivity]. Qed.
(** products with the turned weight *)
Lemma turned_vec : forall W v, shape W N N -> length v = N -> mvmul (turned n W) (mvmul B v) = mvmul B (mvmul W v).
Proof.
  intros W v (WW & RW & CW) L. unfold turned. fold B. rewrite mvmul_assoc by (rewrite rtB; exact CW). rewrite (orth_back N B HB OB v L). rewrite mvmul_assoc by (rewrite cB; auto). reflexivity.
Qed.
Lemma commute_tr : forall Z, shape Z N N -> mmul Z B = mmul B Z -> mmul Z (tr B) = mmul (tr B) Z.
Proof.
  intros Z (WZ & RZ & CZ) H. pose proof rB. pose proof cB. pose proof rtB. pose proof ctB.
  rewrite <- (mmul_1_l' N (mmul Z (tr B))) by (try apply wf_mk; exact RZ). rewrite <- OB. rewrite mmul_assoc by (cbn [nr mmul mk]; congruence). rewrite <- (mmul_assoc B Z (tr B)) by congruence. rewrite <- H.
  rewrite (mmul_assoc Z B (tr B)) by congruence. rewrite (orth_right N B HB OB). rewrite <- CZ, mmul_1_r by exact WZ. reflexivity.
Qed.
Lemma commute_u : forall Y : mat CK, shape Y n n -> mmul (underline_y T Y) B = mmul B (underline_y T Y).
Proof.
  intros Y HY. pose proof HY as (WY & RY & CY). rewrite (underline_y_real T n Y HY). unfold B, big, lifted. destruct (HQ) as (WQ & RQ & CQ).
  rewrite <- !make_real_matrix_mmul; try apply wf_mk.
  - rewrite !mmul_mkron by (first [reflexivity|cbn [nc nr meye mk]; congruence]). rewrite !mmul_1_l' by (first [assumption|apply wf_mk|congruence]). rewrite !mmul_1_r' by (first [assumption|apply wf_mk|congruence]). reflexivity.
  - cbn [nc nr mkron meye mk]. change (nc (mkron (meye n) q)) with (n * nc q). change (nr (mkron Y (meye T))) with (nr Y * T). rewrite CQ, RY. reflexivity.
  - change (nc (mkron Y (meye T))) with (nc Y * T). change (nr (mkron (meye n) q)) with (n * nr q). rewrite RQ, CY. reflexivity.
Qed.
Lemma commute_tu : forall Y : mat CK, shape Y n n -> mmul (tr (underline_y T Y)) B = mmul B (tr (underline_y T Y)).
Proof.
  intros Y HY. assert (E : tr (underline_y T Y) = underline_y T (ctr Y)).
  { rewrite (underline_y_real T n Y HY), (underline_y_real T n (ctr Y) (shape_ctr Y n n HY)). rewrite <- make_real_matrix_ctr by apply wf_mk. rewrite ctr_mkron, ctr_meye. reflexivity. }
  rewrite E. apply commute_u. apply shape_ctr. exact HY.
Qed.
(** conjugation by [B] *)
Definition con (Z : mat K) : mat K := mmul (mmul B Z) (tr B).
Lemma con_mmul_r : forall X Z, shape X N N -> shape Z N N -> mmul Z B = mmul B Z -> mmul (con X) Z = con (mmul X Z).
Proof.
  intros X Z HX HZ C. pose proof HX as (WX & RX & CX). pose proof HZ as (WZ & RZ & CZ). pose proof rB. pose proof cB. pose proof rtB. pose proof ctB. unfold con.
  rewrite mmul_assoc by (cbn [nr nc mmul mk]; congruence). rewrite <- (commute_tr Z HZ C). rewrite <- !mmul_assoc by (cbn [nr nc mmul mk]; congruence). reflexivity.
Qed.
Lemma con_mmul_l : forall X Z, shape X N N -> shape Z N N -> mmul Z B = mmul B Z -> mmul Z (con X) = con (mmul Z X).
Proof.
  intros X Z HX HZ C. pose proof HX as (WX & RX & CX). pose proof HZ as (WZ & RZ & CZ). pose proof rB. pose proof cB. pose proof rtB. pose proof ctB. unfold con.
  rewrite <- mmul_assoc by (cbn [nr nc mmul mk]; congruence). rewrite <- (mmul_assoc Z B X) by congruence. rewrite C. rewrite (mmul_assoc B Z X) by congruence. reflexivity.
Qed.
Lemma con_madd : forall X Z, shape X N N -> shape Z N N -> madd (con X) (con Z) = con (madd X Z).
Proof.
  intros X Z (WX & RX & CX) (WZ & RZ & CZ). pose proof rB. pose proof cB. pose proof rtB. pose proof ctB. unfold con.
  rewrite <- mmul_madd_l by (cbn [nr nc mmul mk]; congruence). rewrite <- mmul_madd_r by congruence. reflexivity.
Qed.
Lemma con_vec : forall X v, shape X N N -> length v = N -> mvmul (con X) (mvmul B v) = mvmul B (mvmul X v).
Proof. exact turned_vec. Qed.
Lemma shape_con : forall X, shape (con X) N N.
Proof. exact shape_turned. Qed.
Lemma con_inj : forall X, shape X N N -> inj X -> inj (con X).
Proof.
  intros X HX HI v Lv H. pose proof HX as (WX & RX & CX). pose proof rB. pose proof cB. pose proof rtB. pose proof ctB. assert (L : length v = N) by (rewrite Lv; apply (shape_con X)).
  assert (E : v = mvmul B (mvmul (tr B) v)) by (symmetry; apply (orth_back' N B HB OB); exact L). set (w := mvmul (tr B) v) in *. assert (Lw : length w = N) by (unfold w; rewrite length_mvmul; exact rtB).
  rewrite E in H. rewrite con_vec in H by assumption. assert (Z : mvmul X w = vzeros N).
  { rewrite <- (orth_back N B HB OB (mvmul X w)) by (rewrite length_mvmul; exact RX). rewrite H. replace (nr (con X)) with N by (symmetry; apply (shape_con X)). rewrite mvmul_vzeros. f_equal. exact rtB. }
  rewrite E. rewrite (HI w) by (rewrite ?CX, ?RX; assumption). rewrite mvmul_vzeros. rewrite rB. f_equal; symmetry; apply (shape_con X).
Qed.

Variables (sv : mat K -> list K -> res (list K)).
Hypothesis (SS : solver_sound sv) (SC : solver_complete sv).
Lemma sys_inj : forall (U W : mat K), shape U N N -> posdef N W -> inj (madd (mmul (mmul (tr U) W) U) W).
Proof.
  intros U W (WU & RU & CU) ((HW & SW & PW) & DW) v Lv H. pose proof HW as (WW & RW & CW). assert (L : length v = N) by (rewrite Lv; cbn; exact CU).
  assert (SH : shape (mmul (mmul (tr U) W) U) N N) by (apply shape_mmul with (m := N); auto).
  rewrite mvmul_madd in H by (destruct SH as (_ & R1 & C1); congruence).
  assert (E : vdot v (vadd (mvmul (mmul (mmul (tr U) W) U) v) (mvmul W v)) = 0%K).
  { rewrite H. unfold vdot. apply sumn_zero. intros i Hi. rewrite vget_vzeros. ring. }
  rewrite vdot_vadd_r in E by (rewrite ?length_mvmul; destruct SH as (_ & R1 & C1); congruence).
  rewrite mvmul_assoc in E by (cbn; congruence). rewrite mvmul_assoc in E by (cbn; congruence).
  assert (Q1 : vdot v (mvmul (tr U) (mvmul W (mvmul U v))) = vdot (mvmul U v) (mvmul W (mvmul U v))).
  { rewrite vdot_mvmul by (rewrite ?length_mvmul; cbn; congruence). rewrite tr_tr by exact WU. reflexivity. }
  rewrite Q1 in E. assert (P1 := PW (mvmul U v) ltac:(rewrite length_mvmul; exact RU)). assert (P2 := PW v L).
  destruct (kle_add_zero _ _ P1 P2 E) as [_ Z].
  rewrite (DW v L Z). f_equal. cbn. rewrite CU. reflexivity.
Qed.
Lemma input_error_mixed : forall (Y x z : mat CK) W, shape x T n -> shape z T n -> shape Y n n -> posdef N W ->
  let a := make_real_vector (vectorize_matrix x) in let b := make_real_vector (vectorize_matrix z) in
  exists da, length da = N /\ input_error sv T Y W W a b = Ok da /\
    input_error sv T Y (turned n W) (turned n W) (mvmul B a) (mvmul B b) = Ok (mvmul B da).
Proof.
  intros Y x z W HX HZ HY PW. cbv zeta. pose proof PW as ((HW & SW & _) & _). destruct (HQ) as (WQ & RQ & CQ).
  assert (HX' : shape (mmul q x) T n) by (apply shape_mmul with (m := T); [exact RQ|apply HX|exact CQ]).
  assert (HZ' : shape (mmul q z) T n) by (apply shape_mmul with (m := T); [exact RQ|apply HZ|exact CQ]).
  pose proof (input_error_eq sv T n x z Y W W N eq_refl HX HZ HY HW HW) as E. pose proof (input_error_eq sv T n _ _ Y (turned n W) (turned n W) N eq_refl HX' HZ' HY (shape_turned W) (shape_turned W)) as E'.
  cbv zeta in E, E'. rewrite (mix_vector n x HX), (mix_vector n z HZ) in E'. fold B in E'. rewrite E, E'. clear E E'.
  pose proof (length_rv T n x HX) as La. pose proof (length_rv T n z HZ) as Lb. fold N in La, Lb.
  set (a := make_real_vector (vectorize_matrix x)) in *. set (b := make_real_vector (vectorize_matrix z)) in *.
  pose proof (shape_underline_y T n Y HY) as HU. fold N in HU. pose proof (commute_u Y HY) as CU. pose proof (commute_tu Y HY) as CT. set (U := underline_y T Y) in *.
  assert (HTU : shape (tr U) N N) by (destruct HU as (_ & R1 & C1); split; [apply wf_mk|]; split; [exact C1|exact R1]).
  change (turned n W) with (con W). rewrite (con_mmul_l W (tr U) HW HTU CT).
  assert (H1 : shape (mmul (tr U) W) N N) by (apply shape_mmul with (m := N); [apply HTU|apply HW|apply HTU]).
  rewrite (con_mmul_r _ U H1 HU CU). assert (H2 : shape (mmul (mmul (tr U) W) U) N N) by (apply shape_mmul with (m := N); [apply H1|apply HU|apply H1]).
  rewrite (con_madd _ _ H2 HW). rewrite (con_vec _ a H2 La), (con_vec _ b H1 Lb). rewrite <- mvmul_vsubt by (rewrite !length_mvmul; first [rewrite cB; symmetry; apply H2|destruct H1, H2; lia]).
  pose proof (sys_inj U W HU PW) as HI. set (S := madd (mmul (mmul (tr U) W) U) W) in *. assert (HS : shape S N N) by (split; [apply wf_mk|split; [apply H2|apply H2]]).
  set (v := vsubt (mvmul (mmul (mmul (tr U) W) U) a) (mvmul (mmul (tr U) W) b)). assert (Lv : length v = N) by (unfold v; rewrite length_vsubt, length_mvmul; apply H2).
  destruct (SC S N v HS Lv HI) as [da Eda]. destruct (SS S N v da HS Lv Eda) as [Lda Sda].
  assert (LBv : length (mvmul B v) = N) by (rewrite length_mvmul; exact rB).
  destruct (SC (con S) N (mvmul B v) (shape_con S) LBv (con_inj S HS HI)) as [da' Eda']. destruct (SS (con S) N _ da' (shape_con S) LBv Eda') as [Lda' Sda'].
  exists da. split; [exact Lda|]. split; [exact Eda|]. rewrite Eda'. f_equal. apply (inj_cancel (con S)); [exact (con_inj S HS HI)|rewrite Lda'; symmetry; apply (shape_con S)|rewrite length_mvmul, rB; symmetry; apply (shape_con S)|].
  rewrite Sda', (con_vec S da HS Lda), Sda. reflexivity.
Qed.
Lemma weighted_mixed : forall (e : estimator K) DT x z Y M mu W, shape x T n -> shape z T n -> shape Y n n -> posdef N W -> nr DT = n * n ->
  let a := make_real_vector (vectorize_matrix x) in let b := make_real_vector (vectorize_matrix z) in let A := make_real_matrix (mmul (mkron (meye n) x) (cmat DT)) in
  eiv_step_weighted sv e DT (mmul B A) (turned n W) (turned n W) (mvmul B a) (mvmul B b) T n (Y, M, mu) = eiv_step_weighted sv e DT A W W a b T n (Y, M, mu).
Proof.
  intros e DT x z Y M mu W HX HZ HY PW RD. cbv zeta. destruct (input_error_mixed Y x z W HX HZ HY PW) as (da & Lda & E1 & E2). unfold eiv_step_weighted. rewrite E1, E2. cbn [bind].
  pose proof (length_rv T n x HX) as La. pose proof (length_rv T n z HZ) as Lb. fold N in La, Lb.
  set (a := make_real_vector (vectorize_matrix x)) in *. set (b := make_real_vector (vectorize_matrix z)) in *.
  pose proof PW as ((HW & SW & _) & _). pose proof HW as (WW & RW & CW).
  destruct (real_matrix_form T n da Lda) as (D & HD & ED & EC & EU). destruct (real_matrix_form T n (mvmul B da)) as (D' & HD' & ED' & EC' & EU'); [rewrite length_mvmul; exact rB|].
  assert (HQD : shape (mmul q D) T n) by (destruct (HQ) as (WQ & RQ & CQ); apply shape_mmul with (m := T); [exact RQ|apply HD|exact CQ]).
  assert (DD : D' = mmul q D).
  { assert (X : make_complex_vector (mvmul B da) = Ok (vectorize_matrix (mmul q D))) by (rewrite ED; unfold B; rewrite <- (mix_vector n D HD); apply make_complex_real).
    rewrite EC' in X. injection X as X. rewrite X in EU'. pose proof (unvectorize_vectorize (mmul q D) ltac:(apply HQD)) as Y1. destruct HQD as (_ & R1 & C1). rewrite R1, C1 in Y1. rewrite Y1 in EU'. injection EU' as <-. reflexivity. }
  rewrite EC, EC'. cbn [bind]. rewrite EU, EU', DD. cbn [bind]. clear D' DD HD' ED' EC' EU'.
  assert (X : forall E' : mat CK, nc E' = n -> matmul (mkron (meye n) E') (cmat DT) = Ok (mmul (mkron (meye n) E') (cmat DT))).
  { intros E' H. unfold matmul. change (nc (mkron (meye n) E')) with (n * nc E'). change (nr (cmat DT)) with (nr DT). rewrite H, RD, Nat.eqb_refl. reflexivity. }
  rewrite (X (mmul q D)) by (apply HD). rewrite (X D) by (apply HD). cbn [bind].
  assert (RD' : nr (cmat DT) = n * n) by exact RD. rewrite (mix_matrix n D (cmat DT) HD RD'). fold B.
  set (c := nc (cmat DT) + nc (cmat DT)).
  assert (HA : forall x0 : mat CK, shape x0 T n -> shape (make_real_matrix (mmul (mkron (meye n) x0) (cmat DT))) N c).
  { intros x0 (_ & R0 & _). pose proof (shape_make_real_matrix (mmul (mkron (meye n) x0) (cmat DT))) as H. cbn [nr nc mmul mk mkron meye] in H. rewrite R0 in H. unfold N. replace (2 * (n * T)) with (n * T + n * T) by lia. exact H. }
  pose proof (HA x HX) as HAx. pose proof (HA D HD) as HAd. clear HA. set (A := make_real_matrix (mmul (mkron (meye n) x) (cmat DT))) in *. set (dA := make_real_matrix (mmul (mkron (meye n) D) (cmat DT))) in *.
  destruct HAx as (WA & RA & CA). destruct HAd as (WdA & RdA & CdA).
  change (nr (mmul B A)) with (nr B). change (nc (mmul B A)) with (nc A). change (nr (mmul B dA)) with (nr B). change (nc (mmul B dA)) with (nc dA). rewrite RA, CA, RdA, CdA, !Nat.eqb_refl. cbn [andb bind].
  rewrite <- mmul_msubt_r by (first [congruence|rewrite cB; congruence]). set (R := msubt A dA). assert (HR : shape R N c) by (split; [apply wf_mk|split; [exact RA|exact CA]]). pose proof HR as (WR & RR & CR).
  pose proof (shape_turned W) as (WT & RT & CT). pose proof rB as rB'. pose proof cB as cB'. pose proof rtB as rtB'. pose proof ctB as ctB'.
  assert (AZ : mmul (tr (mmul B R)) (turned n W) = mmul (mmul (tr R) W) (tr B)).
  { unfold turned. fold B. rewrite tr_mmul by congruence. rewrite (mmul_assoc (tr R) (tr B) _) by (change (nc (tr R)) with (nr R); change (nr (mmul (mmul B W) (tr B))) with (nr B); congruence).
    rewrite <- (mmul_assoc (tr B) (mmul B W) (tr B)) by (change (nr (mmul B W)) with (nr B); change (nc (mmul B W)) with (nc W); congruence). rewrite <- (mmul_assoc (tr B) B W) by congruence. rewrite OB.
    rewrite mmul_1_l' by (first [exact WW|congruence]). rewrite <- mmul_assoc by (change (nc (tr R)) with (nr R); congruence). reflexivity. }
  rewrite (matmul_ok K O (tr (mmul B R))) by (change (nc (tr (mmul B R))) with (nr B); congruence). rewrite (matmul_ok K O (tr R)) by (change (nc (tr R)) with (nr R); congruence). cbn [bind]. rewrite AZ. set (Z := mmul (tr R) W).
  assert (HZs : nc Z = N) by exact CW.
  rewrite (matmul_ok K O (mmul Z (tr B))) by (change (nc (mmul Z (tr B))) with (nr B); reflexivity). rewrite (matmul_ok K O Z R) by congruence. cbn [bind].
  assert (AZA : mmul (mmul Z (tr B)) (mmul B R) = mmul Z R).
  { rewrite (mmul_assoc Z) by (change (nr (mmul B R)) with (nr B); congruence). rewrite <- (mmul_assoc (tr B) B R) by congruence. rewrite OB, mmul_1_l' by (first [exact WR|congruence]). reflexivity. }
  rewrite AZA. destruct (sp_add (mmul Z R) (mscal (e_lambda e) M)) as [iASA|]; [|reflexivity]. cbn [bind].
  rewrite (matvec_ok K O (mmul Z (tr B))) by (rewrite length_mvmul; reflexivity). rewrite (matvec_ok K O Z b) by (rewrite HZs, Lb; reflexivity). cbn [bind].
  assert (AZB : mvmul (mmul Z (tr B)) (mvmul B b) = mvmul Z b) by (rewrite mvmul_assoc by congruence; rewrite (orth_back N B HB OB b Lb); reflexivity).
  rewrite AZB. destruct (np_vadd (mvmul Z b) (vscal (e_lambda e) mu)) as [ASb|]; [|reflexivity]. cbn [bind].
  destruct (solve_y sv e DT n iASA ASb) as [[[u s'] pen]|]; [|reflexivity]. cbn [bind].
  unfold matvec at 1 4. change (nc (mmul B R)) with (nc R). destruct (nc R =? length u) eqn:EUu; [|reflexivity]. apply Nat.eqb_eq in EUu. cbn [bind].
  rewrite mvmul_assoc by congruence.
  rewrite (np_vsub_ok (mvmul B b)) by (rewrite !length_mvmul; auto). rewrite (np_vsub_ok b) by (rewrite length_mvmul, RR; exact Lb). cbn [bind].
  rewrite <- mvmul_vsubt by (rewrite ?length_mvmul, ?RR, ?Lb; auto). set (db := vsubt b (mvmul R u)). assert (Ldb : length db = N) by (unfold db; rewrite length_vsubt; exact Lb).
  rewrite (matvec_ok K O (turned n W) (mvmul B db)) by (rewrite length_mvmul, rB'; exact CT). rewrite (matvec_ok K O (turned n W) (mvmul B da)) by (rewrite length_mvmul, rB'; exact CT). rewrite (matvec_ok K O W db) by (rewrite Ldb; exact CW). rewrite (matvec_ok K O W da) by (rewrite Lda; exact CW). cbn [bind].
  rewrite (turned_vec W db HW Ldb), (turned_vec W da HW Lda). assert (Ldot : forall p r, length p = N -> length r = N -> vdot (mvmul B p) (mvmul B r) = vdot p r).
  { intros p r Lp Lr. rewrite vdot_mvmul by (rewrite ?length_mvmul, ?rB', ?cB'; auto). rewrite (orth_back N B HB OB p Lp). reflexivity. }
  rewrite (Ldot db) by (rewrite ?length_mvmul; auto). rewrite (Ldot da) by (rewrite ?length_mvmul; auto). reflexivity.
Qed.
End Fixed.
Lemma eiv_mixed_weighted : forall sv ca (e : estimator K) n x z y0 W w w', solver_sound sv -> solver_complete sv -> shape x T n -> shape z T n -> shape y0 n n -> posdef (2 * (n * T)) W ->
  eiv_fit sv ca e (mmul q x) (mmul q z) (Some (turned n W)) (Some w') y0 = eiv_fit sv ca e x z (Some W) (Some w) y0.
Proof.
  intros sv ca e n x z y0 W w w' SS SC HX HZ HY PW. pose proof HX as (WX & RX & CX). unfold eiv_fit, fit_init. change (nc (mmul q x)) with (nc x). change (nr (mmul q x)) with (nr q). rewrite CX.
  destruct (e_dt e n) as [DT|]; [|reflexivity]. cbn [bind]. destruct (e_el e n) as [El|]; [|reflexivity]. cbn [bind].
  unfold matmul at 1 2. change (nc (mkron (meye n) (mmul q x))) with (n * nc x). change (nc (mkron (meye n) x)) with (n * nc x). rewrite CX.
  destruct (n * n =? nr (cmat DT)) eqn:ED; [|reflexivity]. apply Nat.eqb_eq in ED. cbn [bind].
  destruct (matvec (cmat El) (vectorize_matrix y0)) as [vy|]; [|reflexivity]. cbn [bind]. destruct (e_prior e (make_real_vector vy)) as [[[M mu] pen]|]; [|reflexivity]. cbn [bind].
  cbn [eiv_z_weight].
  f_equal. rewrite (mix_matrix n x (cmat DT) HX (eq_sym ED)), (mix_vector n x HX), (mix_vector n z HZ). replace (nr q) with T by (symmetry; apply HQ). rewrite RX.
    apply (loop_ext _ _ _ _ (fun s => shape (fst (fst s)) n n)); [| |exact HY].
    + intros [[Y M'] mu'] HS. apply weighted_mixed; auto.
    + intros [[Y M'] mu'] s' t HS H. unfold eiv_step_weighted in H.
      repeat (let q := fresh "q" in let Hq := fresh "Hq" in apply bind_ok in H; destruct H as (q & Hq & H)). 
      match goal with q : (list K * lstate K * K)%type, Hq : solve_y _ _ _ _ _ _ = Ok ?q0 |- _ => destruct q0 as [[u s0] pen0]; unfold solve_y in Hq end.
      repeat (let q := fresh "q" in let Hq := fresh "Hq" in apply bind_ok in H; destruct H as (q & Hq & H)). injection H as <- _.
      match goal with Hq : bind (sv _ _) _ = _ |- _ => rename Hq into HH end. apply bind_ok in HH. destruct HH as (yy & _ & HH). apply bind_ok in HH. destruct HH as (Y1 & HR & HH). apply bind_ok in HH. destruct HH as ([[M1 mu1] p1] & _ & HH). injection HH as _ <- _. cbn [fst]. apply (rebuild_ok _ _ _ _ HR).
Qed.
End Mix.
End Angle.
