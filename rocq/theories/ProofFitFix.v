(** Error-in-variables fit: projection of the data, noise-free data. *)
From Coq Require Import Arith ZArith Lia List Bool Ring Field.
From Verif Require Import BasePy BaseFld BaseSum BaseMat BaseNumpy BaseOrd BaseLin ModelMatrixOps SpecMatrix SpecLS
  ModelPrior SpecPrior ProofPrior ProofMatrixOps ProofStruct ProofMatrixProps ProofLS ModelFit SpecFit ProofFitBase ProofFit ProofFitOpt ProofFitBR ProofFitEIV.
Import ListNotations.
Local Open Scope K_scope.

Section Fix_.
Context {K : Type} {O : Ops K} {F : Fld K} {O2 : OrdOps K} {OF : OrdFld K}.
Notation CK := (cplx K).
Add Field Kfld : (@k_field K O F).
Add Field CKfld : (@k_field CK _ _).

(** *** Projection *)
Definition nullsp (n : nat) (Y : mat CK) : mat CK := vstack2 Y (mopp (meye n)).

Lemma shape_nullsp : forall n Y, shape Y n n -> shape (nullsp n Y) (2 * n) n.
Proof. intros n Y (_ & R & C). split; [apply wf_mk|]. cbn [nullsp vstack2 nr nc mk mopp meye]. split; lia. Qed.

Lemma hstack_null : forall n T (x z Y : mat CK), shape x T n -> shape z T n -> shape Y n n ->
  mmul (hstack2 x z) (nullsp n Y) = msubt (mmul x Y) z.
Proof.
  intros n T x z Y (_ & Rx & Cx') (Hwz & Rz & Cz) (_ & RY & CY). unfold nullsp.
  rewrite mmul_hv by (cbn [nr nc mopp mk meye]; congruence).
  rewrite mmul_mopp_r by (cbn [nr nc mopp mk meye]; congruence). rewrite mmul_1_r' by assumption.
  apply (gshape_ext _ _ T n); [rewrite <- Rx; rewrite <- CY; apply shape_mk|rewrite <- Rx; rewrite <- CY; apply shape_mk|].
  intros i j Hi Hj. rewrite get_madd by (dims; congruence). rewrite get_msubt by (dims; congruence).
  rewrite get_mopp by (dims; congruence). ring.
Qed.

Lemma nullsp_inj : forall n Y, shape Y n n -> inj (nullsp n Y).
Proof.
  intros n Y HY v. pose proof (shape_nullsp n Y HY) as (_ & RN & CN). rewrite RN, CN. intros Hv H.
  apply vec_ext; [rewrite length_vzeros; exact Hv|]. rewrite Hv. intros i Hi. rewrite vget_vzeros.
  pose proof (f_equal (fun u => vget u (n + i)%nat) H) as E. cbv beta in E. rewrite vget_vzeros in E.
  rewrite vget_mvmul in E by (rewrite RN; lia). rewrite CN in E. destruct HY as (_ & RY & CY).
  rewrite (sumn_ext n _ (fun k => (if (i =? k)%nat then 1 else 0) * (- vget v k))) in E.
  - rewrite sumn_delta_l in E by exact Hi. transitivity (- (- vget v i)); [ring|rewrite E; ring].
  - intros k Hk. unfold nullsp. replace (n + i)%nat with (nr Y + i)%nat by congruence.
    rewrite (get_vstack2_r Y (mopp (meye n))) by (cbn [nr nc mopp mk meye]; congruence).
    rewrite get_mopp by (cbn [nr nc mopp mk meye]; congruence).
    rewrite get_meye by assumption. destruct (i =? k)%nat; ring.
Qed.


Lemma halves : forall (d : mat CK) T n, shape d T (2 * n) ->
  shape (mslice d 0 T 0 n) T n /\ shape (mslice d 0 T n (2 * n)) T n /\
  hstack2 (mslice d 0 T 0 n) (mslice d 0 T n (2 * n)) = d.
Proof.
  intros d T n (Hw & R & C).
  assert (S1 : shape (mslice d 0 T 0 n) T n).
  { split; [apply wf_mk|]. cbn [mslice nr nc mk]. lia. }
  assert (S2 : shape (mslice d 0 T n (2 * n)) T n).
  { split; [apply wf_mk|]. cbn [mslice nr nc mk]. lia. }
  split; [exact S1|]. split; [exact S2|].
  destruct S1 as (_ & R1 & C1). destruct S2 as (_ & R2 & C2).
  apply (gshape_ext _ _ T (2 * n)); [split; [apply wf_mk|cbn [hstack2 nr nc mk]; lia]|split; auto|].
  intros i j Hi Hj. rewrite get_hstack2 by lia. rewrite C1.
  destruct (Nat.ltb_spec j n).
  - unfold mslice. rewrite get_mk by lia. f_equal; lia.
  - unfold mslice. rewrite get_mk by lia. f_equal; lia.
Qed.

Lemma flow_null : forall (d Y : mat CK) T n, shape d T (2 * n) -> shape Y n n ->
  (satisfies_flow n Y d <-> mmul d (nullsp n Y) = mzeros T n).
Proof.
  intros d Y T n Hd HY. destruct (halves d T n Hd) as (S1 & S2 & E). pose proof Hd as (_ & R & C).
  unfold satisfies_flow. rewrite R. rewrite <- E at 3. rewrite (hstack_null n T) by assumption.
  pose proof S1 as (_ & R1 & C1). pose proof HY as (_ & RY & CY).
  assert (S3 : shape (mmul (mslice d 0 T 0 n) Y) T n) by (apply (shape_mmul _ _ T n n); assumption).
  split.
  - intros ->. apply (gshape_ext _ _ T n); [split; [apply wf_mk|cbn [msubt nr nc mk]; destruct S2 as (_ & ? & ?); auto]|apply shape_mk|].
    intros i j Hi Hj. rewrite get_msubt by (destruct S2 as (_ & R2 & C2); rewrite ?R2, ?C2; assumption). unfold mzeros. rewrite get_mk by assumption. ring.
  - intros H. exact (msubt_eq0 _ _ T n S3 S2 H).
Qed.

Theorem p_project : forall n T (Y x z : mat CK), shape Y n n -> shape x T n -> shape z T n ->
  exists d, eiv_project n Y x z = Ok d /\ shape d T (2 * n) /\
    satisfies_flow n Y d /\
    (z = mmul x Y -> d = hstack2 x z) /\
    (forall q, shape q T (2 * n) -> satisfies_flow n Y q ->
       fro2 (msubt (hstack2 x z) q) = fro2 (msubt (hstack2 x z) d) + fro2 (msubt d q)).
Proof.
  intros n T Y x z HY Hx Hz. pose proof HY as (_ & RY & CY). pose proof Hx as (_ & Rx & Cx'). pose proof Hz as (_ & Rz & Cz).
  unfold eiv_project. rewrite CY, Nat.eqb_refl. cbn [negb]. fold (nullsp n Y).
  pose proof (shape_nullsp n Y HY) as HN. set (N := nullsp n Y) in *. pose proof HN as (HwN & RN & CN).
  pose proof (shape_ctr N _ _ HN) as (HwNh & RNh & CNh).
  rewrite matmul_ok by congruence. cbn [bind].
  assert (HG : shape (mmul (ctr N) N) n n) by (apply (shape_mmul _ _ n (2 * n) n); congruence).
  assert (HGi : inj (mmul (ctr N) N)) by (apply (gram_inj N (2 * n) n HN); apply nullsp_inj; exact HY).
  destruct (inj_kinverse _ n HG HGi) as (B & HB). rewrite HB. cbn [bind].
  destruct (kinverse_sound _ n B HG HB) as (HsB & EGB & EBG). pose proof HsB as (_ & RB & CB).
  rewrite matmul_ok by congruence. cbn [bind]. rewrite matmul_ok by (dims; congruence). cbn [bind].
  dims. rewrite RN, CNh, !Nat.eqb_refl. cbn [andb bind]. rewrite Rx, Rz, Nat.eqb_refl. cbn [bind].
  set (Q := mmul (mmul N B) (ctr N)).
  assert (HQ : shape Q (2 * n) (2 * n)) by (apply (shape_mmul _ _ (2 * n) n (2 * n)); dims; congruence).
  pose proof HQ as (HwQ & RQ & CQ).
  set (D := hstack2 x z). assert (HD : shape D T (2 * n)) by (split; [apply wf_mk|unfold D; cbn [hstack2 nr nc mk]; lia]).
  pose proof HD as (HwD & RD & CD).
  rewrite matmul_ok by (cbn [msubt nr nc mk meye]; congruence).
  set (Pm := msubt (meye (2 * n)) Q). assert (HP : shape Pm (2 * n) (2 * n)) by apply shape_mk.
  pose proof HP as (HwP & RP & CP).
  assert (EQN : mmul Q N = N).
  { unfold Q. rewrite (mmul_assoc (mmul N B)) by (dims; congruence). rewrite mmul_assoc by (dims; congruence).
    rewrite EBG. rewrite mmul_1_r' by assumption. reflexivity. }
  assert (EPN : mmul Pm N = mzeros (2 * n) n).
  { unfold Pm. rewrite mmul_msubt_l by (cbn [meye mk nr nc]; congruence). rewrite mmul_1_l', EQN by assumption.
    apply (gshape_ext _ _ (2 * n) n); [rewrite <- RN; rewrite <- CN; apply shape_mk|apply shape_mk|].
    intros i j Hi Hj. rewrite get_msubt by congruence. unfold mzeros. rewrite get_mk by assumption. ring. }
  exists (mmul D Pm). split; [reflexivity|].
  assert (HDP : shape (mmul D Pm) T (2 * n)) by (apply (shape_mmul _ _ T (2 * n) (2 * n)); congruence).
  split; [exact HDP|].
  assert (EDPN : mmul (mmul D Pm) N = mzeros T n).
  { rewrite mmul_assoc by congruence. rewrite EPN.
    apply (gshape_ext _ _ T n); [apply (shape_mmul _ _ T (2 * n) n); [exact RD|reflexivity|exact CD]|apply shape_mk|].
    intros i j Hi Hj. rewrite get_mmul by (try assumption; congruence). unfold mzeros. rewrite get_mk by assumption.
    apply sumn_zero. intros k Hk. rewrite get_mk by (try assumption; congruence). ring. }
  split; [|split].
  - apply (flow_null _ Y T n HDP HY). exact EDPN.
  - intros Ez. assert (EDN : mmul D N = mzeros T n).
    { unfold D, N. rewrite (hstack_null n T) by assumption. rewrite <- Ez.
      apply (gshape_ext _ _ T n); [split; [apply wf_mk|cbn [msubt nr nc mk]; auto]|apply shape_mk|].
      intros i j Hi Hj. rewrite get_msubt by congruence. unfold mzeros. rewrite get_mk by assumption. ring. }
    assert (EDQ : mmul D Q = mzeros T (2 * n)).
    { unfold Q. rewrite <- !mmul_assoc by (dims; congruence). rewrite EDN.
      apply (gshape_ext _ _ T (2 * n)); [apply (shape_mmul _ _ T n (2 * n)); [reflexivity|exact CNh|exact CB]|apply shape_mk|].
      intros i j Hi Hj. unfold mzeros. rewrite (get_mk T (2 * n)) by assumption.
      rewrite get_mmul by (dims; rewrite ?CNh; assumption). apply sumn_zero. intros k Hk. dims. cbn [nc mmul mk] in Hk.
      rewrite get_mmul by (dims; assumption). rewrite sumn_zero; [ring|].
      intros l Hl. cbn [nc mk] in Hl. rewrite get_mk by assumption. ring. }
    unfold Pm. rewrite mmul_msubt_r by (cbn [meye mk nr nc]; congruence). rewrite mmul_1_r', EDQ by assumption.
    apply (gshape_ext _ _ T (2 * n)); [rewrite <- RD; rewrite <- CD; apply shape_mk|exact HD|].
    intros i j Hi Hj. rewrite get_msubt by congruence. unfold mzeros. rewrite get_mk by assumption. ring.
  - intros q Hq Hfq. apply (flow_null q Y T n Hq HY) in Hfq. fold N in Hfq. pose proof Hq as (Hwq & Rq & Cq).
    assert (Esum : msubt D q = madd (msubt D (mmul D Pm)) (msubt (mmul D Pm) q)).
    { apply (gshape_ext _ _ T (2 * n)); [rewrite <- RD; rewrite <- CD; apply shape_mk|rewrite <- RD; rewrite <- CD; apply shape_mk|].
      intros i j Hi Hj. rewrite get_madd by (dims; congruence). rewrite !get_msubt by (dims; congruence). ring. }
    rewrite Esum. apply fro2_add; [dims; congruence|dims; congruence|].
    (* <DP - q, D Q> = 0 since (DP - q) N = 0 *)
    assert (EDQ : msubt D (mmul D Pm) = mmul D Q).
    { unfold Pm. rewrite mmul_msubt_r by (cbn [meye mk nr nc]; congruence). rewrite mmul_1_r' by assumption.
      apply (gshape_ext _ _ T (2 * n)); [rewrite <- RD; rewrite <- CD; apply shape_mk|apply (shape_mmul _ _ T (2 * n) (2 * n)); congruence|].
      intros i j Hi Hj. rewrite get_msubt by congruence. rewrite get_msubt by congruence. ring. }
    rewrite EDQ.
    set (Z := msubt (mmul D Pm) q). assert (HZ : shape Z T (2 * n)) by (unfold Z; destruct HDP as (_ & R' & C'); rewrite <- R', <- C'; apply shape_mk).
    pose proof HZ as (HwZ & RZ & CZ).
    assert (EZN : mmul Z N = mzeros T n).
    { unfold Z. rewrite mmul_msubt_l by (dims; congruence). rewrite EDPN, Hfq.
      apply (gshape_ext _ _ T n); [apply shape_mk|apply shape_mk|]. intros i j Hi Hj.
      rewrite get_msubt by assumption. unfold mzeros. rewrite get_mk by assumption. ring. }
    (* mdot Z (W Nh) = sum_ij conj Z_ij sum_k W_ik conj N_jk *)
    unfold Q. rewrite <- (mmul_assoc D) by (dims; congruence). set (Wm := mmul D (mmul N B)).
    assert (RW : nr Wm = T) by (unfold Wm; dims; exact RD). assert (CW : nc Wm = n) by (unfold Wm; dims; exact CB).
    unfold mdot. rewrite RZ, CZ.
    apply sumn_zero. intros i Hi.
    rewrite (sumn_ext _ _ (fun j => sumn n (fun k => get Wm i k * conj (get Z i j * get N j k)))).
    + rewrite sumn_swap. apply sumn_zero. intros k Hk. rewrite sumn_scal_l, <- conj_sumn.
      pose proof (f_equal (fun m => get m i k) EZN) as E. cbv beta in E. unfold mzeros in E.
      rewrite get_mk in E by assumption. rewrite get_mmul in E by congruence. rewrite CZ in E. rewrite E.
      change (get Wm i k * conj 0 = 0). replace (conj (0 : CK)) with (0 : CK); [ring|].
      apply cplx_eq; [reflexivity|]. change ((0 : K) = - (0 : K)). ring.
    + intros j Hj. rewrite get_mmul by congruence. rewrite CW. rewrite <- sumn_scal_l.
      apply sumn_ext; intros k Hk. rewrite get_ctr by congruence. rewrite conj_mul'. ring.
Qed.


Definition eivu_update (lam : K) (p : sprior K) (DT : mat K) (T n P : nat) (x z : mat CK)
    (w u : list K) (s s' : lstate K) (t : K) : Prop :=
  rebuild DT n u = Ok (fst (fst s')) /\
  exists d, eiv_project n (fst (fst s)) x z = Ok d /\ shape d T (2 * n) /\
    forall v Yv, length v = (2 * P)%nat -> rebuild DT n v = Ok Yv ->
      br_objective lam p (first_half n d) z w u (fst (fst s')) <=! br_objective lam p (first_half n d) z w v Yv.

Lemma eivu_step_follow : forall spsolve cabs e p (DT : mat K) (x z : mat CK) T n P w s s' t,
  solver_sound spsolve -> (forall v, e_prior e v = log_distribution p v) -> well_formed p (2 * P) -> 0 <! alpha p -> 0 <=! e_lambda e ->
  shape x T n -> shape z T n -> shape DT (n * n) P ->
  tracks p (2 * P) w s /\ shape (fst (fst s)) n n ->
  eiv_step_unweighted spsolve cabs e DT x z (make_real_vector (vectorize_matrix z)) n s = Ok (s', t) ->
  exists u, (tracks p (2 * P) u s' /\ shape (fst (fst s')) n n) /\ eivu_update (e_lambda e) p DT T n P x z w u s s' t.
Proof.
  intros spsolve cabs e p DT x z T n P w ((Y & M) & mu) s' t Hsound Hprior Hp Ha Hlam Hx Hz HDT (Ht & HY) H.
  cbn [fst snd] in HY. unfold eiv_step_unweighted in H.
  destruct (p_project n T Y x z HY Hx Hz) as (d & Hd & Hsd & _). rewrite Hd in H. cbn [bind] in H.
  pose proof Hsd as (_ & Rd & Cd). rewrite Rd in H. destruct (halves d T n Hsd) as (S1 & _ & _).
  set (xc := mslice d 0 T 0 n) in *. pose proof S1 as (_ & R1 & C1). pose proof HDT as (HwD & HrD & HcD).
  rewrite matmul_ok in H by (cbn [nr nc mkron mk meye cmat mmap]; congruence). cbn [bind] in H.
  change (make_real_matrix (mmul (mkron (meye n) xc) (cmat DT))) with (regressor n xc DT) in H.
  pose proof (shape_regressor n T xc DT P S1 HDT) as HA. set (A := regressor n xc DT) in *. pose proof HA as (_ & HrA & HcA).
  pose proof (length_rv T n z Hz) as Hb. set (b := make_real_vector (vectorize_matrix z)) in *.
  destruct (tracks_inv p T n P Hp Ha w _ Ht) as ((HsM & HtM & HpM) & Hlm & _). cbn [fst snd] in HsM, Hlm. pose proof HsM as (_ & RM & CM).
  rewrite matmul_ok in H by reflexivity. cbn [bind] in H.
  rewrite sp_add_ok in H by (dims; congruence). cbn [bind] in H.
  rewrite matvec_ok in H by (dims; congruence). cbn [bind] in H.
  rewrite np_vadd_ok in H by (rewrite length_mvmul, length_vscal; dims; congruence). cbn [bind] in H.
  apply bind_ok in H. destruct H as (((u & s1) & pen) & Hs & H).
  apply solve_y_inv in Hs. destruct Hs as (Hsol & HYu & Hpr). rewrite Hprior in Hpr.
  destruct ((fun q1 q2 => Hsound _ (2 * P)%nat _ _ q1 q2 Hsol)) as (Hu & HN);
    [split; [apply wf_mk|dims; split; congruence]|rewrite length_vadd, length_mvmul; dims; congruence|].
  apply bind_ok in H. destruct H as (ay & _ & H). apply bind_ok in H. destruct H as (db & _ & H). inversion H; subst s1. clear H.
  exists u. split; [split; [split; [exact Hu|eauto]|]|].
  { destruct (rebuild_even DT n P u _ HDT Hu HYu) as (? & _ & _ & HsY & _). exact HsY. }
  split; [exact HYu|]. exists d. split; [exact Hd|]. split; [exact Hsd|].
  unfold first_half. rewrite Rd. fold xc. intros v Yv Hv HYv.
  apply (br_optimal e p DT xc z T n P Hp Ha Hlam S1 Hz HDT w ((Y, M), mu)); try assumption.
  fold A b. cbn [fst snd]. rewrite mvmul_madd in HN by (dims; congruence). rewrite mvmul_mscal in HN.
  rewrite mvmul_assoc in HN by reflexivity. exact HN.
Qed.

Theorem p_eivu_fit : forall spsolve cabs e p (x z y0 : mat CK) zarg T n P DT El e' ex,
  solver_sound spsolve -> (forall v, e_prior e v = log_distribution p v) -> well_formed p (2 * P) -> 0 <! alpha p -> 0 <=! e_lambda e ->
  shape x T n -> shape z T n -> shape y0 n n -> e_dt e n = Ok DT -> e_el e n = Ok El -> shape DT (n * n) P ->
  eiv_fit spsolve cabs e x z None zarg y0 = (e', ex) ->
  exists new ws, e_iters e' = e_iters e ++ new /\ length ws = S (length new) /\
    nth 0 ws [] = make_real_vector (mvmul (cmat El) (vectorize_matrix y0)) /\
    forall k d, (k < length new)%nat ->
      rebuild DT n (nth (S k) ws []) = Ok (st_y (nth k new d)) /\ length (nth (S k) ws []) = (2 * P)%nat /\
      exists q, eiv_project n (prev_y y0 new k) x z = Ok q /\ shape q T (2 * n) /\
        forall v Yv, length v = (2 * P)%nat -> rebuild DT n v = Ok Yv ->
          br_objective (e_lambda e) p (first_half n q) z (nth k ws []) (nth (S k) ws []) (st_y (nth k new d)) <=!
          br_objective (e_lambda e) p (first_half n q) z (nth k ws []) v Yv.
Proof.
  intros spsolve cabs e p x z y0 zarg T n P DT El e' ex Hsound Hprior Hp Ha Hlam Hx Hz Hy0 Hdt Hel HDT H. unfold eiv_fit in H.
  pose proof Hx as (_ & Hrx & Hcx).
  destruct (fit_init e x y0) as [r|err] eqn:Ei.
  - destruct (fit_init_inv e x y0 n DT El r Hcx Hdt Hel Ei) as (M & mu & pen & -> & Hpr). rewrite Hprior in Hpr.
    rewrite Hcx in H.
    assert (H' : finish_fit e (fit_loop (e_abs_tol e) (e_rel_tol e)
       (eiv_step_unweighted spsolve cabs e DT x z (make_real_vector (vectorize_matrix z)) n) (e_max e) 0 (e_iters e) (y0, M, mu)) = (e', ex))
      by (destruct zarg; exact H).
    clear H. rename H' into H.
    match type of H with finish_fit _ (fit_loop ?a ?b ?st ?f ?i ?it ?s) = _ =>
      destruct (fit_loop a b st f i it s) as (iters' & r) eqn:El' end.
    destruct (fit_loop_spec _ _ _ _ _ _ _ _ _ (Nat.le_0_l _) El') as (ss & ts & Hch & H0 & Hle & Hit & _ & _).
    destruct (finish_inv _ _ _ _ H) as (H1 & _ & _). simpl in H1.
    set (w0 := make_real_vector (mvmul (cmat El) (vectorize_matrix y0))) in *.
    destruct (chain_follow _ [] _ (fun w s => tracks p (2 * P) w s /\ shape (fst (fst s)) n n)
       (eivu_update (e_lambda e) p DT T n P x z) ts ss w0 Hch) as (ws & Hlw & Hw0 & HR & HQ).
    { rewrite H0. split; [|exact Hy0]. split; [|simpl; eauto]. apply (log_length p _ _ _ Hp Hpr). }
    { intros w s s' t HRs Hst. exact (eivu_step_follow spsolve cabs e p DT x z T n P w s s' t Hsound Hprior Hp Ha Hlam Hx Hz HDT HRs Hst). }
    exists (recs 0 ss ts), ws. split; [rewrite H1; exact Hit|]. rewrite length_recs. split; [exact Hlw|]. split; [exact Hw0|].
    intros k d Hk. rewrite nth_recs by exact Hk. simpl. destruct (HQ k Hk) as (Q1 & D & HD & Q2 & Q3).
    destruct (HR (S k) ltac:(lia)) as ((Hlen & _) & _). split; [exact Q1|]. split; [exact Hlen|].
    assert (Ep : prev_y y0 (recs 0 ss ts) k = fst (fst (nth k ss dstate))).
    { destruct k as [|k]; [rewrite H0; reflexivity|]. unfold prev_y. rewrite nth_recs by lia. reflexivity. }
    exists D. rewrite Ep. split; [exact HD|]. split; [exact Q2|]. exact Q3.
  - inversion H; subst. exists [], [make_real_vector (mvmul (cmat El) (vectorize_matrix y0))]. rewrite app_nil_r.
    split; [reflexivity|]. split; [reflexivity|]. split; [reflexivity|]. intros k d Hk. simpl in Hk. lia.
Qed.

(** *** Noise-free data *)
(** any fit all of whose new records equal the initial guess returns it *)
Lemma all_same_adm : forall (e : estimator K) x y0 e' ex new, is_fit e x y0 e' ex -> e_iters e' = e_iters e ++ new ->
  (forall k d, (k < length new)%nat -> st_y (nth k new d) = y0) -> ex = None -> e_adm e' = Some y0.
Proof.
  intros e x y0 e' ex new Hf Hit Hall Hex.
  destruct Hf as [(err & _ & _ & E)|(DT' & A & M & mu & step & Hi & Hst & Hfin)]; [congruence|].
  destruct (fit_loop (e_abs_tol e) (e_rel_tol e) step (e_max e) 0 (e_iters e) (y0, M, mu)) as (iters' & r) eqn:El'.
  destruct (fit_loop_spec _ _ _ _ _ _ _ _ _ (Nat.le_0_l _) El') as (ss & ts & Hch & H0 & Hle & Hit' & _ & Hr).
  symmetry in Hfin. destruct (finish_inv _ _ _ _ Hfin) as (H1 & H2 & _). simpl in H1, H2.
  destruct (H2 Hex) as (s & Hs & Hadm). rewrite Hadm. f_equal.
  destruct Hr as [(Hr & _)|(er & Hr & _)]; [|congruence]. rewrite Hr in Hs. inversion Hs; subst s.
  assert (En : new = recs 0 ss ts) by (rewrite H1, Hit' in Hit; apply app_inv_head in Hit; symmetry; exact Hit).
  destruct (length ts) as [|k] eqn:Ets; [rewrite H0; reflexivity|].
  pose proof (Hall k (St 0 y0 0)) as E. rewrite En, length_recs, Ets in E. specialize (E ltac:(lia)).
  rewrite nth_recs in E by lia. exact E.
Qed.

(** an exact competitor forces an exact minimiser *)
Lemma exact_min : forall lam p w u u0 (a b : K), 0 <! alpha p -> 0 <=! lam -> 0 <=! a ->
  a + lam * frozen_penalty p w u <=! b + lam * frozen_penalty p w u0 -> b = 0 ->
  (forall i, (i < length (bmu (base p)))%nat -> residual (base p) u0 i = 0) -> a = 0.
Proof.
  intros lam p w u u0 a b Ha Hl Hpos Hle -> Hres. rewrite (frozen_zero p w u0 Hres) in Hle.
  replace (0 + lam * 0) with (0 : K) in Hle by ring.
  assert (Hg : 0 <=! lam * frozen_penalty p w u) by (apply kle_mul; [exact Hl|apply frozen_nonneg; exact Ha]).
  destruct (kle_add_zero _ _ Hpos Hg) as (E & _); [apply kle_antisym; [exact Hle|apply kle_0_add; assumption]|exact E].
Qed.

Theorem p_eivu_fixed : forall spsolve cabs e p (x y0 : mat CK) zarg T n P DT El u0 e' ex,
  solver_sound spsolve -> (forall v, e_prior e v = log_distribution p v) -> well_formed p (2 * P) -> 0 <! alpha p -> 0 <=! e_lambda e ->
  shape x T n -> e_dt e n = Ok DT -> e_el e n = Ok El -> shape DT (n * n) P ->
  length u0 = (2 * P)%nat -> rebuild DT n u0 = Ok y0 ->
  (forall i, (i < length (bmu (base p)))%nat -> residual (base p) u0 i = 0) ->
  identifiable_r x DT n P ->
  eiv_fit spsolve cabs e x (mmul x y0) None zarg y0 = (e', ex) ->
  exists new, e_iters e' = e_iters e ++ new /\ Forall (fun r => st_y r = y0) new /\ (ex = None -> e_adm e' = Some y0).
Proof.
  intros spsolve cabs e p x y0 zarg T n P DT El u0 e' ex Hsound Hprior Hp Ha Hlam Hx Hdt Hel HDT Hu0 HY0 Hres Hid H.
  pose proof Hx as (_ & Hrx & Hcx). destruct (rebuild_even DT n P u0 y0 HDT Hu0 HY0) as (v0 & _ & _ & HsY0 & _).
  assert (Hz : shape (mmul x y0) T n) by (apply (shape_mmul x y0 T n n); [exact Hrx|apply HsY0|exact Hcx]).
  destruct (p_eivu_fit spsolve cabs e p x (mmul x y0) y0 zarg T n P DT El e' ex Hsound Hprior Hp Ha Hlam Hx Hz HsY0 Hdt Hel HDT H)
    as (new & ws & Hit & Hlw & Hw0 & Hk).
  assert (Hall : forall k d, (k < length new)%nat -> st_y (nth k new d) = y0).
  { induction k as [k IH] using lt_wf_ind. intros d Hkn.
    assert (Ep : prev_y y0 new k = y0) by (destruct k; [reflexivity|apply IH; lia]).
    destruct (Hk k d Hkn) as (HY & Hl & q & Hq & Hsq & Hmin). rewrite Ep in Hq.
    destruct (p_project n T y0 x (mmul x y0) HsY0 Hx Hz) as (q' & Hq' & _ & _ & Hex & _). rewrite Hq in Hq'. inversion Hq'; subst q'.
    assert (Ef : first_half n q = x).
    { rewrite (Hex eq_refl) in *. unfold first_half. destruct Hsq as (_ & -> & _).
      apply (gshape_ext _ _ T n); [split; [apply wf_mk|cbn [mslice nr nc mk]; lia]|exact Hx|].
      intros i j Hi Hj. unfold mslice. rewrite get_mk by lia. rewrite get_hstack2_l by lia. reflexivity. }
    rewrite Ef in Hmin. specialize (Hmin u0 y0 Hu0 HY0). unfold br_objective in Hmin.
    apply exact_min in Hmin; try assumption; [|apply fro2_nonneg|apply fro2_self].
    destruct (rebuild_even DT n P _ _ HDT Hl HY) as (v1 & _ & _ & HsY & _).
    assert (Hz' : shape (mmul x (st_y (nth k new d))) T n) by (apply (shape_mmul x _ T n n); [exact Hrx|apply HsY|exact Hcx]).
    apply (fro2_zero _ T n) in Hmin; [|destruct Hz as (_ & R & C); rewrite <- R, <- C; apply shape_mk].
    apply (msubt_eq0 _ _ T n Hz Hz') in Hmin.
    pose proof (Hid _ _ _ _ Hu0 Hl HY0 HY Hmin) as Eu. rewrite <- Eu, HY0 in HY. inversion HY. reflexivity. }
  exists new. split; [exact Hit|]. split.
  - apply Forall_forall. intros r Hin. destruct (In_nth _ _ r Hin) as (k & Hkn & <-). apply Hall; exact Hkn.
  - intros Hex. exact (all_same_adm e x y0 e' ex new (eiv_is_fit _ _ _ _ _ _ _ _ _ _ H) Hit Hall Hex).
Qed.

Lemma wnorm2_zero : forall W m T n (X : mat CK), m = (2 * (n * T))%nat -> posdef m W -> shape X T n -> wnorm2 W X = 0 -> X = mzeros T n.
Proof.
  intros W m T n X Hm (_ & Hpd) HX H. pose proof (length_rv T n X HX) as Hl.
  pose proof (Hpd _ ltac:(rewrite Hl; symmetry; exact Hm) H) as E.
  pose proof HX as (HwX & R & C). pose proof (vdot_real_vec X) as V. rewrite E in V.
  apply (fro2_zero X T n HX). rewrite <- V. apply sumn_zero. intros i Hi. rewrite vget_vzeros. ring.
Qed.

Lemma wnorm2_self : forall W (X : mat CK), wnorm2 W (msubt X X) = 0.
Proof.
  intros W X. unfold wnorm2. cbv zeta. apply sumn_zero. intros i Hi.
  replace (vget (make_real_vector (vectorize_matrix (msubt X X))) i) with (0 : K); [ring|].
  rewrite <- vectorize_msubt by reflexivity. rewrite <- real_vector_sub by reflexivity.
  destruct (Nat.lt_ge_cases i (length (make_real_vector (vectorize_matrix X)))) as [Hl|Hl].
  - rewrite vget_vsubt by exact Hl. ring.
  - rewrite vget_oob; [reflexivity|]. rewrite length_vsubt. exact Hl.
Qed.

Lemma msubt_self : forall (X : mat CK) r c, shape X r c -> msubt X X = mzeros r c.
Proof.
  intros X r c (Hw & R & C). apply (gshape_ext _ _ r c); [rewrite <- R; rewrite <- C; apply shape_mk|apply shape_mk|].
  intros i j Hi Hj. rewrite get_msubt by congruence. unfold mzeros. rewrite get_mk by assumption. ring.
Qed.
Lemma msubt_zero : forall (X : mat CK) r c, shape X r c -> msubt X (mzeros r c) = X.
Proof.
  intros X r c HX. pose proof HX as (Hw & R & C). apply (gshape_ext _ _ r c); [rewrite <- R; rewrite <- C; apply shape_mk|exact HX|].
  intros i j Hi Hj. rewrite get_msubt by congruence. unfold mzeros. rewrite get_mk by assumption. ring.
Qed.

Theorem p_eiv_fixed : forall spsolve cabs e p (x y0 : mat CK) W zarg T n P m DT El u0 e' ex,
  m = (2 * (n * T))%nat ->
  solver_sound spsolve -> (forall v, e_prior e v = log_distribution p v) -> well_formed p (2 * P) -> 0 <! alpha p -> 0 <=! e_lambda e ->
  shape x T n -> e_dt e n = Ok DT -> e_el e n = Ok El -> shape DT (n * n) P ->
  length u0 = (2 * P)%nat -> rebuild DT n u0 = Ok y0 -> symmetric n y0 ->
  (forall i, (i < length (bmu (base p)))%nat -> residual (base p) u0 i = 0) ->
  identifiable_r x DT n P -> posdef m W ->
  eiv_fit spsolve cabs e x (mmul x y0) (Some W) (Some zarg) y0 = (e', ex) ->
  exists new, e_iters e' = e_iters e ++ new /\ Forall (fun r => st_y r = y0) new /\ (ex = None -> e_adm e' = Some y0).
Proof.
  intros spsolve cabs e p x y0 W zarg T n P m DT El u0 e' ex Hm Hsound Hprior Hp Ha Hlam Hx Hdt Hel HDT Hu0 HY0 Hsym Hres Hid HW H.
  pose proof Hx as (_ & Hrx & Hcx). destruct (rebuild_even DT n P u0 y0 HDT Hu0 HY0) as (v0 & _ & _ & HsY0 & _).
  assert (Hz : shape (mmul x y0) T n) by (apply (shape_mmul x y0 T n n); [exact Hrx|apply HsY0|exact Hcx]).
  assert (Etr : tr y0 = y0).
  { pose proof HsY0 as (_ & R & C). destruct Hsym as (_ & Hs). apply (gshape_ext _ _ n n); [split; [apply wf_mk|dims; auto]|exact HsY0|].
    intros i j Hi Hj. rewrite get_tr by congruence. apply Hs; assumption. }
  pose proof (proj1 HW) as Hpsd.
  destruct (p_eiv_fit spsolve cabs e p x (mmul x y0) y0 W zarg T n P m DT El e' ex Hm Hsound Hprior Hp Ha Hlam Hx Hz HsY0 Hdt Hel HDT Hpsd H)
    as (new & ws & Hit & Hlw & Hw0 & Hk).
  assert (Hall : forall k d, (k < length new)%nat -> st_y (nth k new d) = y0).
  { induction k as [k IH] using lt_wf_ind. intros d Hkn.
    assert (Ep : prev_y y0 new k = y0) by (destruct k; [reflexivity|apply IH; lia]).
    destruct (Hk k d Hkn) as (HY & Hl & D & HD & _ & HminD & Hmin). rewrite Ep, Etr in HminD.
    assert (ED : D = mzeros T n).
    { specialize (HminD (mzeros T n) (shape_mk _ _ _)). unfold input_objective in HminD.
      rewrite (msubt_zero x T n Hx) in HminD. rewrite wnorm2_self in HminD.
      assert (E0 : wnorm2 W (mzeros T n) = 0) by (rewrite <- (msubt_self x T n Hx); apply wnorm2_self).
      rewrite E0 in HminD. replace (0 + 0) with (0 : K) in HminD by ring.
      assert (N1 : 0 <=! wnorm2 W (msubt (mmul x y0) (mmul (msubt x D) y0))).
      { apply (wnorm2_nonneg m W _ T n Hpsd Hm). destruct Hz as (_ & R & C). rewrite <- R, <- C. apply shape_mk. }
      pose proof (wnorm2_nonneg m W D T n Hpsd Hm HD) as N2.
      destruct (kle_add_zero _ _ N1 N2) as (_ & E); [apply kle_antisym; [exact HminD|apply kle_0_add; assumption]|].
      exact (wnorm2_zero W m T n D Hm HW HD E). }
    rewrite ED, (msubt_zero x T n Hx) in Hmin. specialize (Hmin u0 y0 Hu0 HY0). unfold eiv_objective in Hmin.
    destruct (rebuild_even DT n P _ _ HDT Hl HY) as (v1 & _ & _ & HsY & _).
    assert (Hz' : shape (mmul x (st_y (nth k new d))) T n) by (apply (shape_mmul x _ T n n); [exact Hrx|apply HsY|exact Hcx]).
    assert (Hzz : shape (msubt (mmul x y0) (mmul x (st_y (nth k new d)))) T n) by (destruct Hz as (_ & R & C); rewrite <- R, <- C; apply shape_mk).
    apply exact_min in Hmin; try assumption; [|apply (wnorm2_nonneg m W _ T n Hpsd Hm Hzz)|apply wnorm2_self].
    apply (wnorm2_zero W m T n _ Hm HW Hzz) in Hmin.
    apply (msubt_eq0 _ _ T n Hz Hz') in Hmin.
    pose proof (Hid _ _ _ _ Hu0 Hl HY0 HY Hmin) as Eu. rewrite <- Eu, HY0 in HY. inversion HY. reflexivity. }
  exists new. split; [exact Hit|]. split.
  - apply Forall_forall. intros r Hin. destruct (In_nth _ _ r Hin) as (k & Hkn & <-). apply Hall; exact Hkn.
  - intros Hex. exact (all_same_adm e x y0 e' ex new (eiv_is_fit _ _ _ _ _ _ _ _ _ _ H) Hit Hall Hex).
Qed.
End Fix_.
