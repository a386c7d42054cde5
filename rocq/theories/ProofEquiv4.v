(** Renumbered nodes: uniqueness of the corrections and of the best Laplacian matrix in the error-in-variable regression. *)
From Coq Require Import Bool Arith List ZArith Lia Ring Field Permutation.
From Verif Require Import BasePy BaseFld BaseOrd BaseSum BaseMat BaseNumpy BaseLin ModelMatrixOps SpecMatrix ModelPrior ModelFit ModelLS ModelIdent ModelRun
  SpecPrior SpecLS SpecFit SpecIdent SpecBayes SpecOrder SpecTLS SpecRenumber ProofRagged ProofMatrixOps ProofStruct ProofElim ProofMatrixProps ProofPrior ProofLS ProofFitBase ProofFit ProofFitOpt ProofFitBR ProofFitEIV ProofFitFix ProofFitRep
  ProofIdent ProofPenalty ProofIdentMain ProofIdentThm ProofFrozen ProofBayes ProofBayesRun ProofOrder4 ProofOrder5 ProofOrderRun ProofRenumber ProofRenumber2 ProofEquiv ProofEquiv2.
Import ListNotations.
Local Open Scope K_scope.

Section Equiv.
Context {K : Type} {O : Ops K} {F : Fld K} {O2 : OrdOps K} {OF : OrdFld K}.
Notation CK := (cplx K).
Add Field KfldE4 : (@k_field K O F).

(** ** quadratic forms *)
Definition form (W : mat K) (v : list K) : K := vdot v (mvmul W v).
Lemma form_sum : forall W m v, shape W m m -> length v = m -> form W v = sumn m (fun i => sumn m (fun j => vget v i * get W i j * vget v j)).
Proof.
  intros W m v (_ & R & C) L. unfold form, vdot. rewrite L. apply sumn_ext. intros i Hi. rewrite vget_mvmul by lia. rewrite C, <- sumn_scal_l. apply sumn_ext. intros j Hj. ring.
Qed.
Lemma form_mid : forall W m u v w, shape W m m -> length u = m -> length v = m -> length w = m -> (forall i, (i < m)%nat -> vget w i = (vget u i + vget v i) / (1 + 1)) ->
  form W w = (form W u + form W v) / (1 + 1) - form W (vsubt u v) / (1 + 1) / (1 + 1).
Proof.
  intros W m u v w HW Hu Hv Hw H. assert (T := k2_neq0 (K := K)). rewrite !(form_sum W m) by (rewrite ?length_vsubt; assumption).
  match goal with |- _ = ?s / _ - ?g / _ / _ => transitivity (s * (1 / (1 + 1)) - g * (1 / (1 + 1) / (1 + 1))); [|field; auto] end.
  rewrite <- sumn_add, <- !sumn_scal_r, <- sumn_sub. apply sumn_ext. intros i Hi.
  rewrite <- sumn_add, <- !sumn_scal_r, <- sumn_sub. apply sumn_ext. intros j Hj.
  rewrite !vget_vsubt by lia. rewrite !H by assumption. field. auto.
Qed.

(** ** the best correction of the inputs is unique *)
Definition middle (T n : nat) (X X2 : mat CK) : mat CK := mk T n (fun t j => Cx ((re (get X t j) + re (get X2 t j)) / (1 + 1)) ((im (get X t j) + im (get X2 t j)) / (1 + 1))).
Lemma re_mul : forall a b : CK, re (a * b) = re a * re b - im a * im b.
Proof. intros [a1 a2] [b1 b2]. cbn. ring. Qed.
Lemma im_mul : forall a b : CK, im (a * b) = re a * im b + im a * re b.
Proof. intros [a1 a2] [b1 b2]. cbn. ring. Qed.
Lemma get_middle : forall T n (X X2 : mat CK) t j, (t < T)%nat -> (j < n)%nat -> get (middle T n X X2) t j = Cx ((re (get X t j) + re (get X2 t j)) / (1 + 1)) ((im (get X t j) + im (get X2 t j)) / (1 + 1)).
Proof. intros. unfold middle. rewrite get_mk by assumption. reflexivity. Qed.
Lemma vec_at : forall (Y : mat CK) k, (k < nr Y * nc Y)%nat -> vget (vectorize_matrix Y) k = get Y (k mod nr Y) (k / nr Y).
Proof. intros Y k Hk. apply (vget_vectorize_any CK _ Y k Hk). Qed.
Lemma wnorm2_middle : forall W T n (X X2 : mat CK), shape W (2 * (n * T)) (2 * (n * T)) -> shape X T n -> shape X2 T n ->
  wnorm2 W (middle T n X X2) = (wnorm2 W X + wnorm2 W X2) / (1 + 1) - wnorm2 W (msubt X X2) / (1 + 1) / (1 + 1).
Proof.
  intros W T n X X2 HW HX HX2. assert (HM : shape (middle T n X X2) T n) by apply shape_mk. assert (HS : shape (msubt X X2) T n) by (destruct HX as (_ & <- & <-); apply shape_mk).
  pose proof (length_rv T n X HX) as L1. pose proof (length_rv T n X2 HX2) as L2. pose proof (length_rv T n _ HM) as L3. pose proof (length_rv T n _ HS) as L4.
  change (form W (make_real_vector (vectorize_matrix (middle T n X X2))) = (form W (make_real_vector (vectorize_matrix X)) + form W (make_real_vector (vectorize_matrix X2))) / (1 + 1) - form W (make_real_vector (vectorize_matrix (msubt X X2))) / (1 + 1) / (1 + 1)).
  rewrite (form_mid W (2 * (n * T)) (make_real_vector (vectorize_matrix X)) (make_real_vector (vectorize_matrix X2)) _ HW L1 L2 L3).
  - do 3 f_equal. f_equal. symmetry. apply vec_ext; [rewrite length_vsubt; congruence|]. rewrite L4. intros k Hk.
    destruct HX as (WX & RX & CX), HX2 as (WX2 & RX2 & CX2), HS as (WS & RS & CS).
    rewrite vget_vsubt by lia. rewrite !vget_make_real_vector by (rewrite ?length_vectorize, ?RX, ?CX, ?RX2, ?CX2, ?RS, ?CS; lia).
    rewrite !length_vectorize, RX, CX, RX2, CX2, RS, CS.
    assert (Q : forall l, (l < T * n)%nat -> vget (vectorize_matrix (msubt X X2)) l = vget (vectorize_matrix X) l - vget (vectorize_matrix X2) l).
    { intros l Hl. rewrite !vec_at by (rewrite ?RX, ?CX, ?RX2, ?CX2, ?RS, ?CS; lia). rewrite RX, RX2, RS. apply get_msubt; rewrite ?RX, ?CX; [apply Nat.mod_upper_bound; intros ->; lia|apply Nat.div_lt_upper_bound; [intros ->; lia|lia]]. }
    destruct (Nat.ltb_spec k (T * n)); rewrite Q by lia; rewrite ?re_sub, ?im_sub; reflexivity.
  - intros k Hk. destruct HX as (WX & RX & CX), HX2 as (WX2 & RX2 & CX2), HM as (WM & RM & CM). rewrite !vget_make_real_vector by (rewrite ?length_vectorize, ?RX, ?CX, ?RX2, ?CX2, ?RM, ?CM; lia).
    rewrite !length_vectorize, RX, CX, RX2, CX2, RM, CM.
    assert (Q : forall l, (l < T * n)%nat -> vget (vectorize_matrix (middle T n X X2)) l = Cx ((re (vget (vectorize_matrix X) l) + re (vget (vectorize_matrix X2) l)) / (1 + 1)) ((im (vget (vectorize_matrix X) l) + im (vget (vectorize_matrix X2) l)) / (1 + 1))).
    { intros l Hl. rewrite !vec_at by (rewrite ?RX, ?CX, ?RX2, ?CX2, ?RM, ?CM; lia). rewrite RX, RX2, RM. unfold middle. rewrite get_mk; [reflexivity| |]; [apply Nat.mod_upper_bound; intros ->; lia|apply Nat.div_lt_upper_bound; [intros ->; lia|lia]]. }
    destruct (Nat.ltb_spec k (T * n)); rewrite Q by lia; reflexivity.
Qed.
Lemma correction_unique : forall W T n (x z Y D D2 : mat CK), posdef (2 * (n * T)) W -> shape x T n -> shape z T n -> shape Y n n -> shape D T n -> shape D2 T n ->
  (forall D', shape D' T n -> input_objective W W x z Y D <=! input_objective W W x z Y D') -> input_objective W W x z Y D2 <=! input_objective W W x z Y D -> D2 = D.
Proof.
  intros W T n x z Y D D2 PW HX HZ HY HD HD2 B L. pose proof PW as ((HW & _ & PP) & _). specialize (B (middle T n D D2) (shape_mk _ _ _)). unfold input_objective in *.
  pose proof HX as (WX & RX & CX). pose proof HZ as (WZ & RZ & CZ). pose proof HY as (WY & RY & CY). pose proof HD as (WD & RD & CD). pose proof HD2 as (WD2 & RD2 & CD2).
  assert (SH : forall A : mat CK, shape (msubt z (mmul (msubt x A) Y)) T n) by (intros A; rewrite <- RZ, <- CZ; apply shape_mk).
  assert (E : msubt z (mmul (msubt x (middle T n D D2)) Y) = middle T n (msubt z (mmul (msubt x D) Y)) (msubt z (mmul (msubt x D2) Y))).
  { assert (SM : forall A B : mat CK, shape (middle T n A B) T n) by (intros; apply shape_mk). apply (gshape_ext _ _ T n (SH _) (SM _ _)). intros t j Ht Hj. rewrite get_middle by assumption. rewrite !get_msubt by congruence.
    rewrite !get_mmul by (cbn [nr nc msubt mk]; congruence). cbn [nr nc msubt mk]. rewrite CX.
    assert (T2 := k2_neq0 (K := K)).
    apply cplx_eq; cbn [re im]; rewrite ?re_sub, ?im_sub, ?re_sumn, ?im_sumn.
    - match goal with |- ?a - ?s = (?a - ?s1 + (?a - ?s2)) / _ => transitivity (a - (s1 + s2) * (1 / (1 + 1))); [|field; auto] end. f_equal. rewrite <- sumn_add, <- sumn_scal_r. apply sumn_ext. intros k Hk.
      rewrite !get_msubt by congruence. rewrite get_middle by assumption. rewrite !re_mul, !re_sub, !im_sub. cbn [re im]. field. auto.
    - match goal with |- ?a - ?s = (?a - ?s1 + (?a - ?s2)) / _ => transitivity (a - (s1 + s2) * (1 / (1 + 1))); [|field; auto] end. f_equal. rewrite <- sumn_add, <- sumn_scal_r. apply sumn_ext. intros k Hk.
      rewrite !get_msubt by congruence. rewrite get_middle by assumption. rewrite !im_mul, !re_sub, !im_sub. cbn [re im]. field. auto. }
  rewrite E in B. rewrite !wnorm2_middle in B by (try assumption; apply SH).
  set (R1 := msubt z (mmul (msubt x D) Y)) in *. set (R2 := msubt z (mmul (msubt x D2) Y)) in *.
  assert (N1 : 0 <=! wnorm2 W (msubt R1 R2)).
  { apply PP. apply length_rv. pose proof (SH D) as (_ & A1 & A2). fold R1 in A1, A2. rewrite <- A1, <- A2. apply shape_mk. }
  assert (HS : shape (msubt D D2) T n) by (rewrite <- RD, <- CD; apply shape_mk).
  assert (N2 : 0 <=! wnorm2 W (msubt D D2)) by (apply PP; apply length_rv; exact HS).
  destruct (midpoint_zero _ _ _ (wnorm2 W (msubt R1 R2)) (wnorm2 W (msubt D D2)) B L) as [_ Z].
  - field. apply (k2_neq0 (K := K)).
  - exact N1.
  - exact N2.
  - pose proof (wnorm2_zero W _ T n (msubt D D2) eq_refl PW HS Z) as E0. apply (gshape_ext _ _ T n HD2 HD). intros t j Ht Hj.
    pose proof (f_equal (fun m => get m t j) E0) as Q. cbv beta in Q. rewrite get_msubt in Q by congruence. unfold mzeros in Q. rewrite get_mk in Q by assumption. symmetry. apply ksub_eq0. exact Q.
Qed.

(** ** the penalties fix the parameters *)
Definition decisive (p : sprior K) (P : nat) : Prop := forall u v, length u = P -> length v = P ->
  (forall i, (i < length (bmu (base p)))%nat -> residual (base p) u i = residual (base p) v i) -> u = v.
Lemma settled_system : forall p P (A W M : mat K) lam w s m, well_formed p P -> 0 <! alpha p -> 0 <! lam -> P <> 1%nat -> tracks p P w s -> M = snd (fst s) -> shape A m P -> psd m W -> decisive p P ->
  inj (madd (mmul (mmul (tr A) W) A) (mscal lam M)).
Proof.
  intros p P A W M lam w [[Y M0] mu] m Hp Ha Hl H1 (Hw & pen & Ht) -> (WA & RA & CA) (HW & SW & PW) Dc v Lv H. cbn [fst snd] in *. pose proof HW as (WW & RW & CW). assert (L : length v = P) by (rewrite Lv; cbn; exact CA).
  destruct (log_frozen p P w Hp Hw H1 Ha) as (M' & mu' & Hl' & (HM & SM & PM) & Hlm & c & FZ). rewrite Ht in Hl'. assert (EM : M0 = M' /\ mu = mu') by (inversion Hl'; auto). destruct EM as [<- <-]. clear Hl'. pose proof HM as (WM & RM & CM).
  assert (SH : shape (mmul (mmul (tr A) W) A) P P) by (apply shape_mmul with (m := m); auto).
  rewrite mvmul_madd in H by (destruct SH as (_ & R1 & C1); cbn [nr nc mscal mmap mk]; congruence). rewrite mvmul_mscal in H.
  assert (E : vdot v (vadd (mvmul (mmul (mmul (tr A) W) A) v) (vscal lam (mvmul M0 v))) = 0).
  { rewrite H. unfold vdot. apply sumn_zero. intros i Hi. rewrite vget_vzeros. ring. }
  rewrite vdot_vadd_r in E by (rewrite ?length_vscal, ?length_mvmul; destruct SH as (_ & R1 & C1); congruence). rewrite vdot_vscal_r in E by (rewrite length_mvmul; congruence).
  rewrite mvmul_assoc in E by (cbn; congruence). rewrite mvmul_assoc in E by (cbn; congruence).
  assert (Q1 : vdot v (mvmul (tr A) (mvmul W (mvmul A v))) = vdot (mvmul A v) (mvmul W (mvmul A v))).
  { rewrite vdot_mvmul by (rewrite ?length_mvmul; cbn; congruence). rewrite tr_tr by exact WA. reflexivity. }
  rewrite Q1 in E. assert (P1 := PW (mvmul A v) ltac:(rewrite length_mvmul; exact RA)). assert (P2 := kle_mul _ _ (klt_le _ _ Hl) (PM v L)).
  destruct (kle_add_zero _ _ P1 P2 E) as [_ Z]. apply kmul_integral in Z. destruct Z as [Z|Z]; [exfalso; apply (klt_neq _ Hl); exact Z|].
  assert (L2 : length (vscal (- (1)) v) = P) by (rewrite length_vscal; exact L).
  pose proof (frozen_mid p w P v (vscal (- (1)) v) L L2 Ha) as FM.
  assert (EZ : mid P v (vscal (- (1)) v) = vzeros P).
  { apply vec_ext; [unfold mid, vzeros; rewrite length_mkv, repeat_length; reflexivity|]. unfold mid. rewrite length_mkv. intros i Hi. rewrite vget_mkv by assumption. rewrite vget_vscal by lia. rewrite vget_vzeros. field. apply (k2_neq0 (K := K)). }
  rewrite EZ in FM. rewrite !FZ in FM by (try assumption; unfold vzeros; apply repeat_length).
  assert (V1 : vdot (vscal (- (1)) v) (mvmul M0 (vscal (- (1)) v)) = vdot v (mvmul M0 v)).
  { rewrite mvmul_vscal by congruence. rewrite vdot_vscal_l. rewrite vdot_vscal_r by (rewrite length_mvmul; congruence). ring. }
  assert (V2 : vdot mu (vscal (- (1)) v) = - vdot mu v) by (rewrite vdot_vscal_r by congruence; ring).
  assert (V3 : vdot mu (vzeros P) = 0) by (unfold vdot; apply sumn_zero; intros; rewrite vget_vzeros; ring).
  assert (V4 : vdot (vzeros P) (mvmul M0 (vzeros P)) = 0) by (unfold vdot; apply sumn_zero; intros; rewrite vget_vzeros; ring).
  rewrite V1, V2, V3, V4, Z in FM.
  assert (GZ : frozen_gap p w v (vscal (- (1)) v) = 0).
  { assert (T := k2_neq0 (K := K)). set (g := frozen_gap p w v (vscal (- (1)) v)) in *.
    assert (X : g / (1 + 1) / (1 + 1) = 0).
    { match type of FM with ?a = ?b - ?x => replace x with (b - a) by (rewrite FM; ring) end. field. exact T. }
    replace g with ((1 + 1) * (1 + 1) * (g / (1 + 1) / (1 + 1))) by (field; exact T). rewrite X. ring. }
  pose proof (Dc v (vscal (- (1)) v) L L2 (gap_zero p w _ _ Ha GZ)) as EV. apply vec_ext; [rewrite L; unfold vzeros; rewrite repeat_length; cbn; symmetry; exact CA|].
  intros i Hi. rewrite vget_vzeros. apply double_inj. transitivity (vget v i + vget (vscal (- (1)) v) i); [rewrite <- EV; reflexivity|]. rewrite vget_vscal by exact Hi. ring.
Qed.

(** two best vectors of parameters are the same *)
Lemma settled_unique : forall lam p W (x z : mat CK) (DT : mat K) T n P w u v Yu Yv,
  0 <! alpha p -> 0 <! lam -> psd (2 * (n * T)) W -> shape x T n -> shape z T n -> shape DT (n * n) P ->
  length u = (2 * P)%nat -> length v = (2 * P)%nat -> rebuild DT n u = Ok Yu -> rebuild DT n v = Ok Yv -> decisive p (2 * P) ->
  (forall v' Yv', length v' = (2 * P)%nat -> rebuild DT n v' = Ok Yv' -> eiv_objective lam p W x z w u Yu <=! eiv_objective lam p W x z w v' Yv') ->
  eiv_objective lam p W x z w v Yv <=! eiv_objective lam p W x z w u Yu -> v = u.
Proof.
  intros lam p W x z DT T n P w u v Yu Yv Ha Hlam PW Hx Hz HD Hu Hv HYu HYv Dc HM HV.
  assert (Hm : length (mid (2 * P) u v) = (2 * P)%nat) by apply length_mkv.
  destruct (rebuild_total DT n P _ HD Hm) as (Ym & HYm). specialize (HM _ _ Hm HYm).
  destruct (real_misfit_fro n T x z DT P u Yu Hx Hz HD Hu HYu) as (Du & _).
  destruct (real_misfit_fro n T x z DT P v Yv Hx Hz HD Hv HYv) as (Dv & _).
  destruct (real_misfit_fro n T x z DT P _ Ym Hx Hz HD Hm HYm) as (Dm & _). cbv zeta in Du, Dv, Dm.
  pose proof (shape_regressor n T x DT P Hx HD) as (_ & HrA & HcA). set (A := regressor n x DT) in *. set (b := make_real_vector (vectorize_matrix z)) in *.
  assert (Lb : length b = nr A). { unfold b. rewrite length_make_real_vector, length_vectorize, HrA. destruct Hz as (_ & -> & ->). lia. }
  unfold eiv_objective, wnorm2 in HM, HV. rewrite <- Du, <- Dm in HM. rewrite <- Du, <- Dv in HV. cbv zeta in HM, HV.
  fold (form W (vsubt b (mvmul A u))) in HM, HV. fold (form W (vsubt b (mvmul A (mid (2 * P) u v)))) in HM. fold (form W (vsubt b (mvmul A v))) in HV.
  rewrite (frozen_mid p w (2 * P) u v Hu Hv Ha) in HM. pose proof PW as (HW & _ & PP).
  rewrite (form_mid W (2 * (n * T)) (vsubt b (mvmul A u)) (vsubt b (mvmul A v)) (vsubt b (mvmul A (mid (2 * P) u v)))) in HM; rewrite ?length_vsubt; auto; try congruence.
  2:{ intros i Hi. rewrite !vget_vsubt by congruence. rewrite (mvmul_mid A (2 * P)) by congruence. field. apply (k2_neq0 (K := K)). }
  destruct (midpoint_zero _ _ _ (form W (vsubt (vsubt b (mvmul A u)) (vsubt b (mvmul A v)))) (lam * frozen_gap p w u v) HM HV) as [_ Z].
  - field. apply (k2_neq0 (K := K)).
  - apply PP. rewrite !length_vsubt. congruence.
  - apply kle_mul; [apply klt_le; exact Hlam|apply gap_nonneg; exact Ha].
  - apply kmul_integral in Z. destruct Z as [Z|Z]; [exfalso; apply (klt_neq _ Hlam); exact Z|]. symmetry. apply (Dc u v Hu Hv). apply (gap_zero p w u v Ha Z).
Qed.
End Equiv.
