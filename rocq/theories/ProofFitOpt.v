(** Optimality of the updates. *)
From Coq Require Import Arith ZArith Lia List Bool Ring Field.
From Verif Require Import BasePy BaseFld BaseSum BaseMat BaseNumpy BaseOrd BaseLin ModelMatrixOps SpecMatrix SpecLS
  ModelPrior SpecPrior ProofPrior ProofMatrixOps ProofStruct ProofMatrixProps ProofLS ModelFit SpecFit ProofFitBase ProofFit.
Import ListNotations.
Local Open Scope K_scope.

Lemma matmul_ok : forall K (O : Ops K) (a b : mat K), nc a = nr b -> matmul a b = Ok (mmul a b).
Proof. intros. unfold matmul. rewrite H, Nat.eqb_refl. reflexivity. Qed.
Lemma matvec_ok : forall K (O : Ops K) (a : mat K) v, nc a = length v -> matvec a v = Ok (mvmul a v).
Proof. intros. unfold matvec. rewrite H, Nat.eqb_refl. reflexivity. Qed.
Lemma sp_add_ok : forall K (O : Ops K) (a b : mat K), nr a = nr b -> nc a = nc b -> sp_add a b = Ok (madd a b).
Proof. intros. unfold sp_add. rewrite H, H0, !Nat.eqb_refl. reflexivity. Qed.

Section Opt.
Context {K : Type} {O : Ops K} {F : Fld K} {O2 : OrdOps K} {OF : OrdFld K}.
Notation CK := (cplx K).
Add Field Kfld : (@k_field K O F).

Lemma np_vadd_ok : forall u v : list K, length u = length v -> np_vadd u v = Ok (vadd u v).
Proof.
  intros u v H. unfold np_vadd. rewrite broadcast1_same by exact H. f_equal.
  apply vec_ext; [rewrite map_length, combine_length, length_vadd; lia|].
  rewrite map_length, combine_length. intros i Hi. rewrite vget_vadd by lia.
  rewrite (vget_map _ _ _ (0, 0)) by (rewrite combine_length; lia). rewrite combine_nth by exact H. reflexivity.
Qed.
Lemma np_vsub_ok : forall u v : list K, length u = length v -> np_vsub u v = Ok (vsubt u v).
Proof.
  intros u v H. unfold np_vsub. rewrite broadcast1_same by exact H. f_equal.
  apply vec_ext; [rewrite map_length, combine_length, length_vsubt; lia|].
  rewrite map_length, combine_length. intros i Hi. rewrite vget_vsubt by lia.
  rewrite (vget_map _ _ _ (0, 0)) by (rewrite combine_length; lia). rewrite combine_nth by exact H. reflexivity.
Qed.

Lemma sym_bil : forall (W : mat K) m u v, shape W m m -> tr W = W -> length u = m -> length v = m ->
  vdot u (mvmul W v) = vdot v (mvmul W u).
Proof.
  intros W m u v (Hw & Hr & Hc) Ht Hu Hv. rewrite vdot_mvmul by congruence. rewrite Ht.
  apply vdot_comm. rewrite length_mvmul. congruence.
Qed.

(** *** Weighted regularised least squares *)
Definition wls (A W M : mat K) (b mu : list K) (lam : K) (w : list K) : K :=
  vdot (vsubt b (mvmul A w)) (mvmul W (vsubt b (mvmul A w))) + lam * (vdot w (mvmul M w) - (vdot mu w + vdot mu w)).

Lemma wls_split : forall (A W M : mat K) b mu lam u w m p,
  shape A m p -> shape W m m -> tr W = W -> shape M p p -> tr M = M ->
  length b = m -> length mu = p -> length u = p -> length w = p ->
  vadd (mvmul (tr A) (mvmul W (mvmul A u))) (vscal lam (mvmul M u)) = vadd (mvmul (tr A) (mvmul W b)) (vscal lam mu) ->
  wls A W M b mu lam w = wls A W M b mu lam u +
    (vdot (mvmul A (vsubt w u)) (mvmul W (mvmul A (vsubt w u))) + lam * vdot (vsubt w u) (mvmul M (vsubt w u))).
Proof.
  intros A W M b mu lam u w m p HA HW HtW HM HtM Hb Hmu Hu Hw HN.
  pose proof HA as (HwA & HrA & HcA). pose proof HW as (HwW & HrW & HcW). pose proof HM as (HwM & HrM & HcM).
  set (d := vsubt w u). assert (Hd : length d = p) by (unfold d; rewrite length_vsubt; exact Hw).
  assert (Ew : w = vadd u d).
  { apply vec_ext; [rewrite length_vadd; congruence|]. intros i Hi. rewrite vget_vadd by congruence.
    unfold d. rewrite vget_vsubt by congruence. ring. }
  set (r := vsubt b (mvmul A u)). assert (Hr : length r = m) by (unfold r; rewrite length_vsubt; exact Hb).
  assert (Er : vsubt b (mvmul A w) = vsubt r (mvmul A d)).
  { apply vec_ext; [rewrite !length_vsubt; congruence|]. rewrite length_vsubt. intros i Hi.
    unfold r. rewrite !vget_vsubt by (rewrite ?length_vsubt; congruence).
    rewrite Ew, mvmul_vadd by congruence. rewrite vget_vadd by (rewrite length_mvmul; congruence). ring. }
  unfold wls. fold r. rewrite Er.
  set (q := mvmul A d). assert (Hq : length q = m) by (unfold q; rewrite length_mvmul; exact HrA).
  rewrite (mvmul_vsubt W r q) by congruence.
  rewrite vdot_vsubt_l by congruence. rewrite !vdot_vsubt_r by (rewrite ?length_mvmul; congruence).
  rewrite (sym_bil W m r q HW HtW Hr Hq).
  assert (E1 : vdot q (mvmul W r) = lam * (vdot d (mvmul M u) - vdot mu d)).
  { unfold q. rewrite vdot_comm by (rewrite !length_mvmul; congruence).
    rewrite vdot_mvmul by (rewrite ?length_mvmul; congruence).
    assert (E : mvmul (tr A) (mvmul W r) = vscal lam (vsubt (mvmul M u) mu)).
    { unfold r. rewrite mvmul_vsubt by (rewrite ?length_mvmul; congruence).
      rewrite mvmul_vsubt by (rewrite ?length_mvmul; cbn [tr mtr nc nr mk]; congruence).
      apply vec_ext; [rewrite length_vsubt, length_vscal, length_vsubt, !length_mvmul; cbn [tr mtr nr mk]; congruence|].
      rewrite length_vsubt, length_mvmul. cbn [tr mtr nr mk]. rewrite HcA. intros i Hi.
      rewrite vget_vsubt by (rewrite length_mvmul; cbn [tr mtr nr mk]; congruence).
      rewrite vget_vscal by (rewrite length_vsubt, length_mvmul; congruence).
      rewrite vget_vsubt by (rewrite length_mvmul; congruence).
      pose proof (f_equal (fun v => vget v i) HN) as E. cbv beta in E.
      rewrite !vget_vadd in E by (rewrite length_mvmul; cbn [tr mtr nr mk]; congruence).
      rewrite !vget_vscal in E by (rewrite ?length_mvmul; congruence).
      transitivity (vget (mvmul (tr A) (mvmul W b)) i - vget (mvmul (tr A) (mvmul W (mvmul A u))) i); [ring|].
      transitivity ((vget (mvmul (tr A) (mvmul W b)) i + lam * vget mu i) - lam * vget mu i - vget (mvmul (tr A) (mvmul W (mvmul A u))) i); [ring|].
      rewrite <- E. ring. }
    rewrite E. rewrite vdot_vscal_l, vdot_vsubt_l by (rewrite length_mvmul; congruence).
    rewrite (vdot_comm (mvmul M u) d) by (rewrite length_mvmul; congruence). reflexivity. }
  rewrite E1, Ew. rewrite (mvmul_vadd M u d) by congruence.
  rewrite vdot_vadd_l by congruence. rewrite !vdot_vadd_r by (rewrite ?length_mvmul; congruence).
  rewrite (sym_bil M p u d HM HtM Hu Hd). ring.
Qed.

Lemma wls_min : forall (A W M : mat K) b mu lam u w m p,
  shape A m p -> psd m W -> psd p M -> 0 <=! lam ->
  length b = m -> length mu = p -> length u = p -> length w = p ->
  vadd (mvmul (tr A) (mvmul W (mvmul A u))) (vscal lam (mvmul M u)) = vadd (mvmul (tr A) (mvmul W b)) (vscal lam mu) ->
  wls A W M b mu lam u <=! wls A W M b mu lam w.
Proof.
  intros A W M b mu lam u w m p HA (HW & HtW & HpW) (HM & HtM & HpM) Hl Hb Hmu Hu Hw HN.
  rewrite (wls_split A W M b mu lam u w m p) by assumption.
  apply (proj2 (kle_sub _ _)).
  match goal with |- 0 <=! ?a + ?b - ?a => replace (a + b - a) with b by ring end.
  apply kle_0_add.
  - apply HpW. rewrite length_mvmul. apply HA.
  - apply kle_mul; [exact Hl|]. apply HpM. rewrite length_vsubt. exact Hw.
Qed.

Lemma psd_meye : forall m, psd m (meye m).
Proof.
  intros m. split; [apply shape_meye|]. split; [apply tr_meye|]. intros v Hv.
  rewrite <- Hv, mvmul_1. apply sumn_nonneg. intros; apply kle_sqr.
Qed.

(** *** Smoothed priors *)
Lemma log_length : forall p m w r, well_formed p m -> log_distribution p w = Ok r -> length w = m.
Proof.
  intros p m w r (Hn & (Hw & Hr & Hc) & Hg) H. unfold log_distribution in H.
  apply bind_ok in H. destruct H as (v & Hv & _). unfold prior_w in Hv.
  apply bind_ok in Hv. destruct Hv as (lx & Hlx & _). unfold squeezed_matvec in Hlx.
  destruct (length w =? 1)%nat; [inversion Hlx|]. unfold matvec in Hlx. destruct (Nat.eqb_spec (nc (bL (base p))) (length w)); [congruence|].
  inversion Hlx.
Qed.

Lemma log_frozen : forall p m w, well_formed p m -> length w = m -> m <> 1%nat -> 0 <! alpha p ->
  exists M mu, log_distribution p w = Ok (M, mu, sumn (length (bmu (base p))) (wt p w)) /\
    psd m M /\ length mu = m /\
    exists c, forall u, length u = m ->
      frozen_penalty p w u = vdot u (mvmul M u) - (vdot mu u + vdot mu u) + c.
Proof.
  intros p m w Hwf Hw H1 Ha.
  destruct (p_quadratic p m w Hwf Hw H1 Ha) as (M & mu & pen & Hlog & HsM & Hlmu & HtM & HpM & _).
  destruct (p_log_value p m w Hwf Hw H1) as (M' & mu' & Hlog' & _ & _ & HgM & Hgmu).
  rewrite Hlog in Hlog'. inversion Hlog'; subst M' mu' pen. clear Hlog'.
  exists M, mu. split; [exact Hlog|]. split; [split; [|split]; assumption|]. split; [exact Hlmu|].
  set (k := length (bmu (base p))) in *.
  exists (sumn k (fun i => vget (bmu (base p)) i * vget (bmu (base p)) i / wt p w i)).
  intros u Hu. unfold frozen_penalty. fold k.
  set (l := fun i => sumn m (fun j => get (bL (base p)) i j * vget u j)).
  assert (Hwn : forall i, wt p w i <> 0) by (intros; apply klt_neq, wt_pos; exact Ha).
  assert (E1 : vdot u (mvmul M u) = sumn k (fun i => l i * l i / wt p w i)).
  { unfold vdot. rewrite Hu.
    rewrite (sumn_ext m _ (fun j => sumn k (fun i => vget u j * get (bL (base p)) i j * l i / wt p w i))).
    - rewrite sumn_swap. apply sumn_ext; intros i Hi.
      rewrite (sumn_ext m _ (fun j => (get (bL (base p)) i j * vget u j) * (l i / wt p w i))) by (intros; field; auto).
      rewrite sumn_scal_r. fold (l i). field; auto.
    - intros j Hj. rewrite vget_mvmul by (destruct HsM as (_ & -> & _); exact Hj). destruct HsM as (_ & _ & Hc). rewrite Hc.
      rewrite <- sumn_scal_l.
      rewrite (sumn_ext m _ (fun j' => sumn k (fun i => vget u j * get (bL (base p)) i j / wt p w i * (get (bL (base p)) i j' * vget u j')))).
      + rewrite sumn_swap. apply sumn_ext; intros i Hi. rewrite sumn_scal_l. fold (l i). field; auto.
      + intros j' Hj'. rewrite HgM by assumption. rewrite <- sumn_scal_r, <- sumn_scal_l.
        apply sumn_ext; intros i Hi. field; auto. }
  assert (E2 : vdot mu u = sumn k (fun i => l i * vget (bmu (base p)) i / wt p w i)).
  { unfold vdot. rewrite Hlmu.
    rewrite (sumn_ext m _ (fun j => sumn k (fun i => get (bL (base p)) i j * vget u j * (vget (bmu (base p)) i / wt p w i)))).
    - rewrite sumn_swap. apply sumn_ext; intros i Hi. rewrite sumn_scal_r. fold (l i). field; auto.
    - intros j Hj. rewrite Hgmu by exact Hj. rewrite <- sumn_scal_r. apply sumn_ext; intros i Hi. field; auto. }
  rewrite E1, E2, <- sumn_add, <- sumn_sub, <- sumn_add. apply sumn_ext; intros i Hi.
  change (kpow (kabs (residual (base p) w i)) (2 - nth i (gamma p) 0%nat) + alpha p) with (wt p w i).
  unfold residual. rewrite Hu. fold (l i). field; auto.
Qed.

(** *** The regressor *)
Lemma regressor_sub : forall n T (x y : mat CK) DT P, shape x T n -> shape y T n -> shape DT (n * n) P ->
  msubt (regressor n x DT) (regressor n y DT) = regressor n (msubt x y) DT.
Proof.
  intros n T x y DT P Hx Hy HD. pose proof HD as (HwD & HrD & HcD). pose proof Hx as (_ & Hrx & Hcx). pose proof Hy as (_ & Hry & Hcy).
  assert (Hxy : shape (msubt x y) T n) by (rewrite <- Hrx, <- Hcx; apply shape_mk).
  pose proof (shape_regressor n T x DT P Hx HD) as Hs1. pose proof (shape_regressor n T y DT P Hy HD) as Hs2.
  pose proof (shape_regressor n T _ DT P Hxy HD) as Hs3.
  pose proof Hs1 as (_ & R1 & C1).
  apply (gshape_ext _ _ (2 * (n * T)) (2 * P)); [rewrite <- R1, <- C1; apply shape_mk|exact Hs3|].
  intros i j Hi Hj. rewrite get_msubt by congruence.
  (* columns: apply to unit vectors *)
  assert (Hcol : forall A : mat K, shape A (2 * (n * T)) (2 * P) -> get A i j = vget (mvmul A (unitv (2 * P) j)) i).
  { intros A (_ & RA & CA). rewrite vget_mvmul by congruence. rewrite CA.
    unfold unitv. rewrite (sumn_ext _ _ (fun k => get A i k * (if (k =? j)%nat then 1 else 0))).
    - symmetry. apply sumn_delta_r. exact Hj.
    - intros k Hk. rewrite vget_mkv by exact Hk. rewrite ?(Nat.eqb_sym j k). reflexivity. }
  rewrite (Hcol _ Hs1), (Hcol _ Hs2), (Hcol _ Hs3).
  destruct (even_real (unitv (2 * P) j) P (length_unitv _ _)) as (v & Ev & Hv). rewrite Ev.
  destruct (rebuild_ex DT n v HrD) as (Y & _ & HY & HvY); [congruence|].
  rewrite !(regressor_apply n T _ DT P v Y) by assumption.
  pose proof HY as (_ & HrY & HcY).
  rewrite <- vget_vsubt by (rewrite length_make_real_vector, length_vectorize; simpl; rewrite HcY, Hrx; lia).
  rewrite real_vector_sub by (rewrite !length_vectorize; simpl; congruence).
  rewrite vectorize_msubt by (simpl; congruence).
  rewrite mmul_msubt_l by congruence. reflexivity.
Qed.

Lemma misfit_real : forall n T (x z : mat CK) DT P v Y, shape x T n -> shape z T n -> shape DT (n * n) P ->
  length v = P -> shape Y n n -> vectorize_matrix Y = mvmul (cmat DT) v ->
  vsubt (make_real_vector (vectorize_matrix z)) (mvmul (regressor n x DT) (make_real_vector v)) =
  make_real_vector (vectorize_matrix (msubt z (mmul x Y))).
Proof.
  intros n T x z DT P v Y Hx (_ & Hrz & Hcz) HD Hv HY HvY.
  rewrite (regressor_apply n T x DT P v Y) by assumption.
  destruct Hx as (_ & Hrx & Hcx). destruct HY as (_ & HrY & HcY).
  rewrite real_vector_sub by (rewrite !length_vectorize; simpl; congruence).
  rewrite vectorize_msubt by (simpl; congruence). reflexivity.
Qed.
End Opt.
