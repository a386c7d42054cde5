(** Descent of the smoothed objective (reals). *)
From Coq Require Import Arith ZArith Lia List Bool Reals Lra.
From Verif Require Import BasePy BaseFld BaseSum BaseMat BaseNumpy BaseOrd BaseLin ModelMatrixOps SpecMatrix SpecLS
  ModelPrior SpecPrior ProofPrior ProofMatrixOps ProofStruct ProofMatrixProps ProofLS ModelFit SpecFit SpecFitReal ProofFitBase ProofFit ProofFitOpt ProofFitBR ProofFitEIV.
Import ListNotations.
Local Open Scope R_scope.



Lemma kabs_Rabs : forall x : R, kabs x = Rabs x.
Proof.
  intros x. unfold kabs, kleb, k0, kopp. cbn. unfold Rabs.
  destruct (Rle_dec 0 x), (Rcase_abs x); try lra; reflexivity.
Qed.

Lemma majorise1 : forall a s t, 0 < a -> 0 <= s -> 0 <= t ->
  2 * (t - a * ln (1 + t / a)) <= 2 * (s - a * ln (1 + s / a)) + (t * t - s * s) / (s + a).
Proof.
  intros a s t Ha Hs Ht.
  set (g := fun y => (y * y - s * s) / (s + a) - 2 * (y - a * ln (1 + y / a))).
  set (g' := fun y => 2 * y / (s + a) - 2 * (1 - a * (/ (1 + y / a) * (1 / a)))).
  assert (Hd : forall y, 0 <= y -> derivable_pt_lim g y (g' y)).
  { intros y Hy. assert (Hpos : 0 < 1 + y / a) by (assert (0 <= y / a) by (apply Rmult_le_pos; [lra|left; apply Rinv_0_lt_compat; lra]); lra).
    unfold g, g'.
    apply derivable_pt_lim_minus.
    - replace (2 * y / (s + a)) with (((1 * y + y * 1) - 0) * / (s + a) + (y * y - s * s) * 0) by (field; lra).
      apply (derivable_pt_lim_mult (fun y => y * y - s * s) (fun _ => / (s + a))).
      + apply (derivable_pt_lim_minus (fun y => y * y) (fun _ => s * s)).
        * apply (derivable_pt_lim_mult (fun y => y) (fun y => y)); apply derivable_pt_lim_id.
        * apply derivable_pt_lim_const.
      + apply derivable_pt_lim_const.
    - apply (derivable_pt_lim_scal (fun y => y - a * ln (1 + y / a)) 2).
      apply (derivable_pt_lim_minus (fun y => y) (fun y => a * ln (1 + y / a))).
      + apply derivable_pt_lim_id.
      + apply (derivable_pt_lim_scal (fun y => ln (1 + y / a)) a).
        apply (derivable_pt_lim_comp (fun y => 1 + y / a) ln).
        * replace (1 / a) with (0 + (1 * / a + y * 0)) by (field; lra).
          apply (derivable_pt_lim_plus (fun _ => 1) (fun y => y * / a)); [apply derivable_pt_lim_const|].
          apply (derivable_pt_lim_mult (fun y => y) (fun _ => / a)); [apply derivable_pt_lim_id|apply derivable_pt_lim_const].
        * apply derivable_pt_lim_ln. exact Hpos. }
  assert (Hg' : forall y, 0 <= y -> g' y = 2 * y * (y - s) * / ((s + a) * (y + a))).
  { intros y Hy. unfold g'. field. lra. }
  assert (Hinv : forall y, 0 <= y -> 0 < / ((s + a) * (y + a))).
  { intros y Hy. apply Rinv_0_lt_compat. apply Rmult_lt_0_compat; lra. }
  assert (Hmain : g s <= g t).
  { destruct (Rtotal_order s t) as [H|[H|H]].
    - destruct (MVT_cor2 g g' s t H) as (c & E & Hc); [intros y Hy; apply Hd; lra|].
      rewrite Hg' in E by lra. assert (0 <= 2 * c * (c - s) * / ((s + a) * (c + a)) * (t - s)); [|lra].
      apply Rmult_le_pos; [|lra]. apply Rmult_le_pos; [|left; apply Hinv; lra]. apply Rmult_le_pos; lra.
    - subst; lra.
    - destruct (MVT_cor2 g g' t s H) as (c & E & Hc); [intros y Hy; apply Hd; lra|].
      rewrite Hg' in E by lra.
      assert (0 <= 2 * c * (s - c) * / ((s + a) * (c + a)) * (s - t)).
      { apply Rmult_le_pos; [|lra]. apply Rmult_le_pos; [|left; apply Hinv; lra]. apply Rmult_le_pos; lra. }
      replace (2 * c * (c - s) * / ((s + a) * (c + a)) * (s - t)) with (- (2 * c * (s - c) * / ((s + a) * (c + a)) * (s - t))) in E by ring.
      lra. }
  unfold g in Hmain. replace ((s * s - s * s) / (s + a)) with 0 in Hmain by (field; lra). lra.
Qed.

Lemma majorise : forall o a s t, 0 < a -> 0 <= s -> 0 <= t ->
  psi o a t <= psi o a s + (t * t - s * s) / (kpow s (2 - o) + a).
Proof.
  intros o a s t Ha Hs Ht. destruct o as [|[|o]].
  - change (kpow s (2 - 0)) with (s * (s * 1)). unfold psi. rewrite Rmult_1_r.
    assert (Hss : 0 <= s * s) by (apply Rle_0_sqr). assert (Htt : 0 <= t * t) by (apply Rle_0_sqr).
    set (A := s * s + a) in *. set (B := t * t + a) in *.
    assert (HA : 0 < A) by (unfold A; lra). assert (HB : 0 < B) by (unfold B; lra).
    assert (E : (t * t - s * s) / A = B / A - 1) by (unfold A, B; field; unfold A in HA; lra).
    rewrite E. assert (Hl : ln (B / A) <= B / A - 1).
    { assert (HBA : 0 < B / A) by (apply Rdiv_lt_0_compat; assumption).
      pose proof (exp_ineq1_le (ln (B / A))) as H. rewrite exp_ln in H by exact HBA. lra. }
    unfold Rdiv in Hl at 1. rewrite ln_mult in Hl by (try assumption; apply Rinv_0_lt_compat; assumption). rewrite ln_Rinv in Hl by assumption. lra.
  - change (kpow s (2 - 1)) with (s * 1). rewrite Rmult_1_r. apply majorise1; assumption.
  - change (kpow s (2 - S (S o))) with (kpow s 0). change (kpow s 0) with 1. unfold psi.
    apply Req_le. field. lra.
Qed.

Lemma sumn_le_R : forall n (f g : nat -> R), (forall i, (i < n)%nat -> f i <= g i) -> sumn n f <= sumn n g.
Proof.
  intros n f g H. apply (R_leb_le _ _). apply sumn_le. intros i Hi. apply (R_leb_le _ _). apply H; exact Hi.
Qed.

Lemma sumn_sub_R : forall n (f g : nat -> R), sumn n f - sumn n g = sumn n (fun i => f i - g i).
Proof. intros. symmetry. exact (sumn_sub n f g). Qed.

Lemma smooth_majorised : forall (p : sprior R) w u, 0 < alpha p ->
  smooth_penalty p u - smooth_penalty p w <= frozen_penalty p w u - frozen_penalty p w w.
Proof.
  intros p w u Ha. unfold smooth_penalty, frozen_penalty.
  rewrite !sumn_sub_R. apply sumn_le_R. intros i Hi.
  set (s := residual (base p) w i). set (t := residual (base p) u i).
  pose proof (majorise (nth i (gamma p) 0%nat) (alpha p) (kabs s) (kabs t) Ha) as H.
  rewrite !kabs_Rabs in *. specialize (H (Rabs_pos _) (Rabs_pos _)).
  assert (Hsq : forall y, Rabs y * Rabs y = y * y) by (intros y; rewrite <- Rabs_mult; apply Rabs_pos_eq, Rle_0_sqr).
  rewrite !Hsq in H.
  set (D := kpow (Rabs s) (2 - nth i (gamma p) 0%nat) + alpha p) in *.
  change (psi (nth i (gamma p) 0%nat) (alpha p) (Rabs t) - psi (nth i (gamma p) 0%nat) (alpha p) (Rabs s) <= t * t / D - s * s / D).
  replace ((t * t - s * s) / D) with (t * t / D - s * s / D) in H by (unfold Rdiv; ring). lra.
Qed.


Theorem p_br_descent : forall spsolve e p (x z y0 : mat (cplx R)) T n P DT El e' ex,
  solver_sound spsolve -> (forall v, e_prior e v = log_distribution p v) -> well_formed p (2 * P) -> 0 < alpha p -> 0 <= e_lambda e ->
  shape x T n -> shape z T n -> e_dt e n = Ok DT -> e_el e n = Ok El -> shape DT (n * n) P -> shape El P (n * n) ->
  shape y0 n n ->
  br_fit spsolve e x z y0 = (e', ex) ->
  exists new ws Ys, e_iters e' = e_iters e ++ new /\ length ws = S (length new) /\ length Ys = S (length new) /\
    nth 0 ws [] = make_real_vector (mvmul (cmat El) (vectorize_matrix y0)) /\
    (forall k, (k <= length new)%nat -> length (nth k ws []) = (2 * P)%nat) /\
    (forall k, (k <= length new)%nat -> rebuild DT n (nth k ws []) = Ok (nth k Ys (Mat 0 0 []))) /\
    (forall k d, (k < length new)%nat -> nth (S k) Ys (Mat 0 0 []) = st_y (nth k new d)) /\
    forall k, (k < length new)%nat ->
      br_smooth (e_lambda e) p x z (nth (S k) ws []) (nth (S k) Ys (Mat 0 0 [])) <=
      br_smooth (e_lambda e) p x z (nth k ws []) (nth k Ys (Mat 0 0 [])).
Proof.
  intros spsolve e p x z y0 T n P DT El e' ex Hsound Hprior Hp Ha Hlam Hx Hz Hdt Hel HDT HEl Hy0 H.
  assert (Ha' : klt 0%K (alpha p)).
  { apply (klt_spec _ _). intros Hc. apply (R_leb_le _ _) in Hc. simpl in Hc. lra. }
  assert (Hlam' : kle 0%K (e_lambda e)) by (apply (R_leb_le _ _); exact Hlam).
  destruct (p_br_fit spsolve e p x z y0 T n P DT El e' ex Hsound Hprior Hp Ha' Hlam' Hx Hz Hdt Hel HDT H)
    as (new & ws & Hit & Hlw & Hw0 & Hk).
  pose proof HDT as (HwD & HrD & HcD). pose proof HEl as (HwE & HrE & HcE).
  destruct (rebuild_ex DT n (mvmul (cmat El) (vectorize_matrix y0)) HrD) as (Y0 & HY0 & HsY0 & _).
  { rewrite length_mvmul. simpl. congruence. }
  exists new, ws, (Y0 :: map st_y new). split; [exact Hit|]. split; [exact Hlw|]. split; [simpl; rewrite map_length; reflexivity|].
  split; [exact Hw0|].
  assert (HYs : forall k d, (k < length new)%nat -> nth (S k) (Y0 :: map st_y new) (Mat 0 0 []) = st_y (nth k new d)).
  { intros k d Hkn. cbn [nth]. rewrite (nth_indep _ _ (st_y d)) by (rewrite map_length; exact Hkn). apply map_nth. }
  assert (Hlen : forall k, (k <= length new)%nat -> length (nth k ws []) = (2 * P)%nat).
  { intros [|k] Hkn; [rewrite Hw0, length_make_real_vector, length_mvmul; simpl; lia|].
    destruct (Hk k (St 0 Y0 0) ltac:(lia)) as (_ & Hl & _). exact Hl. }
  assert (Hreb : forall k, (k <= length new)%nat -> rebuild DT n (nth k ws []) = Ok (nth k (Y0 :: map st_y new) (Mat 0 0 []))).
  { intros [|k] Hkn; [rewrite Hw0; exact HY0|].
    destruct (Hk k (St 0 Y0 0) ltac:(lia)) as (HY & _). rewrite (HYs k (St 0 Y0 0)) by lia. exact HY. }
  split; [exact Hlen|]. split; [exact Hreb|]. split; [exact HYs|].
  intros k Hkn. destruct (Hk k (St 0 Y0 0) Hkn) as (HY & Hl & _ & Hmin).
  specialize (Hmin _ _ (Hlen k ltac:(lia)) (Hreb k ltac:(lia))). apply (R_leb_le _ _) in Hmin.
  rewrite (HYs k (St 0 Y0 0) Hkn). unfold br_objective in Hmin. unfold br_smooth.
  pose proof (smooth_majorised p (nth k ws []) (nth (S k) ws []) Ha) as Hm.
  apply (Rmult_le_compat_l (e_lambda e)) in Hm; [|exact Hlam].
  unfold kadd, kmul in Hmin. cbn [R_ops] in Hmin. lra.
Qed.


Lemma finite_choice : forall A (d : A) n (Q : nat -> A -> Prop), (forall k, (k < n)%nat -> exists a, Q k a) ->
  exists l, length l = n /\ forall k, (k < n)%nat -> Q k (nth k l d).
Proof.
  intros A d. induction n; intros Q H.
  - exists []. split; [reflexivity|]. intros; lia.
  - destruct (IHn Q) as (l & Hl & HQ); [intros; apply H; lia|]. destruct (H n ltac:(lia)) as (a & Ha).
    exists (l ++ [a]). split; [rewrite app_length; simpl; lia|]. intros k Hk.
    destruct (Nat.eq_dec k n) as [->|E].
    + rewrite app_nth2 by lia. rewrite Hl, Nat.sub_diag. exact Ha.
    + rewrite app_nth1 by lia. apply HQ. lia.
Qed.

(** after the first iteration, both halves of every iteration lower the same objective *)
Theorem p_eiv_descent : forall spsolve cabs e p (x z y0 : mat (cplx R)) W zarg T n P m DT El e' ex,
  m = (2 * (n * T))%nat ->
  solver_sound spsolve -> (forall v, e_prior e v = log_distribution p v) -> well_formed p (2 * P) -> 0 < alpha p -> 0 <= e_lambda e ->
  shape x T n -> shape z T n -> shape y0 n n -> e_dt e n = Ok DT -> e_el e n = Ok El -> shape DT (n * n) P -> psd m W ->
  (forall u Y, length u = (2 * P)%nat -> rebuild DT n u = Ok Y -> symmetric n Y) ->
  eiv_fit spsolve cabs e x z (Some W) (Some zarg) y0 = (e', ex) ->
  exists new us Ds, e_iters e' = e_iters e ++ new /\ length us = length new /\ length Ds = length new /\
    (forall k d, (k < length new)%nat -> length (nth k us []) = (2 * P)%nat /\ rebuild DT n (nth k us []) = Ok (st_y (nth k new d)) /\ shape (nth k Ds (Mat 0 0 [])) T n) /\
    forall k d, (S k < length new)%nat ->
      eiv_smooth (e_lambda e) p W x z (nth (S k) Ds (Mat 0 0 [])) (nth (S k) us []) (st_y (nth (S k) new d)) <=
      eiv_smooth (e_lambda e) p W x z (nth k Ds (Mat 0 0 [])) (nth k us []) (st_y (nth k new d)).
Proof.
  intros spsolve cabs e p x z y0 W zarg T n P m DT El e' ex Hm Hsound Hprior Hp Ha Hlam Hx Hz Hy0 Hdt Hel HDT HW Hsym H.
  assert (Ha' : klt 0%K (alpha p)).
  { apply (klt_spec _ _). intros Hc. apply (R_leb_le _ _) in Hc. simpl in Hc. lra. }
  assert (Hlam' : kle 0%K (e_lambda e)) by (apply (R_leb_le _ _); exact Hlam).
  destruct (p_eiv_fit spsolve cabs e p x z y0 W zarg T n P m DT El e' ex Hm Hsound Hprior Hp Ha' Hlam' Hx Hz Hy0 Hdt Hel HDT HW H)
    as (new & ws & Hit & Hlw & Hw0 & Hk).
  set (d0 := St 0 y0 0%R : status R).
  destruct (finite_choice _ (Mat 0 0 [] : mat (cplx R)) (length new) (fun k D => shape D T n /\
        (forall D', shape D' T n -> kle (input_objective W W x z (tr (prev_y y0 new k)) D) (input_objective W W x z (tr (prev_y y0 new k)) D')) /\
        forall v Yv, length v = (2 * P)%nat -> rebuild DT n v = Ok Yv ->
          kle (eiv_objective (e_lambda e) p W (msubt x D) z (nth k ws []) (nth (S k) ws []) (st_y (nth k new d0)))
          (eiv_objective (e_lambda e) p W (msubt x D) z (nth k ws []) v Yv))) as (Ds & HlD & HDs).
  { intros k Hkn. destruct (Hk k d0 Hkn) as (_ & _ & D & HD & _ & H1 & H2). exists D. auto. }
  destruct ws as [|w0 us]; [simpl in Hlw; lia|]. simpl in Hlw. injection Hlw as Hlw.
  exists new, us, Ds. split; [exact Hit|]. split; [exact Hlw|]. split; [exact HlD|].
  assert (Hd : forall k d, (k < length new)%nat -> nth k new d = nth k new d0) by (intros; apply nth_indep; assumption).
  split.
  - intros k d Hkn. destruct (Hk k d Hkn) as (HY & Hl & _). split; [exact Hl|]. split; [exact HY|]. apply HDs; exact Hkn.
  - intros k d Hkn. rewrite (Hd (S k) d), (Hd k d) by lia.
    destruct (HDs (S k) Hkn) as (HD1 & Hin & Hout). destruct (HDs k ltac:(lia)) as (HD0 & _ & _).
    destruct (Hk k d0 ltac:(lia)) as (HY & Hl & _).
    specialize (Hout _ _ Hl HY). cbn [nth] in Hl, HY.
    assert (Etr : tr (prev_y y0 new (S k)) = st_y (nth k new d0)).
    { change (prev_y y0 new (S k)) with (st_y (nth k new d0)). destruct (Hsym _ _ Hl HY) as (Hs & Hg). pose proof Hs as (_ & R1 & C1).
      apply (gshape_ext _ _ n n); [split; [apply wf_mk|dims; auto]|exact Hs|].
      intros i j Hi Hj. rewrite get_tr by congruence. apply Hg; assumption. }
    rewrite Etr in Hin. specialize (Hin _ HD0).
    apply (R_leb_le _ _) in Hin. apply (R_leb_le _ _) in Hout.
    pose proof (smooth_majorised p (nth k us []) (nth (S k) us []) Ha) as Hmj.
    apply (Rmult_le_compat_l (e_lambda e)) in Hmj; [|exact Hlam].
    unfold eiv_smooth. unfold eiv_objective in Hout. cbn [nth] in Hout. unfold input_objective in *. unfold kadd, kmul in *. cbn [R_ops] in *. lra.
Qed.
