(** Renumbered nodes: sums over nodes and lines, uniqueness of the best matrix, two loops side by side. *)
From Coq Require Import Bool Arith List Lia Ring Field Permutation.
From Verif Require Import BasePy BaseFld BaseOrd BaseSum BaseMat BaseNumpy BaseLin ModelMatrixOps SpecMatrix ModelPrior ModelFit ModelLS
  SpecPrior SpecLS SpecFit SpecIdent SpecBayes SpecOrder SpecRenumber ProofMatrixOps ProofStruct ProofPrior ProofLS ProofFitBase ProofFit ProofFitOpt ProofFitBR ProofFitRep
  ProofIdent ProofOrder5.
Import ListNotations.
Local Open Scope K_scope.

(** ** sums *)
Section Sums.
Context {K : Type} {O : Ops K} {F : Fld K}.
Add Field KfldEq : (@k_field K O F).
Lemma lsum_permutation : forall l l' : list K, Permutation l l' -> lsum l = lsum l'.
Proof. intros l l' H. induction H as [|x l l' H IH|x y l|l l' l'' H1 IH1 H2 IH2]; [reflexivity| | |congruence]; cbn [lsum]; [rewrite IH; reflexivity|ring]. Qed.
Lemma sumn_list : forall n (f : nat -> K), lsum (map f (seq 0 n)) = sumn n f.
Proof. intros n f. rewrite lsum_nth, map_length, seq_length. apply sumn_ext. intros i Hi. rewrite (nth_indep _ 0 (f 0%nat)) by (rewrite map_length, seq_length; assumption). rewrite map_nth, seq_nth by assumption. reflexivity. Qed.
Lemma sum_numbering : forall n p (f : nat -> K), numbering n p -> sumn n (fun i => f (p i)) = sumn n f.
Proof. intros n p f H. rewrite <- !sumn_list, <- (map_map p f). apply lsum_permutation. apply Permutation_map. exact H. Qed.
Lemma two_line_sums : forall n (f : nat -> nat -> K), (forall i j, (i < n)%nat -> (j < n)%nat -> f i j = f j i) ->
  line_sum n f + line_sum n f = sumn n (fun i => sumn n (fun j => if (i =? j)%nat then 0 else f i j)).
Proof.
  intros n f S. rewrite (line_sum_columns n f) at 1. unfold line_sum.
  rewrite (sumn_ext n (fun i => sumn i (fun j => f i j)) (fun i => sumn n (fun j => if (j <? i)%nat then f i j else 0))) by (intros i Hi; symmetry; apply sumn_below; lia).
  rewrite <- sumn_add. apply sumn_ext. intros i Hi. rewrite <- sumn_add. apply sumn_ext. intros j Hj.
  destruct (Nat.eqb_spec i j) as [E|Hne]; destruct (Nat.ltb_spec i j); destruct (Nat.ltb_spec j i); try lia; try ring. rewrite (S j i) by assumption. ring.
Qed.
End Sums.
Section Lines.
Context {K : Type} {O : Ops K} {F : Fld K} {O2 : OrdOps K} {OF : OrdFld K}.
Notation CK := (cplx K).
Add Field KfldEq2 : (@k_field K O F).
Lemma double_inj : forall a b : K, a + a = b + b -> a = b.
Proof.
  intros a b H. assert (E : (1 + 1) * (a - b) = 0). { replace ((1 + 1) * (a - b)) with ((a + a) - (b + b)) by ring. rewrite H. ring. }
  apply kmul_integral in E. destruct E as [E|E]; [exfalso; apply (k2_neq0 (K := K)); exact E|apply ksub_eq0; exact E].
Qed.
Lemma line_sum_numbering : forall n p (f : nat -> nat -> K), numbering n p -> (forall i j, (i < n)%nat -> (j < n)%nat -> f i j = f j i) ->
  line_sum n (fun i j => f (p i) (p j)) = line_sum n f.
Proof.
  intros n p f HP S. apply double_inj. rewrite !two_line_sums; [|exact S|].
  2:{ intros i j Hi Hj. apply S; apply (order_lt n p HP); assumption. }
  rewrite <- (sum_numbering n p (fun i => sumn n (fun j => if (i =? j)%nat then 0 else f i j)) HP). apply sumn_ext. intros i Hi.
  rewrite <- (sum_numbering n p (fun j => if (p i =? j)%nat then 0 else f (p i) j) HP). apply sumn_ext. intros j Hj.
  destruct (Nat.eqb_spec i j) as [->|Hne]; [rewrite Nat.eqb_refl; reflexivity|]. destruct (Nat.eqb_spec (p i) (p j)) as [E|_]; [|reflexivity].
  exfalso. apply Hne. apply (order_inj n p HP); assumption.
Qed.

(** ** uniqueness *)
Lemma midpoint_zero : forall a b m d1 d2 : K, a <=! m -> b <=! a -> m = (a + b) / (1 + 1) - (d1 + d2) / (1 + 1) / (1 + 1) -> 0 <=! d1 -> 0 <=! d2 -> d1 = 0 /\ d2 = 0.
Proof.
  intros a b m d1 d2 H1 H2 -> P1 P2. apply kle_add_zero; try assumption. apply kle_antisym; [|apply kle_0_add; assumption].
  assert (T := k2_neq0 (K := K)).
  apply (proj2 (kle_sub _ _)). apply (proj1 (kle_sub _ _)) in H1. apply (proj1 (kle_sub _ _)) in H2.
  assert (P4 : 0 <=! (1 + 1 + (1 + 1) : K)) by (repeat apply kle_0_add; apply kle_01).
  assert (Q := kle_0_add _ _ (kle_mul _ _ P4 H1) (kle_mul (1 + 1) _ ltac:(apply kle_0_add; apply kle_01) H2)).
  match type of Q with 0 <=! ?x => match goal with |- 0 <=! ?y => replace y with x; [exact Q|] end end. field. auto.
Qed.

Definition mid (P : nat) (u v : list K) : list K := mkv P (fun k => (vget u k + vget v k) / (1 + 1)).
Lemma half_sq : forall a b : K, (a + b) / (1 + 1) * ((a + b) / (1 + 1)) = (a * a + b * b) / (1 + 1) - (a - b) * (a - b) / (1 + 1) / (1 + 1).
Proof. intros. assert (T := k2_neq0 (K := K)). field. auto. Qed.
Lemma mvmul_mid : forall (A : mat K) P u v i, nc A = P -> (i < nr A)%nat -> vget (mvmul A (mid P u v)) i = (vget (mvmul A u) i + vget (mvmul A v) i) / (1 + 1).
Proof.
  intros A P u v i HC Hi. rewrite !vget_mvmul by assumption. rewrite HC. rewrite <- sumn_add. rewrite kdiv_def, <- sumn_scal_r. apply sumn_ext. intros k Hk.
  unfold mid. rewrite vget_mkv by assumption. rewrite !kdiv_def. ring.
Qed.
Lemma residual_mid : forall b P u v i, length u = P -> length v = P -> residual b (mid P u v) i = (residual b u i + residual b v i) / (1 + 1).
Proof.
  intros b P u v i Hu Hv. unfold residual, mid. rewrite length_mkv, Hu, Hv. assert (T := k2_neq0 (K := K)).
  rewrite (sumn_ext P _ (fun k => (get (bL b) i k * vget u k + get (bL b) i k * vget v k) / (1 + 1))).
  - rewrite (sumn_ext P _ (fun k => (get (bL b) i k * vget u k + get (bL b) i k * vget v k) * (1 / (1 + 1)))) by (intros; field; auto). rewrite sumn_scal_r, sumn_add. field. auto.
  - intros k Hk. rewrite vget_mkv by assumption. field. auto.
Qed.
Definition frozen_gap (p : sprior K) (w u v : list K) : K :=
  sumn (length (bmu (base p))) (fun i => (residual (base p) u i - residual (base p) v i) * (residual (base p) u i - residual (base p) v i) /
    (kpow (kabs (residual (base p) w i)) (2 - nth i (gamma p) 0%nat) + alpha p)).
Lemma gap_nonneg : forall p w u v, 0 <! alpha p -> 0 <=! frozen_gap p w u v.
Proof. intros p w u v Ha. apply sumn_nonneg. intros i Hi. apply kle_div; [apply kle_sqr|]. apply (wt_pos p w i Ha). Qed.
Lemma gap_zero : forall p w u v, 0 <! alpha p -> frozen_gap p w u v = 0 -> forall i, (i < length (bmu (base p)))%nat -> residual (base p) u i = residual (base p) v i.
Proof.
  intros p w u v Ha H i Hi. pose proof (wt_pos p w i Ha) as W.
  pose proof (sumn_nonneg_zero _ _ (fun i Hi => kle_div _ _ (kle_sqr (residual (base p) u i - residual (base p) v i)) (wt_pos p w i Ha)) H i Hi) as Z. cbv beta in Z.
  apply ksub_eq0. apply sqr_zero. rewrite <- (kdiv_mul (_ * _) _ (klt_neq _ W)). fold (wt p w i) in *.
  match type of Z with ?a = 0 => match goal with |- ?b * _ = 0 => change b with a end end. rewrite Z. ring.
Qed.
Lemma frozen_mid : forall p w P u v, length u = P -> length v = P -> 0 <! alpha p ->
  frozen_penalty p w (mid P u v) = (frozen_penalty p w u + frozen_penalty p w v) / (1 + 1) - frozen_gap p w u v / (1 + 1) / (1 + 1).
Proof.
  intros p w P u v Hu Hv Ha. unfold frozen_penalty, frozen_gap. assert (T := k2_neq0 (K := K)).
 
  match goal with |- _ = ?s / _ - ?g / _ / _ => transitivity (s * (1 / (1 + 1)) - g * (1 / (1 + 1) / (1 + 1))); [|field; auto] end.
  rewrite <- sumn_add, <- !sumn_scal_r, <- sumn_sub. apply sumn_ext. intros i Hi.
  rewrite (residual_mid _ P) by assumption. rewrite half_sq. pose proof (klt_neq _ (wt_pos p w i Ha)) as W. unfold wt in W. field. repeat split; auto.
Qed.
Lemma vdot_mid : forall u v m : list K, length v = length u -> length m = length u -> (forall i, (i < length u)%nat -> vget m i = (vget u i + vget v i) / (1 + 1)) ->
  vdot m m = (vdot u u + vdot v v) / (1 + 1) - vdot (vsubt u v) (vsubt u v) / (1 + 1) / (1 + 1).
Proof.
  intros u v m Hv Hm H. unfold vdot. rewrite length_vsubt, Hv, Hm. assert (T := k2_neq0 (K := K)).
  match goal with |- _ = ?s / _ - ?g / _ / _ => transitivity (s * (1 / (1 + 1)) - g * (1 / (1 + 1) / (1 + 1))); [|field; auto] end.
  rewrite <- sumn_add, <- !sumn_scal_r, <- sumn_sub. apply sumn_ext. intros i Hi.
  rewrite H by assumption. rewrite vget_vsubt by assumption. rewrite half_sq. field; auto.
Qed.

(** two best parameter vectors give the same flows and the same residuals *)
Lemma best_unique : forall lam p (x z : mat CK) (DT : mat K) T n P w u v Yu Yv,
  0 <! alpha p -> 0 <=! lam -> shape x T n -> shape z T n -> shape DT (n * n) P ->
  length u = (2 * P)%nat -> length v = (2 * P)%nat -> rebuild DT n u = Ok Yu -> rebuild DT n v = Ok Yv ->
  (forall v' Yv', length v' = (2 * P)%nat -> rebuild DT n v' = Ok Yv' -> br_objective lam p x z w u Yu <=! br_objective lam p x z w v' Yv') ->
  br_objective lam p x z w v Yv <=! br_objective lam p x z w u Yu ->
  mmul x Yu = mmul x Yv.
Proof.
  intros lam p x z DT T n P w u v Yu Yv Ha Hlam Hx Hz HD Hu Hv HYu HYv HM HV.
  assert (Hm : length (mid (2 * P) u v) = (2 * P)%nat) by apply length_mkv.
  destruct (rebuild_total DT n P _ HD Hm) as (Ym & HYm). specialize (HM _ _ Hm HYm).
  destruct (real_misfit_fro n T x z DT P u Yu Hx Hz HD Hu HYu) as (Du & Eu).
  destruct (real_misfit_fro n T x z DT P v Yv Hx Hz HD Hv HYv) as (Dv & Ev).
  destruct (real_misfit_fro n T x z DT P _ Ym Hx Hz HD Hm HYm) as (_ & Em). cbv zeta in Du, Dv, Eu, Ev, Em.
  pose proof (shape_regressor n T x DT P Hx HD) as (_ & HrA & HcA). set (A := regressor n x DT) in *. set (b := make_real_vector (vectorize_matrix z)) in *.
  assert (Lb : length b = nr A). { unfold b. rewrite length_make_real_vector, length_vectorize, HrA. destruct Hz as (_ & -> & ->). lia. }
  unfold br_objective in HM, HV. rewrite <- Eu, <- Em in HM. rewrite <- Eu, <- Ev in HV.
  rewrite (frozen_mid p w (2 * P) u v Hu Hv Ha) in HM.
  rewrite (vdot_mid (vsubt b (mvmul A u)) (vsubt b (mvmul A v)) (vsubt b (mvmul A (mid (2 * P) u v)))) in HM; rewrite ?length_vsubt; auto.
  2:{ intros i Hi. rewrite !vget_vsubt by assumption. rewrite (mvmul_mid A (2 * P)) by (congruence || rewrite Lb in Hi; assumption). field. apply (k2_neq0 (K := K)). }
 
  destruct (midpoint_zero _ _ _ (vdot (vsubt (vsubt b (mvmul A u)) (vsubt b (mvmul A v))) (vsubt (vsubt b (mvmul A u)) (vsubt b (mvmul A v)))) (lam * frozen_gap p w u v) HM HV) as [Z1 _].
  - field. apply (k2_neq0 (K := K)).
  - apply sumn_nonneg; intros; apply kle_sqr.
  - apply kle_mul; [exact Hlam|apply gap_nonneg; exact Ha].
  - assert (E : vsubt b (mvmul A u) = vsubt b (mvmul A v)).
    { apply vec_ext; rewrite !length_vsubt; [reflexivity|]. intros i Hi. apply ksub_eq0. apply sqr_zero. unfold vdot in Z1.
      pose proof (sumn_nonneg_zero _ _ (fun i _ => kle_sqr _) Z1 i) as Z. cbv beta in Z. rewrite !length_vsubt in Z. specialize (Z Hi). rewrite (vget_vsubt _ _ _ ltac:(rewrite length_vsubt; exact Hi)) in Z. exact Z. }
    rewrite Du, Dv in E. apply real_vector_inj in E. destruct Hx as (_ & Hrx & Hcx).
    destruct (rebuild_even DT n P u Yu HD Hu HYu) as (_ & _ & _ & (_ & RY & CY) & _). destruct (rebuild_even DT n P v Yv HD Hv HYv) as (_ & _ & _ & (_ & RZ & CZ) & _).
    destruct Hz as (Wz & Rz & Cz).
    assert (U1 := unvectorize_vectorize (msubt z (mmul x Yu)) (wf_mk _ _ _)). assert (U2 := unvectorize_vectorize (msubt z (mmul x Yv)) (wf_mk _ _ _)).
    rewrite E in U1. cbn [nr nc msubt mk] in U1, U2. rewrite U2 in U1. assert (U3 : forall a b : mat CK, Ok a = Ok b -> a = b) by (intros a b' Q; congruence). apply U3 in U1. clear U2 U3.
    apply (gshape_ext _ _ T n); [apply shape_mmul with (m := n); congruence|apply shape_mmul with (m := n); congruence|]. intros i j Hi Hj.
    pose proof (f_equal (fun m => get m i j) U1) as G. cbv beta in G. rewrite !get_msubt in G by congruence.
    apply cplx_eq; [pose proof (f_equal re G) as R|pose proof (f_equal im G) as R]; rewrite ?re_sub, ?im_sub in R; apply ksub_eq0.
    + match type of R with ?z - ?a = ?z - ?b => replace (re (get (mmul x Yu) i j) - re (get (mmul x Yv) i j)) with ((z - re (get (mmul x Yv) i j)) - (z - re (get (mmul x Yu) i j))) by ring end. rewrite R. ring.
    + match type of R with ?z - ?a = ?z - ?b => replace (im (get (mmul x Yu) i j) - im (get (mmul x Yv) i j)) with ((z - im (get (mmul x Yv) i j)) - (z - im (get (mmul x Yu) i j))) by ring end. rewrite R. ring.
Qed.

(** ** two loops side by side *)
Lemma loop_sim : forall (R : mat CK -> mat CK -> Prop) (RS : lstate K -> lstate K -> Prop) at_ rt (step step' : lstate K -> res (lstate K * K)),
  (forall s s', RS s s' -> R (fst (fst s)) (fst (fst s'))) ->
  (forall s s', RS s s' -> exists s1 s1' t, step s = Ok (s1, t) /\ step' s' = Ok (s1', t) /\ RS s1 s1') ->
  forall fuel it iters iters' s s', RS s s' -> Forall2 (same_record R) iters iters' ->
  exists l l' f f', fit_loop at_ rt step fuel it iters s = (l, Ok f) /\ fit_loop at_ rt step' fuel it iters' s' = (l', Ok f') /\ Forall2 (same_record R) l l' /\ RS f f'.
Proof.
  intros R RS at_ rt step step' HR HS. induction fuel as [|fuel IH]; intros it iters iters' s s' H HI.
  - exists iters, iters', s, s'. auto.
  - destruct (HS s s' H) as (s1 & s1' & t & E & E' & H1). cbn [fit_loop]. rewrite E, E'. cbv zeta.
    assert (HI2 : Forall2 (same_record R) (iters ++ [St it (fst (fst s1)) t]) (iters' ++ [St it (fst (fst s1')) t])).
    { apply Forall2_app; [exact HI|]. constructor; [|constructor]. split; [reflexivity|]. split; [reflexivity|]. cbn [st_y]. apply HR. exact H1. }
    assert (NE : forall k, match nth_error (iters ++ [St it (fst (fst s1)) t]) k, nth_error (iters' ++ [St it (fst (fst s1')) t]) k with
      | Some a, Some b => st_target a = st_target b | None, None => True | _, _ => False end).
    { revert HI2. generalize (iters ++ [St it (fst (fst s1)) t]) (iters' ++ [St it (fst (fst s1')) t]). clear. intros l0 l0' HI2. induction HI2 as [|a b l l' (_ & Q & _) HL IHL]; intros [|k]; cbn [nth_error]; auto; try exact (IHL k). }
    specialize (NE (it - 1)%nat).
    destruct (nth_error (iters ++ [St it (fst (fst s1)) t]) (it - 1)) as [a|]; destruct (nth_error (iters' ++ [St it (fst (fst s1')) t]) (it - 1)) as [b|]; try contradiction.
    + rewrite NE. destruct (if (0 <? it)%nat then _ else _); [eexists _, _, _, _; eauto|apply IH; assumption].
    + destruct (if (0 <? it)%nat then _ else _); [eexists _, _, _, _; eauto|apply IH; assumption].
Qed.
End Lines.
