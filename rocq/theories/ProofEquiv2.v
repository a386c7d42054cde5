(** Renumbered nodes: BayesianRegression. *)
From Coq Require Import Bool Arith List Lia Ring Field Permutation.
From Verif Require Import BasePy BaseFld BaseOrd BaseSum BaseMat BaseNumpy BaseLin ModelMatrixOps SpecMatrix ModelPrior ModelFit ModelLS ModelIdent ModelRun
  SpecPrior SpecLS SpecFit SpecIdent SpecBayes SpecOrder SpecRenumber ProofMatrixOps ProofStruct ProofElim ProofMatrixProps ProofPrior ProofLS ProofFitBase ProofFit ProofFitOpt ProofFitBR ProofFitRep
  ProofIdent ProofPenalty ProofIdentMain ProofIdentThm ProofFrozen ProofBayes ProofOrder4 ProofOrder5 ProofRenumber ProofRenumber2 ProofEquiv.
Import ListNotations.
Local Open Scope K_scope.

Section Equiv.
Context {K : Type} {O : Ops K} {F : Fld K} {O2 : OrdOps K} {OF : OrdFld K}.
Notation CK := (cplx K).
Add Field KfldE2 : (@k_field K O F).
Add Field CfldE2 : (@k_field CK _ _).

Section Perm.
Variables (n : nat) (p : nat -> nat) (HP : numbering n p).
Let Hlt := order_lt n p HP.

Definition back (i : nat) : nat := match find (fun k => (p k =? i)%nat) (seq 0 n) with Some k => k | None => 0%nat end.
Lemma back_ok : forall i, (i < n)%nat -> (back i < n)%nat /\ p (back i) = i.
Proof.
  intros i Hi. unfold back. destruct (find (fun k => (p k =? i)%nat) (seq 0 n)) as [k|] eqn:E.
  - apply find_some in E. destruct E as [E1 E2]. apply in_seq in E1. apply Nat.eqb_eq in E2. split; [lia|exact E2].
  - exfalso. assert (I : In i (map p (seq 0 n))). { apply (Permutation_in i (Permutation_sym HP)). apply in_seq. lia. }
    apply in_map_iff in I. destruct I as (k & E1 & E2). pose proof (find_none _ _ E k E2) as Q. cbv beta in Q. apply Nat.eqb_neq in Q. contradiction.
Qed.
Lemma back_p : forall i, (i < n)%nat -> back (p i) = i.
Proof. intros i Hi. destruct (back_ok (p i) (Hlt i Hi)) as [A B]. apply (order_inj n p HP); assumption. Qed.

Definition renumber (M : mat CK) : mat CK := mk n n (fun i j => get M (p i) (p j)).
Definition unnumber (M : mat CK) : mat CK := mk n n (fun i j => get M (back i) (back j)).
Lemma renumber_is : forall M, shape M n n -> renumbered n p M (renumber M).
Proof. intros M HM. split; [exact HM|]. split; [apply shape_mk|]. intros i j Hi Hj. unfold renumber. rewrite get_mk by assumption. reflexivity. Qed.
Lemma unnumber_is : forall M, shape M n n -> renumbered n p (unnumber M) M.
Proof.
  intros M HM. split; [apply shape_mk|]. split; [exact HM|]. intros i j Hi Hj. unfold unnumber. rewrite get_mk by (apply Hlt; assumption). rewrite !back_p by assumption. reflexivity.
Qed.
Lemma renumbered_unique : forall M A B : mat CK, renumbered n p M A -> renumbered n p M B -> A = B.
Proof. intros M A B (_ & HA & EA) (_ & HB & EB). apply (gshape_ext _ _ n n HA HB). intros i j Hi Hj. rewrite EA, EB by assumption. reflexivity. Qed.
Lemma symmetric_ren : forall M M' : mat CK, renumbered n p M M' -> symmetric n M -> symmetric n M'.
Proof. intros M M' (HM & HM' & E) [_ S]. split; [exact HM'|]. intros i j Hi Hj. rewrite !E by assumption. apply S; apply Hlt; assumption. Qed.
Lemma symmetric_unren : forall M M' : mat CK, renumbered n p M M' -> symmetric n M' -> symmetric n M.
Proof.
  intros M M' (HM & HM' & E) [_ S]. split; [exact HM|]. intros i j Hi Hj. destruct (back_ok i Hi) as [A1 A2], (back_ok j Hj) as [B1 B2].
  rewrite <- A2, <- B2, <- !E by assumption. apply S; assumption.
Qed.
Lemma row_sum_ren : forall (M M' : mat CK) i, renumbered n p M M' -> (i < n)%nat -> sumn n (fun j => get M' i j) = sumn n (fun j => get M (p i) j).
Proof. intros M M' i (HM & HM' & E) Hi. rewrite <- (sum_numbering n p (fun j => get M (p i) j) HP). apply sumn_ext. intros j Hj. apply E; assumption. Qed.
Lemma admissible_ren : forall lap (M M' : mat CK), renumbered n p M M' -> admissible lap n M -> admissible lap n M'.
Proof.
  intros [|] M M' R H; cbn [admissible] in *; [|apply (symmetric_ren M M' R H)]. destruct H as [S Z]. split; [apply (symmetric_ren M M' R S)|].
  intros i Hi. rewrite (row_sum_ren M M' i R Hi). apply Z. apply Hlt. exact Hi.
Qed.
Lemma admissible_unren : forall lap (M M' : mat CK), renumbered n p M M' -> admissible lap n M' -> admissible lap n M.
Proof.
  intros [|] M M' R H; cbn [admissible] in *; [|apply (symmetric_unren M M' R H)]. destruct H as [S Z]. split; [apply (symmetric_unren M M' R S)|].
  intros i Hi. destruct (back_ok i Hi) as [A1 A2]. rewrite <- (Z (back i) A1). rewrite (row_sum_ren M M' _ R A1), A2. reflexivity.
Qed.

(** flows and misfits *)
Lemma flows_ren : forall T (x x' M M' : mat CK), columns_renumbered T n p x x' -> renumbered n p M M' -> columns_renumbered T n p (mmul x M) (mmul x' M').
Proof.
  intros T x x' M M' ((Wx & Rx & Cx) & (Wx' & Rx' & Cx') & E) ((WM & RM & CM) & (WM' & RM' & CM') & EM).
  split; [apply shape_mmul with (m := n); congruence|]. split; [apply shape_mmul with (m := n); congruence|]. intros t j Ht Hj. pose proof (Hlt j Hj).
  rewrite !get_mmul by congruence. rewrite Cx, Cx'. rewrite <- (sum_numbering n p (fun k => get x t k * get M k (p j))%K HP). apply sumn_ext. intros k Hk. rewrite E, EM by assumption. reflexivity.
Qed.
Lemma difference_ren : forall T (x x' y y' : mat CK), columns_renumbered T n p x x' -> columns_renumbered T n p y y' -> columns_renumbered T n p (msubt x y) (msubt x' y').
Proof.
  intros T x x' y y' ((Wx & Rx & Cx) & (Wx' & Rx' & Cx') & E) (_ & _ & EY).
  assert (S : forall a b : mat CK, nr a = T -> nc a = n -> shape (msubt a b) T n) by (intros a b <- <-; apply shape_mk).
  split; [apply S; congruence|]. split; [apply S; congruence|]. intros t j Ht Hj. pose proof (Hlt j Hj). rewrite !get_msubt by congruence. rewrite E, EY by assumption. reflexivity.
Qed.
Lemma fro2_ren : forall T (x x' : mat CK), columns_renumbered T n p x x' -> fro2 x' = fro2 x.
Proof.
  intros T x x' ((Wx & Rx & Cx) & (Wx' & Rx' & Cx') & E). unfold fro2. rewrite Rx, Rx', Cx, Cx'. apply sumn_ext. intros t Ht.
  rewrite <- (sum_numbering n p (fun j => cnorm2 (get x t j)) HP). apply sumn_ext. intros j Hj. rewrite E by assumption. reflexivity.
Qed.
Lemma inj_ren : forall T (x x' : mat CK), columns_renumbered T n p x x' -> inj x -> inj x'.
Proof.
  intros T x x' HX I. rewrite (columns_mmul n p HP T x x' HX). destruct HX as (HX & _). pose proof HX as (_ & _ & C).
  intros v Hv Z. change (nc (mmul x (pcols n p))) with n in *. rewrite mvmul_assoc in Z by exact C.
  assert (Z2 : mvmul (pcols n p) v = vzeros (nc x)). { apply I; [rewrite length_mvmul; symmetry; exact C|exact Z]. }
  rewrite C in Z2. assert (Q : mvmul (mmul (ctr (pcols n p)) (pcols n p)) v = mvmul (ctr (pcols n p)) (vzeros n)) by (rewrite mvmul_assoc by reflexivity; rewrite Z2; reflexivity).
  rewrite (proj2 (pcols_unitary n p HP)) in Q. rewrite <- Hv in Q at 1. rewrite mvmul_1 in Q. rewrite Q. change n with (nc (ctr (pcols n p))) at 1. rewrite mvmul_vzeros. reflexivity.
Qed.

(** ** one round *)
Section Rounds.
Variables (lap : bool) (m N : nat) (al lam at_ rt : K) (prior : spprior K).
Variable pf : (K -> K -> K) -> list K -> list K -> K.
Variable q : (K -> K -> K) -> mat CK -> mat CK -> K.
Hypothesis G : rows_are al (psize lap n + psize lap n) m prior pf.
Hypothesis Hm : (1 < m)%nat.
Hypothesis Hal : 0 <! al.
Hypothesis Hlam : 0 <=! lam.
Hypothesis Hq : forall g M0 M, even g -> symmetric n M0 -> symmetric n M -> pf g (parameters lap M0) (parameters lap M) = q g M0 M.
Let e := object prior lam at_ rt N lap.
Let P := psize lap n.
Definition at_matrix (prior : spprior K) (M0 : mat CK) (s : lstate K) : Prop := fst (fst s) = M0 /\ symmetric n M0 /\ tracks (dense prior) (2 * psize lap n) (parameters lap M0) s.
Definition value (x z M0 M : mat CK) : K := fro2 (msubt z (mmul x M)) + lam * q (relaxed al) M0 M.
Lemma prior_wf : well_formed (dense prior) (2 * P).
Proof. clear - G. replace (2 * P)%nat with (psize lap n + psize lap n)%nat by (unfold P; lia). apply (r_wf _ _ _ _ _ G). Qed.
Lemma br_round : forall spsolve (x z : mat CK) T D s M0, solver_sound spsolve -> solver_complete spsolve -> shape x T n -> shape z T n -> inj x -> is_dt lap n D -> inj D ->
  at_matrix prior M0 s ->
  exists s1 M, br_step spsolve e D (regressor n x D) (make_real_vector (vectorize_matrix z)) n s = Ok (s1, fro2 (msubt z (mmul x M)) + lam * q (fun _ => cost al) M M) /\
    at_matrix prior M s1 /\ admissible lap n M /\ (forall M2, admissible lap n M2 -> value x z M0 M <=! value x z M0 M2) /\
    (forall M2, admissible lap n M2 -> value x z M0 M2 <=! value x z M0 M -> M2 = M).
Proof.
  intros spsolve x z T D s M0 Hsound Hcompl Hx Hz Ix HD ID (EM & SM0 & Ht).
  pose proof (proj1 HD) as SD. assert (Hprior : forall v, e_prior e v = log_distribution (dense prior) v) by (intros v; apply (rows_log al _ m prior pf v G Hm)).
  pose proof prior_wf as Hp. assert (Ha : 0 <! alpha (dense prior)) by (rewrite (r_al _ _ _ _ _ G); assumption).
  assert (Hid : identifiable_r x D n P) by (apply identifiable_rebuilt; [exact SD|apply (inj_identifiable x D T n P); assumption]).
  assert (R : exists s1 t, br_step spsolve e D (regressor n x D) (make_real_vector (vectorize_matrix z)) n s = Ok (s1, t)).
  { rewrite (br_step_eq spsolve e (dense prior) D x z T n P Hp Ha Hx Hz SD _ s Ht).
    destruct (br_system_shape e (dense prior) D x z T n P Hx SD _ s Ht) as (Hsh & Hlen).
    destruct (Hcompl _ _ _ Hsh Hlen (br_system_inj e (dense prior) x D T n P _ s Hp Ha Hlam Hx SD Ht Hid)) as (u & Hu).
    destruct (Hsound _ _ _ _ Hsh Hlen Hu) as (Hlu & _). unfold solve_y. rewrite Hu. cbn [bind].
    destruct (rebuild_total D n P u SD Hlu) as (Yu & HYu). rewrite HYu. cbn [bind]. rewrite Hprior.
    destruct (log_frozen (dense prior) (2 * P) u Hp Hlu ltac:(lia) Ha) as (M' & mu' & Hlog' & _). rewrite Hlog'. cbn [bind].
    pose proof (shape_regressor n T x D P Hx SD) as (_ & HrA & HcA). rewrite matvec_ok by congruence. cbn [bind].
    rewrite np_vsub_ok by (rewrite length_mvmul, length_make_real_vector, length_vectorize, HrA; destruct Hz as (_ & -> & ->); lia). cbn [bind]. eauto. }
  destruct R as (s1 & t & R).
  destruct (br_step_follow spsolve e (dense prior) D x z T n P Hsound Hprior Hp Ha Hlam Hx Hz SD _ _ _ _ Ht R) as (u & Ht1 & B1 & B2 & B3).
  destruct (rebuild_params lap n D u _ HD (proj1 Ht1) B1) as [AD EP]. set (M := fst (fst s1)) in *. pose proof (admissible_sym _ _ _ AD) as SM.
  assert (J : forall M2, admissible lap n M2 -> br_objective (e_lambda e) (dense prior) x z (parameters lap M0) (parameters lap M2) M2 = value x z M0 M2).
  { intros M2 H2. unfold br_objective, value. rewrite (frozen_is lap n m al prior pf q G Hq) by (assumption || apply (admissible_sym _ _ _ H2)). reflexivity. }
  exists s1, M. split; [|split; [|split; [|split]]].
  - rewrite R, B2. unfold br_target. rewrite EP, (sum_is lap n m al prior pf q G Hq M M SM SM). reflexivity.
  - split; [reflexivity|]. split; [exact SM|]. rewrite <- EP. exact Ht1.
  - exact AD.
  - intros M2 H2. rewrite <- !J by assumption. rewrite <- EP. apply B3; [apply length_parameters2; apply (admissible_sym _ _ _ H2)|apply params_rebuild; assumption].
  - intros M2 H2 L. rewrite <- !J in L by assumption. rewrite <- EP in L.
    pose proof (best_unique (e_lambda e) (dense prior) x z D T n P (parameters lap M0) u (parameters lap M2) M M2 Ha Hlam Hx Hz SD (proj1 Ht1)
      (length_parameters2 lap n M2 (proj1 (admissible_sym _ _ _ H2))) B1 (params_rebuild lap n D M2 HD H2) B3 L) as U.
    symmetry. apply (inj_mcancel x M M2 T n n); try assumption; [apply SM|apply (admissible_sym _ _ _ H2)].
Qed.
Lemma start_at : forall E Y0 , is_e lap n E -> symmetric n Y0 -> exists M mu pen, e_prior e (make_real_vector (mvmul (cmat E) (vectorize_matrix Y0))) = Ok (M, mu, pen) /\ at_matrix prior Y0 (Y0, M, mu).
Proof.
  intros E Y0 HE HY. rewrite (start_is lap n E Y0 HE HY).
  assert (Ha : 0 <! alpha (dense prior)) by (rewrite (r_al _ _ _ _ _ G); assumption).
  destruct (log_frozen (dense prior) (2 * P) (parameters lap Y0) prior_wf (length_parameters2 lap n Y0 (proj1 HY)) ltac:(lia) Ha) as (M & mu & Hl & _).
  exists M, mu. eexists. split; [rewrite <- Hl; apply (rows_log al _ m prior pf _ G Hm)|]. split; [reflexivity|]. split; [exact HY|]. split; [apply length_parameters2; apply HY|]. cbn [fst snd]. eauto.
Qed.
End Rounds.
End Perm.
End Equiv.
