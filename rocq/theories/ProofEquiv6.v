(** Renumbered nodes: the error-in-variable regression with the prior of the Bayesian identification (Laplacian form). *)
From Coq Require Import Bool Arith List ZArith Lia Ring Field Permutation.
From Verif Require Import BasePy BaseFld BaseOrd BaseSum BaseMat BaseNumpy BaseLin ModelMatrixOps SpecMatrix ModelPrior ModelFit ModelLS ModelIdent ModelRun
  SpecPrior SpecLS SpecFit SpecIdent SpecBayes SpecOrder SpecTLS SpecRenumber ProofRagged ProofMatrixOps ProofStruct ProofElim ProofMatrixProps ProofPrior ProofLS ProofFitBase ProofFit ProofFitOpt ProofFitBR ProofFitEIV ProofFitFix ProofFitRep
  ProofIdent ProofPenalty ProofIdentMain ProofIdentThm ProofFrozen ProofBayes ProofRunIO ProofBayesRun ProofOrder4 ProofOrder5 ProofOrderRun ProofRenumber ProofRenumber2 ProofEquiv ProofEquiv2 ProofEquiv3 ProofEquiv4 ProofEquiv5.
Import ListNotations.
Local Open Scope K_scope.

Section Equiv.
Context {K : Type} {O : Ops K} {F : Fld K} {O2 : OrdOps K} {OF : OrdFld K}.
Notation CK := (cplx K).
Add Field KfldE6 : (@k_field K O F).

(** ** the penalties of the lines fix a Laplacian matrix *)
Definition sqd (a b : K) : K := (a - b) * (a - b).
Lemma even_sqd : even sqd.
Proof. intros a b. unfold sqd. ring. Qed.
Lemma sqd_zero : forall a b, sqd a b = 0 -> a = b.
Proof. intros a b H. apply ksub_eq0. apply sqr_zero. exact H. Qed.
Lemma parts_nonneg : forall f : (CK -> K) -> K, (forall g, 0 <=! f g) -> 0 <=! parts f.
Proof. intros f H. apply kle_0_add; apply H. Qed.
Lemma lines_decisive : forall n m al lam tls (Y : mat CK) prior pf, rows_are al (psize true n + psize true n) m prior pf -> no_zero_line n Y ->
  (forall g M0 M, even g -> symmetric n M0 -> symmetric n M -> pf g (parameters true M0) (parameters true M) = line_pairs g n Y M0 M + node_pairs g lam tls n Y M0 M) ->
  decisive (dense prior) (2 * psize true n).
Proof.
  intros n m al lam tls Y prior pf G NZ Hq u v Lu Lv H. destruct (dt_is n true) as (D & ED & HD).
  destruct (rebuild_total D n (psize true n) u (proj1 HD) Lu) as (Mu & RU). destruct (rebuild_total D n (psize true n) v (proj1 HD) Lv) as (Mv & RV).
  destruct (rebuild_params true n D u Mu HD Lu RU) as [AU EU]. destruct (rebuild_params true n D v Mv HD Lv RV) as [AV EV]. rewrite EU, EV. f_equal.
  pose proof (admissible_sym _ _ _ AU) as SU. pose proof (admissible_sym _ _ _ AV) as SV.
  assert (Z : line_pairs sqd n Y Mu Mv + node_pairs sqd lam tls n Y Mu Mv = 0).
  { rewrite <- Hq by (try assumption; apply even_sqd). rewrite <- EU, <- EV. rewrite <- (r_pen _ _ _ _ _ G sqd u v even_sqd) by lia. apply sumn_zero. intros i Hi. rewrite H by (rewrite (r_m _ _ _ _ _ G); exact Hi). unfold sqd. ring. }
  apply kle_add_zero in Z.
  2:{ unfold line_pairs, line_sum. apply sumn_nonneg. intros i Hi. apply sumn_nonneg. intros j Hj. apply parts_nonneg. intros g. apply kle_sqr. }
  2:{ unfold node_pairs. apply sumn_nonneg. intros i Hi. apply parts_nonneg. intros g. apply kle_sqr. }
  destruct Z as [Z _]. unfold line_pairs, line_sum in Z.
  assert (Q : forall i j, (j < i)%nat -> (i < n)%nat -> get Mu i j = get Mv i j).
  { intros i j Hj Hi. pose proof (sumn_nonneg_zero _ _ ltac:(intros a Ha; cbv beta; apply sumn_nonneg; intros b Hb; apply parts_nonneg; intros g; apply kle_sqr) Z i Hi) as Z1. cbv beta in Z1.
    pose proof (sumn_nonneg_zero _ _ ltac:(intros b Hb; cbv beta; apply parts_nonneg; intros g; apply kle_sqr) Z1 j Hj) as Z2. cbv beta in Z2. unfold parts in Z2.
    apply kle_add_zero in Z2; [|apply kle_sqr|apply kle_sqr]. destruct Z2 as [Z2 Z3]. apply sqd_zero in Z2. apply sqd_zero in Z3. destruct (NZ i j ltac:(lia) ltac:(lia) ltac:(lia)) as [N1 N2].
    apply cplx_eq; [rewrite <- (kdiv_mul (re (get Mu i j)) _ N1), Z2, kdiv_mul by exact N1; reflexivity|rewrite <- (kdiv_mul (im (get Mu i j)) _ N2), Z3, kdiv_mul by exact N2; reflexivity]. }
  assert (Q2 : forall i j, i <> j -> (i < n)%nat -> (j < n)%nat -> get Mu i j = get Mv i j).
  { intros i j Hij Hi Hj. destruct (Nat.lt_total i j) as [L|[L|L]]; [|contradiction|apply Q; assumption]. rewrite (proj2 SU i j Hi Hj), (proj2 SV i j Hi Hj). apply Q; assumption. }
  apply (gshape_ext _ _ n n (proj1 SU) (proj1 SV)). intros i j Hi Hj. destruct (Nat.eq_dec i j) as [<-|Hij]; [|apply Q2; assumption].
  destruct AU as [_ ZU]. destruct AV as [_ ZV]. specialize (ZU i Hi). specialize (ZV i Hi).
  apply ksub_eq0. transitivity (sumn n (fun j => get Mu i j) - sumn n (fun j => get Mv i j))%K; [|rewrite ZU, ZV; apply cplx_eq; cbn; ring].
  rewrite <- sumn_sub. rewrite (sumn_single n i) by (try exact Hi; intros k Hk Hki; rewrite Q2 by auto; apply cplx_eq; cbn; ring). reflexivity.
Qed.

Section Perm.
Variables (n : nat) (p : nat -> nat) (HP : numbering n p).
Let Hlt := order_lt n p HP.

(** ** the penalties of the prior *)
Lemma node_sum_ren : forall (M M' : mat CK) i, renumbered n p M M' -> (i < n)%nat -> node_sum n M' i = node_sum n M (p i).
Proof.
  intros M M' i (_ & _ & E) Hi. unfold node_sum. rewrite <- (sum_numbering n p (fun j => if (j =? p i)%nat then 0 else get M (p i) j) HP). apply sumn_ext. intros j Hj.
  destruct (Nat.eqb_spec j i) as [Q|Hji]; [rewrite Q, Nat.eqb_refl; reflexivity|]. destruct (Nat.eqb_spec (p j) (p i)) as [Q|_]; [exfalso; apply Hji; apply (order_inj n p HP); assumption|]. apply E; assumption.
Qed.
Lemma reference_ren : forall tls (Y Y' : mat CK) i, renumbered n p Y Y' -> (i < n)%nat -> reference tls n Y' i = reference tls n Y (p i).
Proof. intros [|] Y Y' i R Hi; cbn [reference]; [destruct R as (_ & _ & E); rewrite E by assumption; reflexivity|]. apply node_sum_ren; [apply sym_part_ren; assumption|exact Hi]. Qed.
Lemma complex_ren : forall g lam tls (Y Y' M0 M0' M M' : mat CK), symmetric n M0 -> symmetric n M -> renumbered n p Y Y' -> renumbered n p M0 M0' -> renumbered n p M M' ->
  line_pairs g n Y' M0' M' + node_pairs g lam tls n Y' M0' M' = line_pairs g n Y M0 M + node_pairs g lam tls n Y M0 M.
Proof.
  intros g lam tls Y Y' M0 M0' M M' [_ S0] [_ S1] RY R0 R1. pose proof (sym_part_ren n p HP Y Y' RY) as (_ & _ & ES). f_equal.
  - unfold line_pairs. rewrite <- (line_sum_numbering n p (fun i j => parts (fun part => g (part (get M0 i j) / part (get (sym_part n Y) i j)) (part (get M i j) / part (get (sym_part n Y) i j)))) HP).
    + destruct R0 as (_ & _ & E0), R1 as (_ & _ & E1). apply line_sum_ext. intros i j Hj Hi. rewrite ES, E0, E1 by lia. reflexivity.
    + intros i j Hi Hj. rewrite (proj2 (sym_part_sym CK _ _ n Y) j i), (S0 j i), (S1 j i) by assumption. reflexivity.
  - unfold node_pairs. rewrite <- (sum_numbering n p (fun i => parts (fun part => g (lam * (part (node_sum n M0 i) / part (reference tls n Y i) - 1)) (lam * (part (node_sum n M i) / part (reference tls n Y i) - 1)))) HP).
    apply sumn_ext. intros i Hi. rewrite (node_sum_ren M0 M0' i R0 Hi), (node_sum_ren M M' i R1 Hi), (reference_ren tls Y Y' i RY Hi). reflexivity.
Qed.
Lemma no_zero_ren : forall Y Y' : mat CK, renumbered n p Y Y' -> no_zero_line n Y -> no_zero_line n Y'.
Proof.
  intros Y Y' R H i j Hi Hj Hij. pose proof (sym_part_ren n p HP Y Y' R) as (_ & _ & E). rewrite E by assumption. apply H; try (apply Hlt; assumption). intro Q. apply Hij. apply (order_inj n p HP); assumption.
Qed.

(** ** the tables *)
Definition uncols (T : nat) (X : mat CK) : mat CK := mk T n (fun t j => get X t (back n p j)).
Definition recols (T : nat) (X : mat CK) : mat CK := mk T n (fun t j => get X t (p j)).
Lemma uncols_is : forall T X, shape X T n -> columns_renumbered T n p (uncols T X) X.
Proof. intros T X HX. split; [apply shape_mk|]. split; [exact HX|]. intros t j Ht Hj. unfold uncols. rewrite get_mk by (assumption || apply Hlt; assumption). rewrite (back_p n p HP) by assumption. reflexivity. Qed.
Lemma recols_is : forall T X, shape X T n -> columns_renumbered T n p X (recols T X).
Proof. intros T X HX. split; [exact HX|]. split; [apply shape_mk|]. intros t j Ht Hj. unfold recols. rewrite get_mk by assumption. reflexivity. Qed.
Lemma posdef_ren : forall T (W W' : mat K), weights_renumbered T n p W W' -> posdef (2 * (n * T)) W -> posdef (2 * (n * T)) W'.
Proof.
  intros T W W' (HW' & TW' & E) PW. pose proof PW as ((_ & _ & PP) & _). split; [split; [exact HW'|split; [exact TW'|]]|].
  - intros v Lv. destruct (real_matrix_form T n v Lv) as (X & HX & -> & _). change (0 <=! wnorm2 W' X). rewrite <- (E _ _ (uncols_is T X HX)) || rewrite (E _ _ (uncols_is T X HX)). apply PP. apply length_rv. apply shape_mk.
  - intros v Lv Z. destruct (real_matrix_form T n v Lv) as (X & HX & EV & _). rewrite EV in Z. change (wnorm2 W' X = 0) in Z. pose proof (uncols_is T X HX) as U. rewrite (E _ _ U) in Z.
    apply (wnorm2_zero W _ T n _ eq_refl PW (proj1 U)) in Z.
    assert (EX : X = mzeros T n).
    { apply (gshape_ext _ _ T n HX (shape_mk _ _ _)). intros t j Ht Hj. rewrite (proj2 (proj2 U)) by assumption. rewrite Z. unfold mzeros. rewrite !get_mk by (assumption || apply Hlt; assumption). reflexivity. }
    rewrite EV, EX. apply vec_ext; [unfold vzeros; rewrite repeat_length; apply length_rv; apply shape_mk|]. intros k Hk. rewrite vget_vzeros.
    rewrite length_make_real_vector in Hk. rewrite vget_make_real_vector by exact Hk. rewrite length_vectorize in *. cbn [nr nc mzeros mk] in *.
    assert (Q : forall l, (l < T * n)%nat -> vget (vectorize_matrix (mzeros T n : mat CK)) l = 0).
    { intros l Hl. rewrite vec_at by exact Hl. cbn [nr mzeros mk]. unfold mzeros. rewrite get_mk; [reflexivity|apply Nat.mod_upper_bound; intros ->; lia|apply Nat.div_lt_upper_bound; [intros ->; lia|lia]]. }
    destruct (Nat.ltb_spec k (T * n)); rewrite Q by lia; reflexivity.
Qed.
Lemma input_objective_ren : forall T (W W' : mat K) (x x' z z' M M' D D' : mat CK), weights_renumbered T n p W W' -> columns_renumbered T n p x x' -> columns_renumbered T n p z z' -> renumbered n p M M' -> columns_renumbered T n p D D' ->
  input_objective W' W' x' z' M' D' = input_objective W W x z M D.
Proof.
  intros T W W' x x' z z' M M' D D' (_ & _ & E) HX HZ HM HD. unfold input_objective. rewrite (E _ _ HD). f_equal. apply E. apply (difference_ren n p HP); [exact HZ|]. apply (flows_ren n p HP); [|exact HM]. apply (difference_ren n p HP); assumption.
Qed.
Lemma correction_ren : forall T (W W' : mat K) (x x' z z' M M' D D' : mat CK), posdef (2 * (n * T)) W -> weights_renumbered T n p W W' -> columns_renumbered T n p x x' -> columns_renumbered T n p z z' -> renumbered n p M M' ->
  shape D T n -> shape D' T n -> (forall C, shape C T n -> input_objective W W x z M D <=! input_objective W W x z M C) -> (forall C, shape C T n -> input_objective W' W' x' z' M' D' <=! input_objective W' W' x' z' M' C) ->
  columns_renumbered T n p D D'.
Proof.
  intros T W W' x x' z z' M M' D D' PW HW HX HZ HM HD HD' B B'. pose proof (recols_is T D HD) as RC. pose proof (uncols_is T D' HD') as UC.
  rewrite <- (correction_unique W' T n x' z' M' D' (recols T D) (posdef_ren T W W' HW PW) (proj1 (proj2 HX)) (proj1 (proj2 HZ)) (proj1 (proj2 HM)) HD' (shape_mk _ _ _) B'); [exact RC|].
  rewrite (input_objective_ren T W W' x x' z z' M M' _ _ HW HX HZ HM RC), (input_objective_ren T W W' x x' z z' M M' _ _ HW HX HZ HM UC). apply B. apply shape_mk.
Qed.

(** ** the projection *)
Lemma seq_add : forall k c s, map (Nat.add k) (seq s c) = seq (k + s) c.
Proof. intros k. induction c as [|c IH]; intros s; [reflexivity|]. cbn [seq map]. rewrite IH. f_equal. f_equal. lia. Qed.
Definition twice (j : nat) : nat := if (j <? n)%nat then p j else (n + p (j - n))%nat.
Lemma twice_numbering : numbering (2 * n) twice.
Proof.
  unfold numbering, new_order. replace (2 * n)%nat with (n + n)%nat by lia. rewrite seq_app, map_app. apply Permutation_app.
  - rewrite (map_ext_in twice p); [exact HP|]. intros j Hj. apply in_seq in Hj. unfold twice. destruct (Nat.ltb_spec j n); [reflexivity|lia].
  - cbn [Nat.add]. replace (seq n n) with (map (Nat.add n) (seq 0 n)) by (rewrite seq_add, Nat.add_0_r; reflexivity). rewrite map_map.
    rewrite (map_ext_in (fun j => twice (n + j)) (fun j => (n + p j)%nat)).
    + rewrite <- (map_map p (Nat.add n)). apply Permutation_map. exact HP.
    + intros j Hj. unfold twice. destruct (Nat.ltb_spec (n + j) n); [lia|]. replace (n + j - n)%nat with j by lia. reflexivity.
Qed.
Lemma side_ren : forall T (x x' z z' : mat CK), columns_renumbered T n p x x' -> columns_renumbered T n p z z' -> columns_renumbered T (2 * n) twice (hstack2 x z) (hstack2 x' z').
Proof.
  intros T x x' z z' ((Wx & Rx & Cx) & (Wx' & Rx' & Cx') & E) ((Wz & Rz & Cz) & (Wz' & Rz' & Cz') & EZ).
  assert (S : forall a b : mat CK, nr a = T -> nc a = n -> nc b = n -> shape (hstack2 a b) T (2 * n)) by (intros a b R C C2; split; [apply wf_mk|cbn [hstack2 nr nc mk]; lia]).
  split; [apply S; assumption|]. split; [apply S; assumption|]. intros t j Ht Hj. unfold twice. destruct (Nat.ltb_spec j n).
  - pose proof (Hlt j ltac:(lia)). rewrite !get_hstack2_l by lia. apply E; assumption.
  - pose proof (Hlt (j - n) ltac:(lia)). unfold hstack2. rewrite !get_mk by lia. rewrite Cx, Cx'. destruct (Nat.ltb_spec j n); [lia|]. destruct (Nat.ltb_spec (n + p (j - n)) n); [lia|].
    replace (n + p (j - n) - n)%nat with (p (j - n)) by lia. apply EZ; lia.
Qed.
Lemma slice_ren : forall T (d d' : mat CK) c, (c = 0 \/ c = n)%nat -> columns_renumbered T (2 * n) twice d d' -> columns_renumbered T n p (mslice d 0 T c (c + n)) (mslice d' 0 T c (c + n)).
Proof.
  intros T d d' c HC ((W & R & C) & (W' & R' & C') & E). assert (S : forall a : mat CK, shape (mslice a 0 T c (c + n)) T n) by (intros a; split; [apply wf_mk|cbn [mslice nr nc mk]; lia]).
  split; [apply S|]. split; [apply S|]. intros t j Ht Hj. pose proof (Hlt j Hj). unfold mslice. rewrite !get_mk by lia. cbn [Nat.add]. rewrite E by lia. f_equal. unfold twice. destruct HC as [->| ->]; [rewrite (proj2 (Nat.ltb_lt (0 + j) n)) by lia; reflexivity|].
  destruct (Nat.ltb_spec (n + j) n); [lia|]. replace (n + j - n)%nat with j by lia. reflexivity.
Qed.
Lemma cols_same : forall T (A A' B B' : mat CK), columns_renumbered T n p A A' -> columns_renumbered T n p B B' -> (A = B <-> A' = B').
Proof.
  intros T A A' B B' (SA & SA' & EA) (SB & SB' & EB). split; intro H.
  - subst B. apply (gshape_ext _ _ T n SA' SB'). intros t j Ht Hj. rewrite EA, EB by assumption. reflexivity.
  - subst B'. apply (gshape_ext _ _ T n SA SB). intros t j Ht Hj. destruct (back_ok n p HP j Hj) as [B1 B2]. rewrite <- B2. rewrite <- EA, <- EB by assumption. reflexivity.
Qed.
Lemma flow_ren : forall T (Y Y' d d' : mat CK), renumbered n p Y Y' -> columns_renumbered T (2 * n) twice d d' -> (satisfies_flow n Y d <-> satisfies_flow n Y' d').
Proof.
  intros T Y Y' d d' RY RD. unfold satisfies_flow. pose proof RD as ((_ & R & _) & (_ & R' & _) & _). rewrite R, R'.
  pose proof (slice_ren T d d' 0 (or_introl eq_refl) RD) as S1. pose proof (slice_ren T d d' n (or_intror eq_refl) RD) as S2. replace (n + n)%nat with (2 * n)%nat in S2 by lia.
  exact (cols_same T _ _ _ _ (flows_ren n p HP T _ _ _ _ S1 RY) S2).
Qed.
Lemma square_ren : forall T (x x' : mat CK), columns_renumbered T n p x x' -> vdot (vectorize_matrix x') (vectorize_matrix x') = vdot (vectorize_matrix x) (vectorize_matrix x).
Proof.
  assert (Q : forall T (x : mat CK), shape x T n -> vdot (vectorize_matrix x) (vectorize_matrix x) = sumn n (fun j => sumn T (fun t => get x t j * get x t j))).
  { intros T x (W & R & C). unfold vdot. rewrite length_vectorize, R, C. rewrite Nat.mul_comm, sumn_mul. apply sumn_ext. intros j Hj. apply sumn_ext. intros t Ht. rewrite <- R. rewrite vget_vectorize by congruence. reflexivity. }
  intros T x x' (SX & SX' & E). rewrite (Q T x SX), (Q T x' SX'). rewrite <- (sum_numbering n p (fun j => sumn T (fun t => get x t j * get x t j)) HP). apply sumn_ext. intros j Hj. apply sumn_ext. intros t Ht. rewrite E by assumption. reflexivity.
Qed.
End Perm.

Lemma project_ren : forall n p, numbering n p -> forall T (Y Y' x x' z z' d d' : mat CK), renumbered n p Y Y' -> columns_renumbered T n p x x' -> columns_renumbered T n p z z' ->
  eiv_project n Y x z = Ok d -> eiv_project n Y' x' z' = Ok d' -> columns_renumbered T n p (first_half n d) (first_half n d').
Proof.
  intros n p HP T Y Y' x x' z z' d d' RY HX HZ ED ED'. pose proof (twice_numbering n p HP) as H2. pose proof (side_ren n p HP T _ _ _ _ HX HZ) as RS.
  assert (Q : forall a b : mat CK, Ok a = Ok b -> a = b) by (intros a b Q; congruence).
  destruct (p_project n T Y x z (proj1 RY) (proj1 HX) (proj1 HZ)) as (d0 & E0 & Sd & Fd & _ & B). rewrite ED in E0. apply Q in E0. subst d0.
  destruct (p_project n T Y' x' z' (proj1 (proj2 RY)) (proj1 (proj2 HX)) (proj1 (proj2 HZ))) as (d0 & E0 & Sd' & Fd' & _ & B'). rewrite ED' in E0. apply Q in E0. subst d0.
  pose proof (recols_is (2 * n) (twice n p) T d Sd) as RD. pose proof (uncols_is (2 * n) (twice n p) H2 T d' Sd') as UD.
  set (d2 := recols _ _ _ d) in *. set (d0 := uncols _ _ _ d') in *.
  pose proof (proj1 (flow_ren n p HP T _ _ _ _ RY RD) Fd) as F2. pose proof (proj2 (flow_ren n p HP T _ _ _ _ RY UD) Fd') as F0.
  specialize (B d0 (proj1 UD) F0). specialize (B' d2 (proj1 (proj2 RD)) F2).
  rewrite (fro2_ren (2 * n) (twice n p) H2 T _ _ (difference_ren (2 * n) (twice n p) H2 T _ _ _ _ RS RD)) in B'.
  rewrite (fro2_ren (2 * n) (twice n p) H2 T _ _ (difference_ren (2 * n) (twice n p) H2 T _ _ _ _ RS UD)) in B'. rewrite B in B'.
  assert (Z : fro2 (msubt d d0) + fro2 (msubt d' d2) = 0).
  { apply ksub_eq0 in B' || idtac. transitivity (fro2 (msubt (hstack2 x z) d) + fro2 (msubt d d0) + fro2 (msubt d' d2) - fro2 (msubt (hstack2 x z) d)); [ring|]. rewrite <- B'. ring. }
  apply kle_add_zero in Z; [|apply fro2_nonneg|apply fro2_nonneg]. destruct Z as [_ Z].
  assert (E : d' = d2). { apply (msubt_eq0 _ _ T (2 * n) Sd' (proj1 (proj2 RD))). apply (fro2_zero _ T (2 * n)); [|exact Z]. destruct Sd' as (_ & <- & <-). apply shape_mk. }
  rewrite E. unfold first_half. destruct Sd as (_ & -> & _). replace (nr d2) with T by (symmetry; apply (proj1 (proj2 RD))). apply (slice_ren n p HP T d d2 0); [left; reflexivity|exact RD].
Qed.

(** ** the fits *)
Section Fit.
Variables (n : nat) (p : nat -> nat) (HP : numbering n p).
Variables (lap : bool) (m m' N : nat) (al lam at_ rt : K) (prior prior' : spprior K).
Variables pf pf' : (K -> K -> K) -> list K -> list K -> K.
Variables q q' : (K -> K -> K) -> mat CK -> mat CK -> K.
Hypothesis G : rows_are al (psize lap n + psize lap n) m prior pf.
Hypothesis G' : rows_are al (psize lap n + psize lap n) m' prior' pf'.
Hypothesis Hm : (1 < m)%nat.
Hypothesis Hm' : (1 < m')%nat.
Hypothesis Hal : 0 <! al.
Hypothesis Hlam : 0 <! lam.
Hypothesis Hq : forall g M0 M, even g -> symmetric n M0 -> symmetric n M -> pf g (parameters lap M0) (parameters lap M) = q g M0 M.
Hypothesis Hq' : forall g M0 M, even g -> symmetric n M0 -> symmetric n M -> pf' g (parameters lap M0) (parameters lap M) = q' g M0 M.
Hypothesis Hqq : forall g M0 M0' M M', renumbered n p M0 M0' -> renumbered n p M M' -> symmetric n M0 -> symmetric n M -> q' g M0' M' = q g M0 M.
Hypothesis Dc : decisive (dense prior) (2 * psize lap n).
Hypothesis Dc' : decisive (dense prior') (2 * psize lap n).
Let side (s s' : lstate K) : Prop := exists M0 M0', renumbered n p M0 M0' /\ at_matrix n lap prior M0 s /\ at_matrix n lap prior' M0' s'.

Lemma begin_ok : forall (D E : mat K) (pr : spprior K) (a Y : mat CK) Mq muq penq, dt_of n lap = Ok D -> is_dt lap n D -> e_of n lap = Ok E -> is_e lap n E -> nc a = n -> shape Y n n ->
  e_prior (object pr lam at_ rt N lap) (make_real_vector (mvmul (cmat E) (vectorize_matrix Y))) = Ok (Mq, muq, penq) -> fit_init (object pr lam at_ rt N lap) a Y = Ok (D, regressor n a D, Mq, muq).
Proof.
  intros D E pr a Y Mq muq penq ED HD EE HE Ca (_ & RY0 & CY0) EQ. pose proof (proj1 HD) as (_ & RD & CD). pose proof (proj1 HE) as (_ & RE & CE).
  unfold fit_init. rewrite Ca. cbn [object new_estimator e_dt e_el]. rewrite ED. cbn [bind]. rewrite EE. cbn [bind].
  rewrite matmul_ok by (cbn [nc mkron meye mk nr cmat mmap]; rewrite Ca, RD; reflexivity). cbn [bind].
  rewrite matvec_ok by (rewrite length_vectorize; cbn [nc cmat mmap mk]; rewrite CE, RY0, CY0; reflexivity). cbn [bind]. rewrite EQ. reflexivity.
Qed.
Lemma minimum_ren : forall (f f' : mat CK -> K) Q Q', (forall X X', renumbered n p X X' -> symmetric n X -> f' X' = f X) -> admissible lap n Q -> admissible lap n Q' ->
  (forall M2, admissible lap n M2 -> f Q <=! f M2) -> (forall M2, admissible lap n M2 -> f' M2 <=! f' Q' -> M2 = Q') -> renumbered n p Q Q'.
Proof.
  intros f f' Q Q' V B2 B2' B3 B4'. pose proof (admissible_sym _ _ _ B2) as SQ. pose proof (renumber_is n p Q (proj1 SQ)) as RN. pose proof (admissible_ren n p HP lap _ _ RN B2) as AN.
  assert (SQ' : shape Q' n n) by apply (admissible_sym _ _ _ B2').
  pose proof (unnumber_is n p HP Q' SQ') as RU. pose proof (admissible_unren n p HP lap _ _ RU B2') as AU.
  rewrite <- (B4' (renumber n p Q) AN); [exact RN|]. rewrite (V _ _ RN SQ), (V _ _ RU (admissible_sym _ _ _ AU)). apply B3. exact AU.
Qed.

Theorem eivw_fit_ren : forall spsolve spsolve' cabs T (x x' z z' Y0 Y0' : mat CK) W W' Z Z', solver_sound spsolve -> solver_complete spsolve -> solver_sound spsolve' -> solver_complete spsolve' ->
  columns_renumbered T n p x x' -> columns_renumbered T n p z z' -> posdef (2 * (n * T)) W -> weights_renumbered T n p W W' -> symmetric n Y0 -> renumbered n p Y0 Y0' ->
  exists y y' its its', fit_result (eiv_fit spsolve cabs (object prior lam at_ rt N lap) x z (Some W) (Some Z) Y0) = Ok (y, its) /\ fit_result (eiv_fit spsolve' cabs (object prior' lam at_ rt N lap) x' z' (Some W') (Some Z') Y0') = Ok (y', its') /\
    renumbered n p y y' /\ Forall2 (same_record (renumbered n p)) its its'.
Proof.
  intros spsolve spsolve' cabs T x x' z z' Y0 Y0' W W' Z Z' Hs Hc Hs' Hc' HX HZ PW RW SY RY. assert (SY' := symmetric_ren n p HP _ _ RY SY). assert (PW' := posdef_ren n p HP T W W' RW PW).
  destruct (dt_is n lap) as (D & ED & HD). destruct (e_is n lap) as (E & EE & HE).
  destruct (start_at n lap m N al lam at_ rt prior pf G Hm Hal E Y0 HE SY) as (M & mu & pen & EM & A0).
  destruct (start_at n lap m' N al lam at_ rt prior' pf' G' Hm' Hal E Y0' HE SY') as (M' & mu' & pen' & EM' & A0').
  pose proof HX as ((_ & Rx & Cx) & (_ & Rx' & Cx') & _).
  unfold eiv_fit. rewrite (begin_ok D E prior x Y0 M mu pen ED HD EE HE Cx (proj1 SY) EM), (begin_ok D E prior' x' Y0' M' mu' pen' ED HD EE HE Cx' (proj1 SY') EM'). rewrite Cx, Cx', Rx, Rx'. cbn [object new_estimator e_abs_tol e_rel_tol e_max e_iters eiv_z_weight].
  destruct (loop_sim (renumbered n p) side at_ rt
    (eiv_step_weighted spsolve (object prior lam at_ rt N lap) D (regressor n x D) W W (make_real_vector (vectorize_matrix x)) (make_real_vector (vectorize_matrix z)) T n)
    (eiv_step_weighted spsolve' (object prior' lam at_ rt N lap) D (regressor n x' D) W' W' (make_real_vector (vectorize_matrix x')) (make_real_vector (vectorize_matrix z')) T n)) with (fuel := N) (it := 0%nat) (iters := @nil (status K)) (iters' := @nil (status K)) (s := (Y0, M, mu)) (s' := (Y0', M', mu'))
    as (l & l' & f & f' & L1 & L2 & L3 & L4).
  - intros s s' (A & B & R & (<- & _) & (<- & _)). exact R.
  - intros s s' (A & B & R & AA & AB).
    destruct (eivw_round n lap m N al lam at_ rt prior pf q G Hm Hal Hlam Hq Dc spsolve x z W T D s A Hs Hc (proj1 HX) (proj1 HZ) PW HD AA) as (s1 & Q & C & E1 & B1 & SC & BC & B2 & B3 & _).
    destruct (eivw_round n lap m' N al lam at_ rt prior' pf' q' G' Hm' Hal Hlam Hq' Dc' spsolve' x' z' W' T D s' B Hs' Hc' (proj1 (proj2 HX)) (proj1 (proj2 HZ)) PW' HD AB) as (s1' & Q' & C' & E1' & B1' & SC' & BC' & B2' & _ & B4').
    assert (SA : symmetric n A) by apply AA. assert (SQ := admissible_sym _ _ _ B2).
    pose proof (correction_ren n p HP T W W' x x' z z' A B C C' PW RW HX HZ R SC SC' BC BC') as RC. pose proof (difference_ren n p HP T _ _ _ _ HX RC) as RX. pose proof RW as (_ & _ & EW).
    assert (RQ : renumbered n p Q Q').
    { apply (minimum_ren (value_w al lam q W (msubt x C) z A) (value_w al lam q' W' (msubt x' C') z' B) Q Q'); try assumption.
      intros X X' RXX SX. unfold value_w. rewrite (Hqq _ A B X X' R RXX SA SX). rewrite (EW _ _ (difference_ren n p HP T _ _ _ _ HZ (flows_ren n p HP T _ _ _ _ RX RXX))). reflexivity. }
    exists s1, s1'. eexists. split; [exact E1|]. split; [|exists Q, Q'; auto]. rewrite E1'. rewrite (Hqq _ Q Q' Q Q' RQ RQ SQ SQ).
    rewrite (EW _ _ RC), (EW _ _ (difference_ren n p HP T _ _ _ _ HZ (flows_ren n p HP T _ _ _ _ RX RQ))). reflexivity.
  - exists Y0, Y0'. auto.
  - constructor.
  - rewrite L1, L2. unfold finish_fit. cbn [snd fst fit_result e_adm e_iters]. exists (fst (fst f)), (fst (fst f')), l, l'. split; [reflexivity|]. split; [reflexivity|]. split; [|exact L3].
    destruct L4 as (A & B & R & (<- & _) & (<- & _)). exact R.
Qed.

Theorem eivu_fit_ren : forall spsolve spsolve' cabs T (x x' z z' Y0 Y0' : mat CK) Z Z', solver_sound spsolve -> solver_complete spsolve -> solver_sound spsolve' -> solver_complete spsolve' ->
  columns_renumbered T n p x x' -> columns_renumbered T n p z z' -> symmetric n Y0 -> renumbered n p Y0 Y0' ->
  exists y y' its its', fit_result (eiv_fit spsolve cabs (object prior lam at_ rt N lap) x z None Z Y0) = Ok (y, its) /\ fit_result (eiv_fit spsolve' cabs (object prior' lam at_ rt N lap) x' z' None Z' Y0') = Ok (y', its') /\
    renumbered n p y y' /\ Forall2 (same_record (renumbered n p)) its its'.
Proof.
  intros spsolve spsolve' cabs T x x' z z' Y0 Y0' Z Z' Hs Hc Hs' Hc' HX HZ SY RY. assert (SY' := symmetric_ren n p HP _ _ RY SY).
  destruct (dt_is n lap) as (D & ED & HD). destruct (e_is n lap) as (E & EE & HE).
  destruct (start_at n lap m N al lam at_ rt prior pf G Hm Hal E Y0 HE SY) as (M & mu & pen & EM & A0).
  destruct (start_at n lap m' N al lam at_ rt prior' pf' G' Hm' Hal E Y0' HE SY') as (M' & mu' & pen' & EM' & A0').
  pose proof HX as ((_ & Rx & Cx) & (_ & Rx' & Cx') & _).
  unfold eiv_fit. rewrite (begin_ok D E prior x Y0 M mu pen ED HD EE HE Cx (proj1 SY) EM), (begin_ok D E prior' x' Y0' M' mu' pen' ED HD EE HE Cx' (proj1 SY') EM'). rewrite Cx, Cx'.
  replace (match eiv_z_weight None Z with Some _ => eiv_step_unweighted spsolve cabs (object prior lam at_ rt N lap) D x z (make_real_vector (vectorize_matrix z)) n | None => eiv_step_unweighted spsolve cabs (object prior lam at_ rt N lap) D x z (make_real_vector (vectorize_matrix z)) n end)
    with (eiv_step_unweighted spsolve cabs (object prior lam at_ rt N lap) D x z (make_real_vector (vectorize_matrix z)) n) by (destruct (eiv_z_weight None Z); reflexivity).
  replace (match eiv_z_weight None Z' with Some _ => eiv_step_unweighted spsolve' cabs (object prior' lam at_ rt N lap) D x' z' (make_real_vector (vectorize_matrix z')) n | None => eiv_step_unweighted spsolve' cabs (object prior' lam at_ rt N lap) D x' z' (make_real_vector (vectorize_matrix z')) n end)
    with (eiv_step_unweighted spsolve' cabs (object prior' lam at_ rt N lap) D x' z' (make_real_vector (vectorize_matrix z')) n) by (destruct (eiv_z_weight None Z'); reflexivity).
  cbn [object new_estimator e_abs_tol e_rel_tol e_max e_iters].
  destruct (loop_sim (renumbered n p) side at_ rt
    (eiv_step_unweighted spsolve cabs (object prior lam at_ rt N lap) D x z (make_real_vector (vectorize_matrix z)) n)
    (eiv_step_unweighted spsolve' cabs (object prior' lam at_ rt N lap) D x' z' (make_real_vector (vectorize_matrix z')) n)) with (fuel := N) (it := 0%nat) (iters := @nil (status K)) (iters' := @nil (status K)) (s := (Y0, M, mu)) (s' := (Y0', M', mu'))
    as (l & l' & f & f' & L1 & L2 & L3 & L4).
  - intros s s' (A & B & R & (<- & _) & (<- & _)). exact R.
  - intros s s' (A & B & R & AA & AB).
    destruct (eivu_round n lap m N al lam at_ rt prior pf q G Hm Hal Hlam Hq Dc spsolve cabs x z T D s A Hs Hc (proj1 HX) (proj1 HZ) HD AA) as (s1 & Q & d & Ed & _ & E1 & B1 & B2 & B3 & _).
    destruct (eivu_round n lap m' N al lam at_ rt prior' pf' q' G' Hm' Hal Hlam Hq' Dc' spsolve' cabs x' z' T D s' B Hs' Hc' (proj1 (proj2 HX)) (proj1 (proj2 HZ)) HD AB) as (s1' & Q' & d' & Ed' & _ & E1' & B1' & B2' & _ & B4').
    assert (SA : symmetric n A) by apply AA. assert (SQ := admissible_sym _ _ _ B2).
    pose proof (project_ren n p HP T A B x x' z z' d d' R HX HZ Ed Ed') as RX.
    assert (RQ : renumbered n p Q Q').
    { apply (minimum_ren (value al lam q (first_half n d) z A) (value al lam q' (first_half n d') z' B) Q Q'); try assumption.
      intros X X' RXX SX. unfold value. rewrite (Hqq _ A B X X' R RXX SA SX). rewrite (fro2_ren n p HP T _ _ (difference_ren n p HP T _ _ _ _ HZ (flows_ren n p HP T _ _ _ _ RX RXX))). reflexivity. }
    exists s1, s1'. eexists. split; [exact E1|]. split; [|exists Q, Q'; auto]. rewrite E1'. rewrite (Hqq _ Q Q' Q Q' RQ RQ SQ SQ).
    rewrite (square_ren n p HP T _ _ RX), (fro2_ren n p HP T _ _ (difference_ren n p HP T _ _ _ _ HZ (flows_ren n p HP T _ _ _ _ RX RQ))). reflexivity.
  - exists Y0, Y0'. auto.
  - constructor.
  - rewrite L1, L2. unfold finish_fit. cbn [snd fst fit_result e_adm e_iters]. exists (fst (fst f)), (fst (fst f')), l, l'. split; [reflexivity|]. split; [reflexivity|]. split; [|exact L3].
    destruct L4 as (A & B & R & (<- & _) & (<- & _)). exact R.
Qed.
End Fit.

(** ** the Bayesian identification *)
Section Bayes.
Variables (spsolve spsolve' : mat K -> list K -> res (list K)) (cabs : CK -> K) (true_cov naive_cov : mat CK -> arg K -> K -> bool -> res (mat K)) (conf : config K).
Variables (n : nat) (p : nat -> nat) (HP : numbering n p) (T : nat).
Hypothesis Hs : solver_sound spsolve.
Hypothesis Hc : solver_complete spsolve.
Hypothesis Hs' : solver_sound spsolve'.
Hypothesis Hc' : solver_complete spsolve'.
Hypothesis Hlam : 0 <! lambda_eiv conf.
Hypothesis Hrow : contrast_each_row conf = true.
Hypothesis Hdiag : regularize_diag conf = false.
Hypothesis Hn : (2 <= n)%nat.

Theorem bayesian_ren : forall name (v v' i i' y0 y0' x x' z z' : mat CK) sv sc r r' w u xw xw' zw zw' it s s', (0 < it)%Z ->
  nc v = n -> nc v' = n -> columns_renumbered T n p x x' -> columns_renumbered T n p z z' ->
  ModelRun.eiv_data cabs true_cov naive_cov v i sv sc r w u = Ok (x, z, xw, zw) -> ModelRun.eiv_data cabs true_cov naive_cov v' i' sv sc r' w u = Ok (x', z', xw', zw') ->
  match xw, xw' with Some W, Some W' => posdef (2 * (n * T)) W /\ weights_renumbered T n p W W' /\ zw <> None /\ zw' <> None | None, None => True | _, _ => False end ->
  symmetric n y0 -> renumbered n p y0 y0' -> no_zero_line n y0 -> (forall k, (k < n)%nat -> nonzero_parts (reference (use_tls_diag conf) n y0 k)) ->
  exists y y' its its',
    snd (ModelRun.bayesian_eiv spsolve cabs true_cov naive_cov conf name v i sv sc r y0 None true w it u s) = Ok (y, its) /\
    snd (ModelRun.bayesian_eiv spsolve' cabs true_cov naive_cov conf name v' i' sv sc r' y0' None true w it u s') = Ok (y', its') /\
    renumbered n p y y' /\ Forall2 (same_record (renumbered n p)) its its'.
Proof.
  intros name v v' i i' y0 y0' x x' z z' sv sc r r' w u xw xw' zw zw' it s s' Hit Cv Cv' HX HZ ED ED' HW SY RY NZ NR.
  destruct (centred_ren n p HP true T x x' z z' HX HZ) as [RX RZ].
  assert (NZ' := no_zero_ren n p HP y0 y0' RY NZ).
  assert (NR' : forall k, (k < n)%nat -> nonzero_parts (reference (use_tls_diag conf) n y0' k)) by (intros k Hk; rewrite (reference_ren n p HP _ y0 y0' k RY Hk); apply NR; apply (order_lt n p HP); exact Hk).
  destruct (p_complex_rows true (use_tls_diag conf) n (lambdaprime conf) y0 Hn (proj1 RY) NZ NR) as (pr & m & pf & EP & Hm & G & Hpf).
  destruct (p_complex_rows true (use_tls_diag conf) n (lambdaprime conf) y0' Hn (proj1 (proj2 RY)) NZ' NR') as (pr' & m' & pf' & EP' & Hm' & G' & Hpf').
  pose proof (lines_decisive n m (tenth 8) _ _ y0 pr pf G NZ Hpf) as Dc. pose proof (lines_decisive n m' (tenth 8) _ _ y0' pr' pf' G' NZ' Hpf') as Dc'.
  set (q := fun g M0 M => line_pairs g n y0 M0 M + node_pairs g (lambdaprime conf) (use_tls_diag conf) n y0 M0 M) in *.
  set (q' := fun g M0 M => line_pairs g n y0' M0 M + node_pairs g (lambdaprime conf) (use_tls_diag conf) n y0' M0 M) in *.
  assert (Hqq : forall g M0 M0' M M', renumbered n p M0 M0' -> renumbered n p M M' -> symmetric n M0 -> symmetric n M -> q' g M0' M' = q g M0 M).
  { intros g M0 M0' M M' R0 R1 S0 S1. apply (complex_ren n p HP); assumption. }
  unfold ModelRun.bayesian_eiv. rewrite !bind_lift. unfold eiv_object, bayesian_prior. rewrite Hrow, Hdiag, Cv, Cv', EP, EP'. cbn [bind]. rewrite (proj2 (Z.ltb_lt 0 it) Hit). rewrite !bind_lift. rewrite ED, ED'.
  destruct (centred true x z) as [x1 z1]. destruct (centred true x' z') as [x1' z1']. cbn [fst snd] in RX, RZ. rewrite !bind_lift.
  change (new_estimator (sp_log_distribution pr) (lambda_eiv conf) (abs_tol conf) (rel_tol conf) (Z.to_nat it) (fun k => dt_of k true) (fun k => e_of k true)) with (object pr (lambda_eiv conf) (abs_tol conf) (rel_tol conf) (Z.to_nat it) true).
  change (new_estimator (sp_log_distribution pr') (lambda_eiv conf) (abs_tol conf) (rel_tol conf) (Z.to_nat it) (fun k => dt_of k true) (fun k => e_of k true)) with (object pr' (lambda_eiv conf) (abs_tol conf) (rel_tol conf) (Z.to_nat it) true).
  assert (R : exists y y' its its', fit_result (eiv_fit spsolve cabs (object pr (lambda_eiv conf) (abs_tol conf) (rel_tol conf) (Z.to_nat it) true) x1 z1 xw zw y0) = Ok (y, its) /\
    fit_result (eiv_fit spsolve' cabs (object pr' (lambda_eiv conf) (abs_tol conf) (rel_tol conf) (Z.to_nat it) true) x1' z1' xw' zw' y0') = Ok (y', its') /\ renumbered n p y y' /\ Forall2 (same_record (renumbered n p)) its its').
  { destruct xw as [W|], xw' as [W'|]; try contradiction.
    - destruct HW as (PW & RW & N1 & N2). destruct zw as [Z|]; [|contradiction]. destruct zw' as [Z'|]; [|contradiction].
      apply (eivw_fit_ren n p HP true m m' (Z.to_nat it) (tenth 8) (lambda_eiv conf) (abs_tol conf) (rel_tol conf) pr pr' pf pf' q q' G G' Hm Hm' (tenth_pos 8) Hlam Hpf Hpf' Hqq Dc Dc' spsolve spsolve' cabs T); assumption.
    - apply (eivu_fit_ren n p HP true m m' (Z.to_nat it) (tenth 8) (lambda_eiv conf) (abs_tol conf) (rel_tol conf) pr pr' pf pf' q q' G G' Hm Hm' (tenth_pos 8) Hlam Hpf Hpf' Hqq Dc Dc' spsolve spsolve' cabs T); assumption. }
  destruct R as (y & y' & its & its' & E1 & E2 & R1 & R2). rewrite E1, E2. rewrite !bind_save. unfold lift. cbn [snd]. exists y, y', its, its'. auto.
Qed.
End Bayes.
End Equiv.
