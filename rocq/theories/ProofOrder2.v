(** Mixed rows: the error-in-variables estimator. *)
From Coq Require Import Bool Arith List Lia Ring Field.
From Verif Require Import BasePy BaseFld BaseOrd BaseSum BaseMat BaseNumpy BaseLin ModelMatrixOps ModelFit SpecMatrix SpecLS SpecFit ProofMatrixOps ProofLS ProofFitBase ProofFitOpt ProofFitEIV ProofOrder.
Import ListNotations.
Local Open Scope nat_scope.

Section Order.
Context {K : Type} {O : Ops K} {F : Fld K} {O2 : OrdOps K} {OF : OrdFld K}.
Notation CK := (cplx K).
Add Field KfldO2 : (@k_field K O F).
Variables (T : nat) (Q : mat K).
Hypothesis (HQ : shape Q T T) (OQ : mmul (tr Q) Q = meye T).
Notation lifted := (lifted Q).
Notation big := (big Q).

(** *** without weights *)
Lemma orth_cQ : mmul (tr (cmat Q)) (cmat Q) = meye T :> mat CK.
Proof.
  rewrite <- (unitary_cQ T Q HQ OQ). f_equal. destruct HQ as (WQ & RQ & CQ). apply (gshape_ext _ _ T T); [split; [apply wf_mk|split; [exact CQ|exact RQ]]|split; [apply wf_mk|split; [exact CQ|exact RQ]]|].
  intros i j Hi Hj. rewrite get_tr by (cbn; rewrite ?RQ, ?CQ; assumption). rewrite get_ctr by (cbn; rewrite ?RQ, ?CQ; assumption). rewrite get_cmat by (rewrite ?RQ, ?CQ; assumption).
  apply cplx_eq; cbn; ring.
Qed.
Lemma lifted_orth : forall n, mmul (tr (lifted n)) (lifted n) = meye (n * T) :> mat CK.
Proof.
  intro n. unfold ProofOrder.lifted. rewrite tr_mkron, tr_meye. rewrite mmul_mkron by reflexivity. rewrite orth_cQ, mmul_1_l' by (try apply wf_mk; auto). apply mkron_eye.
Qed.
Lemma lifted_vector : forall n (z : mat CK), shape z T n -> vectorize_matrix (mmul (cmat Q) z) = mvmul (lifted n) (vectorize_matrix z).
Proof. intros n z (WZ & RZ & CZ). destruct (shape_cQ T Q HQ) as (WQ & RQ & CQ). unfold ProofOrder.lifted. rewrite kron_eye_vec by (auto; congruence). reflexivity. Qed.
Lemma dot_lifted : forall n (z : mat CK), shape z T n -> let v := vectorize_matrix (mmul (cmat Q) z) in vdot v v = vdot (vectorize_matrix z) (vectorize_matrix z).
Proof.
  intros n z HZ. cbv zeta. rewrite (lifted_vector n z HZ). pose proof (shape_lifted T Q HQ n) as (W & R & C).
  assert (L : length (vectorize_matrix z) = n * T) by (destruct HZ as (_ & RZ & CZ); rewrite length_vectorize, RZ, CZ; lia).
  rewrite vdot_mvmul by (rewrite ?length_mvmul; congruence). rewrite <- mvmul_assoc by (cbn; congruence). rewrite lifted_orth, <- L, mvmul_1. reflexivity.
Qed.
Lemma project_mixed : forall n y x z, shape x T n -> shape z T n ->
  eiv_project n y (mmul (cmat Q) x) (mmul (cmat Q) z) = match eiv_project n y x z with Ok m => Ok (mmul (cmat Q) m) | Err e => Err e end.
Proof.
  intros n y x z (WX & RX & CX) (WZ & RZ & CZ). destruct (shape_cQ T Q HQ) as (WQ & RQ & CQ). unfold eiv_project. destruct (negb _); [reflexivity|].
  destruct (matmul (ctr _) _) as [g|]; [|reflexivity]. cbn [bind]. destruct (kinverse g) as [gi|]; [|reflexivity]. cbn [bind]. destruct (matmul _ gi) as [p1|]; [|reflexivity]. cbn [bind].
  destruct (matmul p1 _) as [p2|]; [|reflexivity]. cbn [bind]. destruct ((nr p2 =? 2 * n) && _)%bool; [|reflexivity]. cbn [bind].
  change (nr (mmul (cmat Q) x) =? nr (mmul (cmat Q) z)) with (nr (cmat Q) =? nr (cmat Q)). rewrite Nat.eqb_refl, RX, RZ, Nat.eqb_refl. cbn [bind].
  rewrite <- mmul_hstack_r by congruence. unfold matmul. change (nc (mmul (cmat Q) (hstack2 x z))) with (nc (hstack2 x z)). destruct (_ =? _) eqn:E; [|reflexivity].
  apply Nat.eqb_eq in E. rewrite mmul_assoc; [reflexivity| |exact E]. rewrite CQ. cbn. auto.
Qed.
Lemma project_shape : forall n y x z m, shape x T n -> eiv_project n y x z = Ok m -> shape m T (2 * n).
Proof.
  intros n y x z m (WX & RX & CX) H. unfold eiv_project in H. destruct (negb _); [discriminate|].
  destruct (matmul (ctr _) _) as [g|]; [|discriminate]. cbn [bind] in H. destruct (kinverse g) as [gi|]; [|discriminate]. cbn [bind] in H. destruct (matmul _ gi) as [p1|]; [|discriminate]. cbn [bind] in H.
  destruct (matmul p1 _) as [p2|]; [|discriminate]. cbn [bind] in H. destruct ((nr p2 =? 2 * n) && _)%bool; [|discriminate]. cbn [bind] in H.
  destruct (nr x =? nr z); [|discriminate]. cbn [bind] in H. unfold matmul in H. destruct (_ =? _); [|discriminate]. injection H as <-. split; [apply wf_mk|]. cbn. auto.
Qed.
Lemma slice_mixed : forall n m, shape m T (2 * n) -> mslice (mmul (cmat Q) m) 0 (nr (mmul (cmat Q) m)) 0 n = mmul (cmat Q) (mslice m 0 (nr m) 0 n) /\ shape (mslice m 0 (nr m) 0 n) T n.
Proof.
  intros n m (WM & RM & CM). destruct (shape_cQ T Q HQ) as (WQ & RQ & CQ). split.
  - change (nr (mmul (cmat Q) m)) with (nr (cmat Q)). rewrite RQ, RM. unfold mslice at 1. rewrite !Nat.sub_0_r. apply (gshape_ext _ _ T n); [apply shape_mk|apply shape_mmul with (m := T); auto; unfold mslice; rewrite nc_mk; lia|].
    intros i j Hi Hj. rewrite get_mk by assumption. cbn [Nat.add]. rewrite !get_mmul by (unfold mslice; rewrite ?nc_mk, ?RQ; lia). apply sumn_ext. intros k Hk. f_equal. rewrite CQ in Hk.
    unfold mslice. rewrite get_mk by lia. reflexivity.
  - unfold mslice. rewrite !Nat.sub_0_r, RM. apply shape_mk.
Qed.
Lemma unweighted_mixed : forall sv ca (e : estimator K) DT n x z s, shape x T n -> shape z T n ->
  eiv_step_unweighted sv ca e DT (mmul (cmat Q) x) (mmul (cmat Q) z) (make_real_vector (vectorize_matrix (mmul (cmat Q) z))) n s =
  eiv_step_unweighted sv ca e DT x z (make_real_vector (vectorize_matrix z)) n s.
Proof.
  intros sv ca e DT n x z [[y M] mu] HX HZ. unfold eiv_step_unweighted. rewrite (project_mixed n y x z HX HZ). destruct (eiv_project n y x z) as [m|] eqn:EP; [|reflexivity]. cbn [bind].
  pose proof (project_shape n y x z m HX EP) as HM. destruct (slice_mixed n m HM) as [ES HS]. rewrite ES. set (E := mslice m 0 (nr m) 0 n) in *. pose proof HS as (WE & RE & CE).
  assert (X : forall E' : mat CK, nc E' = n -> matmul (mkron (meye n) E') (cmat DT) = if n * n =? nr (cmat DT) then Ok (mmul (mkron (meye n) E') (cmat DT)) else Err ValueError).
  { intros E' H. unfold matmul. change (nc (mkron (meye n) E')) with (n * nc E'). rewrite H. reflexivity. }
  rewrite (X (mmul (cmat Q) E)) by exact CE. rewrite (X E CE).
  destruct (n * n =? nr (cmat DT)) eqn:ED; [|reflexivity]. apply Nat.eqb_eq in ED. cbn [bind]. rewrite (mix_matrix T Q HQ n E (cmat DT) HS (eq_sym ED)), (mix_vector T Q HQ n z HZ).
  set (A := make_real_matrix (mmul (mkron (meye n) E) (cmat DT))). set (b := make_real_vector (vectorize_matrix z)).
  pose proof (shape_big T Q HQ n) as HB. pose proof (big_orth T Q HQ OQ n) as OB. set (B := big n) in *. set (N := 2 * (n * T)) in *.
  assert (HA : shape A N (nc (cmat DT) + nc (cmat DT))).
  { pose proof (shape_make_real_matrix (mmul (mkron (meye n) E) (cmat DT))) as H. cbn [nr nc mmul mk mkron meye] in H. rewrite RE in H. unfold N. replace (2 * (n * T)) with (n * T + n * T) by lia. exact H. }
  assert (L : length b = N) by (apply (length_stacked T n z HZ)).
  pose proof HA as (WA & RA & CA). pose proof HB as (WB & RB & CB).
  rewrite (matmul_ok K O (tr (mmul B A)) (mmul B A)) by (cbn; auto). rewrite (matmul_ok K O (tr A) A) by (cbn; auto). cbn [bind].
  rewrite (orth_gram N B HB OB A _ HA). destruct (sp_add (mmul (tr A) A) (mscal (e_lambda e) M)) as [iASA|]; [|reflexivity]. cbn [bind].
  rewrite (matvec_ok K O (tr (mmul B A)) (mvmul B b)) by (rewrite length_mvmul; reflexivity). rewrite (matvec_ok K O (tr A) b) by (change (nc (tr A)) with (nr A); congruence). cbn [bind].
  rewrite (orth_adj N B HB OB A _ b HA L). destruct (np_vadd _ _) as [ASb|]; [|reflexivity]. cbn [bind].
  destruct (solve_y sv e DT n iASA ASb) as [[[u s'] pen]|]; [|reflexivity]. cbn [bind].
  unfold matvec. change (nc (mmul B A)) with (nc A). destruct (nc A =? length u) eqn:EU; [|reflexivity]. apply Nat.eqb_eq in EU. cbn [bind].
  rewrite mvmul_assoc by congruence.
  rewrite (np_vsub_ok (mvmul B b)) by (rewrite !length_mvmul; auto). rewrite (np_vsub_ok b) by (rewrite length_mvmul; congruence). cbn [bind].
  rewrite <- mvmul_vsubt by (rewrite ?length_mvmul; congruence). rewrite (orth_dot N B HB OB) by (rewrite length_vsubt; exact L). rewrite (dot_lifted n E HS). reflexivity.
Qed.
End Order.
