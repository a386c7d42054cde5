(** Linear algebra facts used by the fit proofs. *)
From Coq Require Import Arith ZArith Lia List Bool Ring Field.
From Verif Require Import BasePy BaseFld BaseSum BaseMat BaseNumpy BaseOrd BaseLin ModelMatrixOps SpecMatrix SpecLS
  ProofMatrixOps ProofStruct ProofMatrixProps ProofLS ModelFit.
Import ListNotations.
Local Open Scope K_scope.

Section Base.
Context {K : Type} {O : Ops K} {F : Fld K}.
Add Field Kfld : (@k_field K O F).

(** vec(A X B^T) = (B kron A) vec X *)
Lemma kron_vec : forall (B A X : mat K), nc A = nr X -> nc B = nc X -> 
  mvmul (mkron B A) (vectorize_matrix X) = vectorize_matrix (mmul A (mmul X (tr B))).
Proof.
  intros B A X H1 H2. apply vec_ext.
  - rewrite length_mvmul, length_vectorize. simpl. lia.
  - rewrite length_mvmul. simpl. intros k Hk.
    destruct (divmod_bound k (nr B) (nr A) Hk) as (Hj & Hi & Ek).
    set (j := (k / nr A)%nat) in *. set (i := (k mod nr A)%nat) in *.
    rewrite vget_mvmul by (simpl; exact Hk). change (nc (mkron B A)) with (nc B * nc A)%nat.
    rewrite sumn_mul.
    transitivity (vget (vectorize_matrix (mmul A (mmul X (tr B)))) (j * nr (mmul A (mmul X (tr B))) + i));
      [|simpl; rewrite <- Ek; reflexivity].
    rewrite vget_vectorize by (simpl; assumption).
    rewrite get_mmul by (simpl; assumption).
    rewrite (sumn_ext (nc A) (fun l => get A i l * get (mmul X (tr B)) l j)
      (fun l => sumn (nc B) (fun c => get A i l * (get X l c * get B j c)))).
    + rewrite sumn_swap. apply sumn_ext. intros c Hc. apply sumn_ext. intros l Hl.
      rewrite Ek, get_mkron by assumption.
      rewrite H1. rewrite vget_vectorize by lia. ring.
    + intros l Hl. rewrite get_mmul by (simpl; lia). rewrite <- H2, <- sumn_scal_l.
      apply sumn_ext. intros c Hc. rewrite get_tr by (simpl; lia). reflexivity.
Qed.

Lemma kron_eye_vec : forall (A X : mat K) n, wf X -> nc A = nr X -> nc X = n ->
  mvmul (mkron (meye n) A) (vectorize_matrix X) = vectorize_matrix (mmul A X).
Proof.
  intros A X n Hw H1 H2. rewrite kron_vec by (simpl; lia). rewrite tr_meye.
  rewrite (mmul_1_r' n X Hw H2). reflexivity.
Qed.

Lemma eye_kron_vec : forall (B X : mat K) T, wf X -> nr X = T -> nc B = nc X -> 
  mvmul (mkron B (meye T)) (vectorize_matrix X) = vectorize_matrix (mmul X (tr B)).
Proof.
  intros B X T Hw H1 H2. rewrite kron_vec by (simpl; lia). 
  f_equal. apply mmul_1_l'; [apply wf_mk|exact H1].
Qed.

Lemma mvmul_ext : forall (A B : mat K) v, nr A = nr B -> nc A = nc B ->
  (forall i j, (i < nr A)%nat -> (j < nc A)%nat -> get A i j = get B i j) -> mvmul A v = mvmul B v.
Proof.
  intros A B v Hr Hc H. unfold mvmul. rewrite <- Hr, <- Hc. apply mkv_ext. intros i Hi.
  apply sumn_ext. intros j Hj. rewrite H by assumption. reflexivity.
Qed.

Lemma vectorize_ext : forall A B : mat K, nr A = nr B -> nc A = nc B ->
  (forall i j, (i < nr A)%nat -> (j < nc A)%nat -> get A i j = get B i j) ->
  vectorize_matrix A = vectorize_matrix B.
Proof.
  intros A B Hr Hc H. unfold vectorize_matrix. rewrite <- Hr, <- Hc.
  rewrite !flat_map_concat_map. f_equal. apply map_ext_in. intros j Hj. apply map_ext_in. intros i Hi.
  apply in_range in Hi. apply in_range in Hj. apply H; assumption.
Qed.

Lemma vectorize_msubt : forall A B : mat K, nr A = nr B -> nc A = nc B ->
  vsubt (vectorize_matrix A) (vectorize_matrix B) = vectorize_matrix (msubt A B).
Proof.
  intros A B Hr Hc. apply vec_ext.
  - rewrite length_vsubt, !length_vectorize. simpl. reflexivity.
  - rewrite length_vsubt, length_vectorize. intros k Hk.
    rewrite vget_vsubt by (rewrite length_vectorize; exact Hk).
    rewrite Nat.mul_comm in Hk.
    destruct (divmod_bound k (nc A) (nr A) Hk) as (Hj & Hi & Ek).
    set (j := (k / nr A)%nat) in *. set (i := (k mod nr A)%nat) in *.
    pose proof (vget_vectorize A i j Hi Hj) as E1.
    assert (E2 : vget (vectorize_matrix B) (j * nr A + i) = get B i j).
    { rewrite Hr. apply vget_vectorize; rewrite <- ?Hr, <- ?Hc; assumption. }
    pose proof (vget_vectorize (msubt A B) i j Hi Hj) as E3.
    change (nr (msubt A B)) with (nr A) in E3.
    rewrite <- Ek in E1, E2, E3. rewrite E1, E2, E3, get_msubt by assumption. reflexivity.
Qed.
End Base.

Section Cplx.
Context {K : Type} {O : Ops K} {F : Fld K} {FR : FReal K}.
Notation CK := (cplx K).
Add Field Kfld2 : (@k_field K O F).
Add Field CKfld2 : (@k_field CK _ _).
Local Arguments kmul : simpl never.
Local Arguments kadd : simpl never.
Local Arguments ksub : simpl never.
Local Arguments kopp : simpl never.
Local Arguments k0 : simpl never.
Local Arguments k1 : simpl never.

Lemma re_sub : forall a b : CK, re (a - b) = re a - re b.
Proof. reflexivity. Qed.
Lemma im_sub : forall a b : CK, im (a - b) = im a - im b.
Proof. reflexivity. Qed.

Lemma real_vector_sub : forall u v : list CK, length u = length v ->
  vsubt (make_real_vector u) (make_real_vector v) = make_real_vector (vsubt u v).
Proof.
  intros u v H. apply vec_ext.
  - rewrite length_vsubt, !length_make_real_vector, length_vsubt. reflexivity.
  - rewrite length_vsubt, length_make_real_vector. intros i Hi.
    rewrite vget_vsubt by (rewrite length_make_real_vector; exact Hi).
    rewrite !vget_make_real_vector by (rewrite ?length_vsubt; lia).
    rewrite length_vsubt, <- H. destruct (Nat.ltb_spec i (length u)).
    + rewrite vget_vsubt by assumption. apply re_sub.
    + rewrite vget_vsubt by lia. apply im_sub.
Qed.

Lemma real_vector_inj : forall u v : list CK, make_real_vector u = make_real_vector v -> u = v.
Proof.
  intros u v H. assert (E := make_complex_real u). rewrite H, make_complex_real in E. inversion E. reflexivity.
Qed.

Lemma vdot_real : forall v : list CK, vdot (make_real_vector v) (make_real_vector v) =
  sumn (length v) (fun i => cnorm2 (vget v i)).
Proof.
  intros v. unfold vdot. rewrite length_make_real_vector. replace (2 * length v)%nat with (length v + length v)%nat by lia.
  rewrite sumn_plus, <- sumn_add. apply sumn_ext. intros i Hi.
  rewrite !vget_make_real_vector by lia.
  replace (i <? length v)%nat with true by (symmetry; apply Nat.ltb_lt; lia).
  replace (length v + i <? length v)%nat with false by (symmetry; apply Nat.ltb_ge; lia).
  replace (length v + i - length v)%nat with i by lia. reflexivity.
Qed.

Lemma vdot_real_vec : forall A : mat CK,
  vdot (make_real_vector (vectorize_matrix A)) (make_real_vector (vectorize_matrix A)) = fro2 A.
Proof.
  intros A. rewrite vdot_real, length_vectorize, Nat.mul_comm, sumn_mul. unfold fro2. rewrite sumn_swap.
  apply sumn_ext. intros i Hi. apply sumn_ext. intros j Hj. rewrite vget_vectorize by assumption. reflexivity.
Qed.

(** real matrices acting on complex vectors *)
Lemma shape_cmat : forall (D : mat K) r c, shape D r c -> shape (cmat D) r c.
Proof. intros. apply shape_mmap. assumption. Qed.
Lemma get_cmat : forall (D : mat K) i j, wf D -> (i < nr D)%nat -> (j < nc D)%nat -> get (cmat D) i j = cre (get D i j).
Proof. intros. unfold cmat, get. apply gget_mmap; assumption. Qed.

Lemma re_cre_mul : forall (a : K) (b : CK), re (cre a * b) = a * re b.
Proof. intros. change (re (cmul (cre a) b) = a * re b). unfold cmul, cre. cbn [re im]. ring. Qed.
Lemma im_cre_mul : forall (a : K) (b : CK), im (cre a * b) = a * im b.
Proof. intros. change (im (cmul (cre a) b) = a * im b). unfold cmul, cre. cbn [re im]. ring. Qed.

Lemma vget_map_re : forall (v : list CK) i, vget (map re v) i = re (vget v i).
Proof. intros. unfold vget. exact (map_nth re v (0 : CK) i). Qed.
Lemma vget_map_im : forall (v : list CK) i, vget (map im v) i = im (vget v i).
Proof. intros. unfold vget. exact (map_nth im v (0 : CK) i). Qed.

Lemma re_mvmul_cmat : forall (D : mat K) (v : list CK) i, wf D -> (i < nr D)%nat ->
  re (vget (mvmul (cmat D) v) i) = vget (mvmul D (map re v)) i.
Proof.
  intros D v i Hw Hi. rewrite vget_mvmul by exact Hi. rewrite vget_mvmul by exact Hi.
  rewrite re_sumn. apply sumn_ext. intros k Hk. change (nc (cmat D)) with (nc D) in Hk.
  rewrite get_cmat, re_cre_mul, vget_map_re by assumption. reflexivity.
Qed.
Lemma im_mvmul_cmat : forall (D : mat K) (v : list CK) i, wf D -> (i < nr D)%nat ->
  im (vget (mvmul (cmat D) v) i) = vget (mvmul D (map im v)) i.
Proof.
  intros D v i Hw Hi. rewrite vget_mvmul by exact Hi. rewrite vget_mvmul by exact Hi.
  rewrite im_sumn. apply sumn_ext. intros k Hk. change (nc (cmat D)) with (nc D) in Hk.
  rewrite get_cmat, im_cre_mul, vget_map_im by assumption. reflexivity.
Qed.

(** *** rebuild *)
Lemma rebuild_ok : forall (D : mat K) n y Y, rebuild D n y = Ok Y ->
  shape Y n n /\ exists v, make_complex_vector y = Ok v /\ length v = nc D /\
    vectorize_matrix Y = mvmul (cmat D) v /\ nr D = (n * n)%nat.
Proof.
  intros D n y Y H. unfold rebuild in H.
  apply bind_ok in H. destruct H as (v & Hv & H).
  apply bind_ok in H. destruct H as (w & Hw & H).
  unfold matvec in Hw. destruct (Nat.eqb_spec (nc (cmat D)) (length v)) as [E|]; [|discriminate].
  inversion Hw; subst w; clear Hw. pose proof (vectorize_unvectorize _ _ _ _ H) as Hvec.
  unfold unvectorize_matrix in H. destruct (Nat.eqb_spec (length (mvmul (cmat D) v)) (n * n)) as [El|]; [|discriminate].
  rewrite length_mvmul in El. inversion H; subst Y.
  split; [apply shape_mk|]. exists v. split; [exact Hv|]. split; [symmetry; exact E|]. split; [exact Hvec|exact El].
Qed.

Lemma rebuild_real : forall (D : mat K) n (v : list CK) Y, wf D -> nr D = (n * n)%nat -> length v = nc D ->
  shape Y n n -> vectorize_matrix Y = mvmul (cmat D) v -> rebuild D n (make_real_vector v) = Ok Y.
Proof.
  intros D n v Y Hw Hr Hl HY Hv. unfold rebuild. rewrite make_complex_real. cbn [bind].
  unfold matvec. change (nc (cmat D)) with (nc D). rewrite Hl, Nat.eqb_refl. cbn [bind].
  rewrite <- Hv. destruct HY as (Hwy & Hr1 & Hc1).
  rewrite <- (unvectorize_vectorize Y Hwy). rewrite Hr1, Hc1. reflexivity.
Qed.

Lemma rebuild_ex : forall (D : mat K) n (v : list CK), nr D = (n * n)%nat -> length v = nc D ->
  exists Y, rebuild D n (make_real_vector v) = Ok Y /\ shape Y n n /\ vectorize_matrix Y = mvmul (cmat D) v.
Proof.
  intros D n v Hr Hl. unfold rebuild. rewrite make_complex_real. cbn [bind].
  unfold matvec. change (nc (cmat D)) with (nc D). rewrite Hl, Nat.eqb_refl. cbn [bind].
  destruct (unvectorize_ok (mvmul (cmat D) v) n n) as (Y & HY & Hs & _).
  { rewrite length_mvmul. exact Hr. }
  exists Y. split; [exact HY|]. split; [exact Hs|]. apply (vectorize_unvectorize _ _ _ _ HY).
Qed.

(** structure inherited from the parametrisation *)
Definition range_in (D : mat K) (n : nat) (P : mat K -> Prop) : Prop :=
  forall w, length w = nc D -> exists M, shape M n n /\ P M /\ mvmul D w = vectorize_matrix M.

Lemma rebuild_parts : forall (D : mat K) n y Y P, wf D -> range_in D n P -> rebuild D n y = Ok Y ->
  shape Y n n /\ P (mmap re Y) /\ P (mmap im Y).
Proof.
  intros D n y Y P Hw HP H. destruct (rebuild_ok _ _ _ _ H) as (Hs & v & _ & Hl & Hv & Hr).
  split; [exact Hs|]. destruct Hs as (HwY & HrY & HcY).
  assert (Hg : forall i j, (i < n)%nat -> (j < n)%nat -> get Y i j = vget (mvmul (cmat D) v) (j * n + i)).
  { intros i j Hi Hj. rewrite <- Hv. pose proof (vget_vectorize Y i j) as E. rewrite HrY, HcY in E. symmetry. apply E; assumption. }
  split.
  - destruct (HP (map re v)) as (M & HsM & HPM & HvM); [rewrite map_length; exact Hl|].
    replace (mmap re Y) with M; [exact HPM|].
    apply (gshape_ext _ _ n n); [exact HsM|apply shape_mmap; split; auto|].
    intros i j Hi Hj. rewrite get_mmap_re by (rewrite ?HrY, ?HcY; assumption).
    rewrite Hg by assumption. rewrite re_mvmul_cmat by (try assumption; rewrite Hr; apply idx_bound; assumption).
    rewrite HvM. pose proof (vget_vectorize M i j) as E. destruct HsM as (_ & HrM & HcM). rewrite HrM, HcM in E. symmetry. apply E; assumption.
  - destruct (HP (map im v)) as (M & HsM & HPM & HvM); [rewrite map_length; exact Hl|].
    replace (mmap im Y) with M; [exact HPM|].
    apply (gshape_ext _ _ n n); [exact HsM|apply shape_mmap; split; auto|].
    intros i j Hi Hj. rewrite get_mmap_im by (rewrite ?HrY, ?HcY; assumption).
    rewrite Hg by assumption. rewrite im_mvmul_cmat by (try assumption; rewrite Hr; apply idx_bound; assumption).
    rewrite HvM. pose proof (vget_vectorize M i j) as E. destruct HsM as (_ & HrM & HcM). rewrite HrM, HcM in E. symmetry. apply E; assumption.
Qed.

Lemma symmetric_parts : forall n (Y : mat CK), shape Y n n -> symmetric n (mmap re Y) -> symmetric n (mmap im Y) -> symmetric n Y.
Proof.
  intros n Y Hs (_ & H1) (_ & H2). split; [exact Hs|]. destruct Hs as (Hw & Hr & Hc). intros i j Hi Hj.
  specialize (H1 i j Hi Hj). specialize (H2 i j Hi Hj).
  rewrite !get_mmap_re in H1 by (rewrite ?Hr, ?Hc; assumption).
  rewrite !get_mmap_im in H2 by (rewrite ?Hr, ?Hc; assumption). apply cplx_eq; assumption.
Qed.

Lemma zero_sums_parts : forall n (Y : mat CK), shape Y n n -> zero_row_sums n (mmap re Y) -> zero_row_sums n (mmap im Y) -> zero_row_sums n Y.
Proof.
  intros n Y (Hw & Hr & Hc) H1 H2 i Hi. specialize (H1 i Hi). specialize (H2 i Hi).
  apply cplx_eq.
  - rewrite re_sumn. etransitivity; [|exact H1]. apply sumn_ext. intros j Hj.
    symmetry. apply get_mmap_re; rewrite ?Hr, ?Hc; assumption.
  - rewrite im_sumn. etransitivity; [|exact H2]. apply sumn_ext. intros j Hj.
    symmetry. apply get_mmap_im; rewrite ?Hr, ?Hc; assumption.
Qed.

Lemma dup_range : forall n D, duplication_matrix n = Ok D -> wf D /\ shape D (n * n) (n * (n + 1) / 2) /\ range_in D n (symmetric n).
Proof.
  intros n D H. destruct (p_duplication n) as (D' & HD' & Hs & _ & Hr). rewrite H in HD'. inversion HD'; subst D'.
  split; [apply Hs|]. split; [exact Hs|]. intros w Hw.
  destruct (Hr w) as (M & HM & _ & E); [rewrite Hw; apply Hs|]. exists M. split; [apply HM|]. auto.
Qed.

Lemma lap_range : forall n D, lap_dt n = Ok D -> wf D /\ shape D (n * n) (n * (n - 1) / 2) /\ range_in D n (laplacian n).
Proof.
  intros n D H. destruct (p_transformation n) as (D' & T & HD' & HT & HsT & _ & Hr).
  unfold lap_dt in H. rewrite HD', HT in H. cbn [bind] in H.
  destruct (dup_range n D' HD') as (_ & HsD & _).
  unfold matmul in H. destruct (Nat.eqb_spec (nc D') (nr T)) as [E|]; [|discriminate]. inversion H; subst D.
  assert (Hs : shape (mmul D' T) (n * n) (n * (n - 1) / 2)).
  { apply (shape_mmul D' T _ (nc D')); try reflexivity; [apply HsD|apply HsT]. }
  split; [apply Hs|]. split; [exact Hs|]. intros w Hw.
  destruct (Hr w) as (M & HM & _ & E2); [rewrite Hw; apply HsT|]. exists M.
  split; [apply HM|]. split; [exact HM|]. rewrite mvmul_assoc by exact E. exact E2.
Qed.

Lemma lap_dt_ok : forall n, exists D, lap_dt n = Ok D :> res (mat K).
Proof.
  intros n. destruct (p_transformation (K:=K) n) as (D & T & HD & HT & HsT & _ & _).
  unfold lap_dt. rewrite HD, HT. cbn [bind]. unfold matmul.
  destruct (dup_range n D HD) as (_ & (_ & _ & ->) & _). destruct HsT as (_ & -> & _). rewrite Nat.eqb_refl. eauto.
Qed.

(** the regressor applied to real parameters *)
Definition regressor (n : nat) (x : mat CK) (DT : mat K) : mat K :=
  make_real_matrix (mmul (mkron (meye n) x) (cmat DT)).

Lemma shape_regressor : forall n T x DT p, shape x T n -> shape DT (n * n) p ->
  shape (regressor n x DT) (2 * (n * T)) (2 * p).
Proof.
  intros n T x DT p (_ & Hr & Hc) (_ & Hrd & Hcd). unfold regressor.
  replace (2 * (n * T))%nat with (nr (mmul (mkron (meye n) x) (cmat DT)) + nr (mmul (mkron (meye n) x) (cmat DT)))%nat by (simpl; rewrite Hr; lia).
  replace (2 * p)%nat with (nc (mmul (mkron (meye n) x) (cmat DT)) + nc (mmul (mkron (meye n) x) (cmat DT)))%nat by (simpl; rewrite Hcd; lia).
  apply shape_make_real_matrix.
Qed.

Lemma regressor_apply : forall n T x DT p v Y, shape x T n -> shape DT (n * n) p -> length v = p -> shape Y n n ->
  vectorize_matrix Y = mvmul (cmat DT) v ->
  mvmul (regressor n x DT) (make_real_vector v) = make_real_vector (vectorize_matrix (mmul x Y)).
Proof.
  intros n T x DT p v Y Hx HD Hl HY Hv. unfold regressor.
  destruct HD as (Hwd & Hrd & Hcd). destruct Hx as (Hwx & Hrx & Hcx). destruct HY as (HwY & HrY & HcY).
  rewrite make_real_matrix_mvmul; [|apply wf_mk|simpl; rewrite Hcd; symmetry; exact Hl].
  rewrite mvmul_assoc by (simpl; rewrite Hcx, Hrd; reflexivity).
  rewrite <- Hv. rewrite kron_eye_vec by (try assumption; congruence). reflexivity.
Qed.

Lemma even_real : forall (y : list K) p, length y = (2 * p)%nat -> exists v : list CK, y = make_real_vector v /\ length v = p.
Proof.
  intros y p H. destruct (make_real_complex y) as (w & _ & E & El); [exists p; exact H|].
  exists w. split; [symmetry; exact E|]. lia.
Qed.
End Cplx.
