(** Proofs about sequence and phase values. *)
From Coq Require Import Arith Lia List Reals Lra Ring Field.
From Verif Require Import BasePy BaseFld BaseSum BaseMat BaseLin BaseReal ProofMatrixOps ModelErrorMetrics ModelLines SpecLines.
Import ListNotations.
Local Open Scope R_scope.

Lemma cis_120 : cis (deg2rad 120) = Cx (-1 / 2) (sqrt 3 / 2).
Proof. unfold cis, deg2rad. replace (120 * PI / 180) with (2 * (PI / 3)) by field. rewrite cos_2PI3, sin_2PI3. reflexivity. Qed.
Lemma cis_m120 : cis (deg2rad (-120)) = Cx (-1 / 2) (- (sqrt 3 / 2)).
Proof.
  unfold cis, deg2rad. replace (-120 * PI / 180) with (- (2 * (PI / 3))) by field. rewrite cos_neg, sin_neg, cos_2PI3, sin_2PI3. reflexivity.
Qed.
Lemma sqrt3 : sqrt 3 * sqrt 3 = 3.
Proof. apply sqrt_sqrt. lra. Qed.


Ltac wfm := solve [reflexivity | apply wf_mk | auto].
Add Field Cfld : (@k_field C _ _).

(** powers of the conjugate rotation *)
Definition w3 (k : nat) : C := match (k mod 3)%nat with 0%nat => Cx 1 0 | 1%nat => Cx (-1 / 2) (- (sqrt 3 / 2)) | _ => Cx (-1 / 2) (sqrt 3 / 2) end.
Definition v3 (k : nat) : C := match (k mod 3)%nat with 0%nat => Cx (1 / 3) 0 | 1%nat => Cx (-1 / 2 / 3) (sqrt 3 / 2 / 3) | _ => Cx (-1 / 2 / 3) (- (sqrt 3 / 2) / 3) end.
Ltac cases3 i Hi := destruct i as [|[|[|i]]]; [| | |exfalso; lia].
Lemma get_abc : forall i j, (i < 3)%nat -> (j < 3)%nat -> get block_abc i j = w3 (i * j).
Proof. intros i j Hi Hj. unfold block_abc. rewrite cis_120, cis_m120. cases3 i Hi; cases3 j Hj; reflexivity. Qed.
Lemma get_012 : forall i j, (i < 3)%nat -> (j < 3)%nat -> get block_012 i j = v3 (i * j).
Proof.
  intros i j Hi Hj. unfold block_012. rewrite cis_120, cis_m120.
  cases3 i Hi; cases3 j Hj; cbn; unfold v3; cbn; try reflexivity; f_equal; unfold Rdiv; ring.
Qed.

(** the permutation of phases b and c *)
Definition swap3 : mat C := mk 3 3 (fun i j => if Nat.eqb (other_phase i) j then Cx 1 0 else 0%K).
Lemma shape_abc : shape block_abc 3 3. Proof. apply shape_mk. Qed.
Lemma shape_012 : shape block_012 3 3. Proof. split; [apply wf_mmap, wf_mk|split; reflexivity]. Qed.

Lemma sumn_three : forall n (f : nat -> C), n = 3%nat -> sumn n f = (f 0%nat + f 1%nat + f 2%nat)%K.
Proof.
  intros n f ->. cbn [sumn]. cbv [kadd k0 cplx_ops cadd]. destruct (f 0%nat) as [a b], (f 1%nat) as [c d], (f 2%nat) as [e g]. cbn [re im]. runfold. f_equal; ring.
Qed.
Ltac block_entry :=
  apply (gshape_ext _ _ 3 3); [split; [apply wf_mk|cbn; auto]|split; [apply wf_mk|cbn; auto]|];
  let i := fresh "i" in let j := fresh "j" in let Hi := fresh "Hi" in let Hj := fresh "Hj" in
  intros i j Hi Hj; rewrite get_mmul by (cbn; auto); rewrite sumn_three by reflexivity;
  rewrite ?get_abc, ?get_012 by (cbn; lia); unfold swap3, mscal; rewrite ?get_meye by lia; rewrite ?get_mk by (cbn; lia);
  cases3 i Hi; cases3 j Hj; cbn [Nat.mul Nat.add Nat.eqb other_phase]; unfold w3, v3; cbn [Nat.modulo Nat.divmod fst snd Nat.sub];
  rewrite ?get_mk by (cbn; lia); cbn [other_phase Nat.eqb];
  cbv [kadd kmul k0 k1 cplx_ops cadd cmul re im R_ops]; f_equal; pose proof sqrt3; runfold; nra.
Lemma seq_abc : mmul block_012 block_abc = meye 3.
Proof. block_entry. Qed.
Lemma abc_seq : mmul block_abc block_012 = meye 3.
Proof. block_entry. Qed.
Lemma seq_seq : mmul block_012 block_012 = mscal (Cx (1 / 3) 0) swap3.
Proof. block_entry. Qed.

(** ** The block diagonal matrices *)
Section Blocks.
Variable n : nat.
Notation N := (n * 3)%nat.
Definition TA := mkron (meye n) block_abc.
Definition TS := mkron (meye n) block_012.
Lemma shape_TA : shape TA N N. Proof. split; [apply wf_mk|cbn; auto]. Qed.
Lemma shape_TS : shape TS N N. Proof. split; [apply wf_mk|cbn; auto]. Qed.
Lemma TS_TA : mmul TS TA = meye N.
Proof. unfold TS, TA. rewrite mmul_mkron by reflexivity. rewrite seq_abc, mmul_1_l' by wfm. apply mkron_eye. Qed.
Lemma TA_TS : mmul TA TS = meye N.
Proof. unfold TS, TA. rewrite mmul_mkron by reflexivity. rewrite abc_seq, mmul_1_l' by wfm. apply mkron_eye. Qed.
Definition SW := mkron (meye n) swap3.
Lemma TS_TS : mmul TS TS = mscal (Cx (1 / 3) 0) SW.
Proof.
  unfold TS, SW. rewrite mmul_mkron by reflexivity. rewrite seq_seq, mmul_1_l' by wfm.
  apply (gshape_ext _ _ N N); [split; [apply wf_mk|cbn; auto]|split; [apply wf_mk|cbn; auto]|]. intros i j Hi Hj.
  unfold mscal at 2. rewrite get_mk by (cbn; auto). rewrite !get_mkron' by (cbn; auto). unfold mscal. rewrite get_mk by (apply Nat.mod_upper_bound; cbn; lia).
  change (nr swap3) with 3%nat. change (nc swap3) with 3%nat. cbn [nr nc mk].
  ring.
Qed.
Lemma div3 : ((n * 3) / 3)%nat = n. Proof. apply Nat.div_mul. lia. Qed.
Lemma t_abc_N : t_abc N = TA. Proof. unfold t_abc, TA. rewrite div3. reflexivity. Qed.
Lemma t_012_N : t_012 N = TS. Proof. unfold t_012, TS. rewrite div3. reflexivity. Qed.
End Blocks.

Lemma seq_to_phase_eq : forall n Y, shape Y (n * 3) (n * 3) -> admittance_sequence_to_phase Y = Ok (mmul (mmul (TA n) Y) (TS n)).
Proof.
  intros n Y (Hw & Hr & Hc). unfold admittance_sequence_to_phase. rewrite Hc, t_abc_N, t_012_N. unfold matmul at 1. rewrite Hr.
  change (nc (TA n)) with (n * 3)%nat. rewrite Nat.eqb_refl. cbn [bind]. unfold matmul. change (nc (mmul (TA n) Y)) with (nc Y). rewrite Hc.
  change (nr (TS n)) with (n * 3)%nat. rewrite Nat.eqb_refl. reflexivity.
Qed.
Lemma phase_to_seq_eq : forall n Y, shape Y (n * 3) (n * 3) -> admittance_phase_to_sequence Y = Ok (mmul (mmul (TS n) Y) (TA n)).
Proof.
  intros n Y (Hw & Hr & Hc). unfold admittance_phase_to_sequence. rewrite Hc, t_abc_N, t_012_N. unfold matmul at 1. rewrite Hr.
  change (nc (TS n)) with (n * 3)%nat. rewrite Nat.eqb_refl. cbn [bind]. unfold matmul. change (nc (mmul (TS n) Y)) with (nc Y). rewrite Hc.
  change (nr (TA n)) with (n * 3)%nat. rewrite Nat.eqb_refl. reflexivity.
Qed.
Lemma meas_to_phase_eq : forall n M, nc M = (n * 3)%nat -> measurement_sequence_to_phase M = Ok (mmul M (TA n)).
Proof. intros n M H. unfold measurement_sequence_to_phase, matmul. rewrite H, t_abc_N. change (nr (TA n)) with (n * 3)%nat. rewrite Nat.eqb_refl. reflexivity. Qed.
Lemma meas_to_seq_eq : forall n M, nc M = (n * 3)%nat -> measurement_phase_to_sequence M = Ok (mmul M (TS n)).
Proof. intros n M H. unfold measurement_phase_to_sequence, matmul. rewrite H, t_012_N. change (nr (TS n)) with (n * 3)%nat. rewrite Nat.eqb_refl. reflexivity. Qed.

Lemma shape_conj : forall n (A B Y : mat C), shape A (n * 3) (n * 3) -> shape B (n * 3) (n * 3) -> shape (mmul (mmul A Y) B) (n * 3) (n * 3).
Proof. intros n A B Y (_ & HA & _) (_ & _ & HB). split; [apply wf_mk|]. cbn. auto. Qed.
Lemma conj_inv : forall n (A B Y : mat C), shape A (n * 3) (n * 3) -> shape B (n * 3) (n * 3) -> shape Y (n * 3) (n * 3) ->
  mmul A B = meye (n * 3) -> mmul (mmul A (mmul (mmul B Y) A)) B = Y.
Proof.
  intros n A B Y (WA & HA & HA') (WB & HB & HB') (WY & HY & HY') E.
  rewrite <- (mmul_assoc A (mmul B Y) A) by (cbn; lia). rewrite (mmul_assoc _ A B) by (cbn; lia). rewrite E.
  rewrite <- (mmul_assoc A B Y) by (cbn; lia). rewrite E, mmul_1_l' by auto. apply mmul_1_r'; auto.
Qed.

Theorem p_admittance_round : forall n Y, shape Y (n * 3) (n * 3) ->
  (exists Z, admittance_phase_to_sequence Y = Ok Z /\ admittance_sequence_to_phase Z = Ok Y) /\
  (exists Z, admittance_sequence_to_phase Y = Ok Z /\ admittance_phase_to_sequence Z = Ok Y).
Proof.
  intros n Y H. split.
  - eexists. split; [apply phase_to_seq_eq; eauto|]. rewrite (seq_to_phase_eq n) by (apply shape_conj; auto using shape_TA, shape_TS).
    f_equal. apply (conj_inv n); auto using shape_TA, shape_TS, TA_TS.
  - eexists. split; [apply seq_to_phase_eq; eauto|]. rewrite (phase_to_seq_eq n) by (apply shape_conj; auto using shape_TA, shape_TS).
    f_equal. apply (conj_inv n); auto using shape_TA, shape_TS, TS_TA.
Qed.
Theorem p_measurement_round : forall n T M, shape M T (n * 3) ->
  (exists Z, measurement_phase_to_sequence M = Ok Z /\ measurement_sequence_to_phase Z = Ok M) /\
  (exists Z, measurement_sequence_to_phase M = Ok Z /\ measurement_phase_to_sequence Z = Ok M).
Proof.
  intros n T M (W & Hr & Hc). split; eexists.
  - split; [apply meas_to_seq_eq; eauto|]. rewrite (meas_to_phase_eq n) by reflexivity. f_equal. rewrite mmul_assoc by (cbn; lia). rewrite TS_TA. apply mmul_1_r'; auto.
  - split; [apply meas_to_phase_eq; eauto|]. rewrite (meas_to_seq_eq n) by reflexivity. f_equal. rewrite mmul_assoc by (cbn; lia). rewrite TA_TS. apply mmul_1_r'; auto.
Qed.

Lemma not_multiple : forall m, (m mod 3 <> 0)%nat -> ((m / 3) * 3 <> m)%nat.
Proof. intros m H E. pose proof (Nat.div_mod m 3 ltac:(lia)). lia. Qed.
Theorem p_rejected : forall M : mat C, (nc M mod 3 <> 0)%nat ->
  measurement_phase_to_sequence M = Err ValueError /\ measurement_sequence_to_phase M = Err ValueError /\
  admittance_phase_to_sequence M = Err ValueError /\ admittance_sequence_to_phase M = Err ValueError.
Proof.
  intros M H. apply not_multiple in H.
  assert (HA : nr (t_abc (nc M)) = (nc M / 3 * 3)%nat) by reflexivity. assert (HS : nr (t_012 (nc M)) = (nc M / 3 * 3)%nat) by reflexivity.
  unfold measurement_phase_to_sequence, measurement_sequence_to_phase, admittance_phase_to_sequence, admittance_sequence_to_phase, matmul.
  rewrite HA, HS. destruct (Nat.eqb_spec (nc M) (nc M / 3 * 3)); [lia|].
  split; auto. split; auto. split; (destruct (_ =? nr M)%nat; cbn [bind]; [|reflexivity]; cbn [nc mmul mk]; destruct (Nat.eqb_spec (nc M) (nc M / 3 * 3)); [lia|reflexivity]).
Qed.
Theorem p_rejected_square : forall M : mat C, nr M <> nc M ->
  admittance_phase_to_sequence M = Err ValueError /\ admittance_sequence_to_phase M = Err ValueError.
Proof.
  intros M H. destruct (Nat.eq_dec (nc M mod 3) 0) as [E|E]; [|destruct (p_rejected M E) as (_ & _ & A & B); auto].
  assert (HA : nc (t_abc (nc M)) = (nc M / 3 * 3)%nat) by reflexivity. assert (HS : nc (t_012 (nc M)) = (nc M / 3 * 3)%nat) by reflexivity.
  pose proof (Nat.div_mod (nc M) 3 ltac:(lia)) as D.
  unfold admittance_phase_to_sequence, admittance_sequence_to_phase, matmul. rewrite HA, HS.
  destruct (Nat.eqb_spec (nc M / 3 * 3) (nr M)); [lia|]. auto.
Qed.

Lemma other_other : forall p, other_phase (other_phase p) = p.
Proof. intros [|[|[|p]]]; reflexivity. Qed.
Lemma other_lt : forall p, (p < 3)%nat -> (other_phase p < 3)%nat.
Proof. intros p Hp. cases3 p Hp; cbn; lia. Qed.

(** ** Currents = voltages @ admittance *)
Lemma get_SW_l : forall n Y i p j, shape Y (n * 3) (n * 3) -> (i < n)%nat -> (p < 3)%nat -> (j < n * 3)%nat ->
  get (mmul (SW n) Y) (i * 3 + p) j = get Y (i * 3 + other_phase p) j.
Proof.
  intros n Y i p j (W & Hr & Hc) Hi Hp Hj. assert (Ho : (other_phase p < 3)%nat) by (cases3 p Hp; cbn; lia).
  rewrite get_mmul by (cbn; lia). rewrite (sumn_single _ (i * 3 + other_phase p)%nat); [|cbn; nia|].
  - replace (get (SW n) (i * 3 + p) (i * 3 + other_phase p)) with (1%K : C); [ring|].
    symmetry. unfold SW. etransitivity; [apply (get_mkron (meye n) swap3); cbn; auto|]. rewrite get_meye, Nat.eqb_refl by auto.
    unfold swap3. rewrite get_mk, Nat.eqb_refl by auto. change (Cx 1 0) with (1%K : C); ring.
  - intros k Hk Hne. change (nc (SW n)) with (n * 3)%nat in Hk.
    replace (get (SW n) (i * 3 + p) k) with (0%K : C); [ring|]. symmetry.
    destruct (divmod_bound k n 3 Hk) as (D1 & D2 & _).
    replace k with (k / 3 * 3 + k mod 3)%nat at 1 by (pose proof (Nat.div_mod k 3 ltac:(lia)); lia).
    unfold SW. etransitivity; [apply (get_mkron (meye n) swap3); cbn; auto|]. rewrite get_meye by auto.
    destruct (Nat.eqb_spec i (k / 3)) as [Ei|Ei]; [|ring].
    unfold swap3. rewrite get_mk by auto. destruct (Nat.eqb_spec (other_phase p) (k mod 3)) as [Ep|Ep]; [|ring].
    exfalso. apply Hne. pose proof (Nat.div_mod k 3 ltac:(lia)). lia.
Qed.
Lemma tr_SW : forall n, tr (SW n) = SW n.
Proof.
  intros n. unfold SW. rewrite tr_mkron, tr_meye.
  assert (E : tr swap3 = swap3); [|rewrite E; reflexivity]. apply (gshape_ext _ _ 3 3); [split; [apply wf_mk|cbn; auto]|split; [apply wf_mk|cbn; auto]|].
  intros i j Hi Hj. rewrite get_tr by (cbn; auto). unfold swap3. rewrite !get_mk by auto. cases3 i Hi; cases3 j Hj; reflexivity.
Qed.
Lemma get_SW_r : forall n Y i p j, shape Y (n * 3) (n * 3) -> (i < n)%nat -> (p < 3)%nat -> (j < n * 3)%nat ->
  get (mmul Y (SW n)) j (i * 3 + p) = get Y j (i * 3 + other_phase p).
Proof.
  intros n Y i p j H Hi Hp Hj. assert (Ho : (other_phase p < 3)%nat) by (cases3 p Hp; cbn; lia). destruct H as (W & Hr & Hc).
  transitivity (get (tr (mmul Y (SW n))) (i * 3 + p) j).
  - rewrite get_tr by (cbn; nia). reflexivity.
  - rewrite tr_mmul by (cbn; lia). rewrite tr_SW. rewrite get_SW_l; auto; [|split; [apply wf_mk|cbn; auto]]. rewrite get_tr by (cbn; nia). reflexivity.
Qed.
Lemma commutes_symmetric : forall n Y, shape Y (n * 3) (n * 3) -> (mmul (SW n) Y = mmul Y (SW n) <-> bc_symmetric (0%K : C) n Y).
Proof.
  intros n Y H. split.
  - intros E i j p q Hi Hj Hp Hq. assert (Ho : (other_phase q < 3)%nat) by (cases3 q Hq; cbn; lia).
    change (get Y (i * 3 + other_phase p) (j * 3 + other_phase q) = get Y (i * 3 + p) (j * 3 + q)).
    rewrite <- (get_SW_l n Y) by (auto; nia). rewrite E. rewrite get_SW_r by (auto; nia).
    replace (other_phase (other_phase q)) with q by (cases3 q Hq; reflexivity). reflexivity.
  - intros E. destruct H as (W & Hr & Hc). apply (gshape_ext _ _ (n * 3) (n * 3)); [split; [apply wf_mk|cbn; auto]|split; [apply wf_mk|cbn; auto]|].
    intros i j Hi Hj. destruct (divmod_bound i n 3 Hi) as (I1 & I2 & _). destruct (divmod_bound j n 3 Hj) as (J1 & J2 & _).
    replace i with (i / 3 * 3 + i mod 3)%nat by (pose proof (Nat.div_mod i 3 ltac:(lia)); lia).
    replace j with (j / 3 * 3 + j mod 3)%nat by (pose proof (Nat.div_mod j 3 ltac:(lia)); lia).
    assert (Ho : (other_phase (j mod 3) < 3)%nat) by (apply other_lt; auto).
    rewrite get_SW_l by (try (split; auto); auto; nia). rewrite get_SW_r by (try (split; auto); auto; nia).
    specialize (E (i / 3) (j / 3) (i mod 3) (other_phase (j mod 3)) I1 J1 I2 Ho)%nat.
    replace (other_phase (other_phase (j mod 3))) with (j mod 3)%nat in E by (symmetry; apply other_other).
    exact E.
Qed.

Lemma mscal_cancel : forall (a : C) (A B : mat C), a <> 0%K -> wf A -> wf B -> mscal a A = mscal a B -> A = B.
Proof.
  intros a A B Ha WA WB E. pose proof (f_equal nr E) as Er. pose proof (f_equal nc E) as Ec. cbn in Er, Ec.
  apply (gshape_ext _ _ (nr A) (nc A)); [split; auto|split; auto|]. intros i j Hi Hj.
  apply (kmul_cancel_l a); auto. pose proof (f_equal (fun M => get M i j) E) as Eg. cbv beta in Eg. rewrite !get_mscal in Eg by lia. exact Eg.
Qed.
Lemma third_nz : Cx (1 / 3) 0 <> (0%K : C).
Proof. intro H. apply (f_equal re) in H. cbn in H. revert H. runfold. lra. Qed.

Theorem p_relation_iff : forall n Y, shape Y (n * 3) (n * 3) ->
  ((forall T V I Vs Is Ys, shape V T (n * 3) -> I = mmul V Y -> measurement_phase_to_sequence V = Ok Vs ->
     measurement_phase_to_sequence I = Ok Is -> admittance_phase_to_sequence Y = Ok Ys -> Is = mmul Vs Ys) <->
   bc_symmetric (0%K : C) n Y).
Proof.
  intros n Y HY. pose proof HY as (WY & Hr & Hc). rewrite <- (commutes_symmetric n Y HY).
  assert (Key : mmul (mmul (TS n) (TS n)) Y = mmul Y (mmul (TS n) (TS n)) <-> mmul (SW n) Y = mmul Y (SW n)).
  { rewrite TS_TS. rewrite mmul_mscal_l. rewrite mmul_mscal_r by (cbn; lia). split.
    - intros E. apply mscal_cancel in E; [exact E|apply third_nz|apply wf_mk|apply wf_mk].
    - intros ->. reflexivity. }
  rewrite <- Key. split.
  - intros H. specialize (H (n * 3)%nat (meye (n * 3)) Y (mmul (meye (n * 3)) (TS n)) (mmul Y (TS n)) (mmul (mmul (TS n) Y) (TA n))).
    assert (E : mmul Y (TS n) = mmul (mmul (meye (n * 3)) (TS n)) (mmul (mmul (TS n) Y) (TA n))).
    { apply H; [split; [apply wf_mk|cbn; auto]|symmetry; apply mmul_1_l'; auto|apply meas_to_seq_eq; reflexivity|apply meas_to_seq_eq; auto|apply phase_to_seq_eq; auto]. }
    rewrite mmul_1_l' in E by wfm.
    assert (E2 : mmul (mmul Y (TS n)) (TS n) = mmul (mmul (TS n) (mmul (mmul (TS n) Y) (TA n))) (TS n)) by (rewrite <- E; reflexivity).
    rewrite (mmul_assoc Y) in E2 by (cbn; lia). rewrite E2.
    rewrite (mmul_assoc (TS n) (mmul (mmul (TS n) Y) (TA n))) by (cbn; lia). rewrite (mmul_assoc _ (TA n)) by (cbn; lia).
    rewrite TA_TS. rewrite mmul_1_r' by wfm. rewrite mmul_assoc by (cbn; lia). reflexivity.
  - intros E T V I Vs Is Ys (WV & HV & HV') -> E1 E2 E3.
    rewrite (meas_to_seq_eq n) in E1 by auto. rewrite (meas_to_seq_eq n) in E2 by auto. rewrite (phase_to_seq_eq n) in E3 by auto.
    injection E1 as <-. injection E2 as <-. injection E3 as <-.
    rewrite mmul_assoc by (cbn; lia). rewrite (mmul_assoc V) by (cbn; lia). f_equal.
    rewrite <- (mmul_assoc (TS n) (mmul (TS n) Y)) by (cbn; lia). rewrite <- (mmul_assoc (TS n) (TS n)) by (cbn; lia). rewrite E.
    rewrite (mmul_assoc Y) by (cbn; lia). rewrite (mmul_assoc (TS n) (TS n)) by (cbn; lia). rewrite TS_TA. rewrite mmul_1_r' by wfm. reflexivity.
Qed.

(** ** Networks put together from sequence matrices *)
Lemma swap_abc : mmul swap3 block_abc = mmul block_abc swap3.
Proof.
  apply (gshape_ext _ _ 3 3); [split; [apply wf_mk|cbn; auto]|split; [apply wf_mk|cbn; auto]|].
  intros i j Hi Hj. rewrite !get_mmul by (cbn; auto). rewrite !sumn_three by reflexivity.
  rewrite !get_abc by (cbn; lia). unfold swap3. rewrite !get_mk by (cbn; lia).
  cases3 i Hi; cases3 j Hj; cbn [Nat.mul Nat.add Nat.eqb other_phase]; unfold w3; cbn [Nat.modulo Nat.divmod fst snd Nat.sub];
  cbv [kadd kmul k0 k1 cplx_ops cadd cmul re im R_ops]; runfold; f_equal; ring.
Qed.
Lemma swap_012 : mmul swap3 block_012 = mmul block_012 swap3.
Proof.
  apply (gshape_ext _ _ 3 3); [split; [apply wf_mk|cbn; auto]|split; [apply wf_mk|cbn; auto]|].
  intros i j Hi Hj. rewrite !get_mmul by (cbn; auto). rewrite !sumn_three by reflexivity.
  rewrite !get_012 by (cbn; lia). unfold swap3. rewrite !get_mk by (cbn; lia).
  cases3 i Hi; cases3 j Hj; cbn [Nat.mul Nat.add Nat.eqb other_phase]; unfold v3; cbn [Nat.modulo Nat.divmod fst snd Nat.sub];
  cbv [kadd kmul k0 k1 cplx_ops cadd cmul re im R_ops]; runfold; f_equal; ring.
Qed.
Lemma SW_TA : forall n, mmul (SW n) (TA n) = mmul (TA n) (SW n).
Proof. intros n. unfold SW, TA. rewrite !mmul_mkron by reflexivity. rewrite swap_abc. reflexivity. Qed.
Lemma SW_TS : forall n, mmul (SW n) (TS n) = mmul (TS n) (SW n).
Proof. intros n. unfold SW, TS. rewrite !mmul_mkron by reflexivity. rewrite swap_012. reflexivity. Qed.

Lemma conj_commutes : forall n (A B Y : mat C), shape A (n * 3) (n * 3) -> shape B (n * 3) (n * 3) -> shape Y (n * 3) (n * 3) ->
  mmul (SW n) A = mmul A (SW n) -> mmul (SW n) B = mmul B (SW n) -> mmul (SW n) Y = mmul Y (SW n) ->
  mmul (SW n) (mmul (mmul A Y) B) = mmul (mmul (mmul A Y) B) (SW n).
Proof.
  intros n A B Y (WA & HA & HA') (WB & HB & HB') (WY & HY & HY') EA EB EY.
  rewrite <- mmul_assoc by (cbn; lia). rewrite <- (mmul_assoc (SW n) A Y) by (cbn; lia). rewrite EA.
  rewrite (mmul_assoc A (SW n) Y) by (cbn; lia). rewrite EY. rewrite <- (mmul_assoc A Y (SW n)) by (cbn; lia).
  rewrite (mmul_assoc (mmul A Y) (SW n) B) by (cbn; lia). rewrite EB. rewrite <- mmul_assoc by (cbn; lia). reflexivity.
Qed.
Theorem p_phase_symmetric : forall n S Y, shape S (n * 3) (n * 3) -> admittance_sequence_to_phase S = Ok Y ->
  (bc_symmetric (0%K : C) n Y <-> bc_symmetric (0%K : C) n S).
Proof.
  intros n S0 Y HS E. rewrite (seq_to_phase_eq n) in E by auto. injection E as <-.
  assert (HY : shape (mmul (mmul (TA n) S0) (TS n)) (n * 3) (n * 3)) by (apply shape_conj; auto using shape_TA, shape_TS).
  rewrite <- (commutes_symmetric n _ HY), <- (commutes_symmetric n _ HS). split; intros H.
  - rewrite <- (conj_inv n (TS n) (TA n) S0) by auto using shape_TA, shape_TS, TS_TA.
    apply conj_commutes; auto using shape_TA, shape_TS, SW_TA, SW_TS.
  - apply conj_commutes; auto using shape_TA, shape_TS, SW_TA, SW_TS.
Qed.
Lemma get_unit3 : forall k p q, (p < 3)%nat -> (q < 3)%nat -> get (unit3 k) p q = if Nat.eqb p q then (if Nat.eqb p k then Cx 1 0 else 0%K) else 0%K.
Proof. intros k p q Hp Hq. unfold unit3, mdiag. rewrite length_mkv, get_mk by auto. rewrite vget_mkv by auto. reflexivity. Qed.
Lemma get_assemble : forall n y0 y1 y2 i j p q, shape y0 n n -> shape y1 n n -> shape y2 n n -> (i < n)%nat -> (j < n)%nat -> (p < 3)%nat -> (q < 3)%nat ->
  get (assemble_012 y0 y1 y2) (i * 3 + p) (j * 3 + q) =
  if Nat.eqb p q then get (nth p [y0; y1; y2] y0) i j else 0%K.
Proof.
  intros n y0 y1 y2 i j p q (W0 & R0 & C0) (W1 & R1 & C1) (W2 & R2 & C2) Hi Hj Hp Hq. unfold assemble_012.
  assert (G : forall y k, nr y = n -> nc y = n -> get (mkron y (unit3 k)) (i * 3 + p) (j * 3 + q) = (get y i j * get (unit3 k) p q)%K).
  { intros y k H1 H2. apply (get_mkron y (unit3 k)); cbn; lia. }
  assert (B : forall y k, nr (mkron y (unit3 k)) = (nr y * 3)%nat /\ nc (mkron y (unit3 k)) = (nc y * 3)%nat) by (intros; split; reflexivity).
  rewrite !get_madd by (cbn; nia). rewrite !G by auto. rewrite !get_unit3 by auto.
  cases3 p Hp; cases3 q Hq; cbn [Nat.eqb nth]; change (Cx 1 0) with (1%K : C); ring.
Qed.
Lemma shape_assemble : forall n y0 y1 y2, nr y0 = n -> nc y0 = n -> shape (assemble_012 y0 y1 y2) (n * 3) (n * 3).
Proof. intros n y0 y1 y2 H1 H2. split; [apply wf_mk|]. cbn. auto. Qed.

Theorem p_assembled : forall n y0 y1 y2, shape y0 n n -> shape y1 n n -> shape y2 n n -> exists Y,
  admittance_sequence_to_phase (assemble_012 y0 y1 y2) = Ok Y /\ (bc_symmetric (0%K : C) n Y <-> y1 = y2).
Proof.
  intros n y0 y1 y2 H0 H1 H2. assert (HS : shape (assemble_012 y0 y1 y2) (n * 3) (n * 3)) by (apply shape_assemble; apply H0).
  eexists. split; [apply (seq_to_phase_eq n); auto|]. rewrite (p_phase_symmetric n (assemble_012 y0 y1 y2)) by (auto; apply seq_to_phase_eq; auto). split.
  - intros H. apply (gshape_ext _ _ n n H1 H2). intros i j Hi Hj. specialize (H i j 2%nat 2%nat Hi Hj ltac:(lia) ltac:(lia)).
    cbn [other_phase] in H. change (get (assemble_012 y0 y1 y2) (i * 3 + 1) (j * 3 + 1) = get (assemble_012 y0 y1 y2) (i * 3 + 2) (j * 3 + 2)) in H.
    rewrite !(get_assemble n) in H by (auto; lia). exact H.
  - intros <- i j p q Hi Hj Hp Hq. change (get (assemble_012 y0 y1 y1) (i * 3 + other_phase p) (j * 3 + other_phase q) = get (assemble_012 y0 y1 y1) (i * 3 + p) (j * 3 + q)).
    rewrite !(get_assemble n) by (auto using other_lt). cases3 p Hp; cases3 q Hq; reflexivity.
Qed.

(** an asymmetric line *)
Definition one_line : mat C := mk 3 3 (fun i j => if Nat.eqb i 1 && Nat.eqb j 1 then Cx 1 0 else 0%K)%bool.
Lemma one_line_not : ~ bc_symmetric (0%K : C) 1 one_line.
Proof.
  intros H. specialize (H 0%nat 0%nat 1%nat 1%nat ltac:(lia) ltac:(lia) ltac:(lia) ltac:(lia)). cbn in H. apply (f_equal re) in H. cbn in H. revert H. runfold. lra.
Qed.
Theorem p_relation_refuted : exists Y V I Vs Is Ys, shape Y 3 3 /\ tr Y = Y /\ shape V 3 3 /\ I = mmul V Y /\
  measurement_phase_to_sequence V = Ok Vs /\ measurement_phase_to_sequence I = Ok Is /\ admittance_phase_to_sequence Y = Ok Ys /\ Is <> mmul Vs Ys.
Proof.
  assert (HS : shape one_line (1 * 3) (1 * 3)) by apply shape_mk.
  exists one_line, (meye 3), one_line, (mmul (meye 3) (TS 1)), (mmul one_line (TS 1)), (mmul (mmul (TS 1) one_line) (TA 1)).
  split; [apply shape_mk|]. split.
  { apply (gshape_ext _ _ 3 3); [split; [apply wf_mk|auto]|apply shape_mk|]. intros i j Hi Hj. rewrite get_tr by auto. unfold one_line. rewrite !get_mk by auto. rewrite Bool.andb_comm. reflexivity. }
  split; [apply shape_mk|]. split; [symmetry; apply mmul_1_l'; [apply wf_mk|reflexivity]|].
  split; [apply (meas_to_seq_eq 1); reflexivity|]. split; [apply (meas_to_seq_eq 1); reflexivity|]. split; [apply (phase_to_seq_eq 1); auto|].
  intro E. apply one_line_not. apply (p_relation_iff 1 one_line HS). intros T V I Vs Is Ys (WV & HV & HV') -> E1 E2 E3.
  rewrite (meas_to_seq_eq 1) in E1 by auto. rewrite (meas_to_seq_eq 1) in E2 by reflexivity. rewrite (phase_to_seq_eq 1) in E3 by auto.
  injection E1 as <-. injection E2 as <-. injection E3 as <-. rewrite mmul_1_l' in E by wfm.
  rewrite mmul_assoc by (cbn; lia). rewrite (mmul_assoc V) by (cbn; lia). rewrite E. reflexivity.
Qed.
