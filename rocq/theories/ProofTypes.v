(** Proofs about the line types of the three-phase networks. *)
From Coq Require Import Arith Lia List Reals Lra Ring Field.
From Verif Require Import BasePy BaseFld BaseSum BaseMat BaseLin BaseReal ModelErrorMetrics ModelLines ModelReduce3 SpecLines SpecTypes ProofLines.
Import ListNotations.
Local Open Scope R_scope.

Definition third : C := Cx (1 / 3) 0.
Definition rot (k : nat) : mat C := mmul (mmul block_abc (unit3 k)) block_012.
Lemma get_rot : forall k p q, (k < 3)%nat -> (p < 3)%nat -> (q < 3)%nat -> get (rot k) p q = (w3 (p * k) * v3 (k * q))%K.
Proof.
  intros k p q Hk Hp Hq. unfold rot. rewrite get_mmul by (cbn; auto). rewrite sumn_three by reflexivity. rewrite !get_mmul by (cbn; auto; lia). rewrite !sumn_three by reflexivity.
  rewrite !get_abc, !get_012, !get_unit3 by lia.
  cases3 k Hk; cbn [Nat.eqb]; change (Cx 1 0) with (1%K : C); rewrite ?Nat.mul_0_r, ?Nat.mul_1_r; ring.
Qed.
Lemma conj_kron : forall n y k, shape y n n -> mmul (mmul (TA n) (mkron y (unit3 k))) (TS n) = mkron y (rot k).
Proof.
  intros n y k (W & R & Cc). unfold TA, TS, rot. rewrite mmul_mkron by (cbn; auto). rewrite mmul_mkron by (cbn; auto).
  rewrite mmul_1_l' by auto. rewrite mmul_1_r' by auto. reflexivity.
Qed.
Lemma rot_0 : forall p q, (p < 3)%nat -> (q < 3)%nat -> get (rot 0) p q = third.
Proof.
  intros p q Hp Hq. rewrite get_rot by lia. cases3 p Hp; cases3 q Hq; unfold w3, v3, third; cbn [Nat.mul Nat.add Nat.modulo Nat.divmod fst snd Nat.sub];
  cbv [kadd kmul k0 k1 cplx_ops cadd cmul re im R_ops]; f_equal; runfold; field.
Qed.
Lemma rot_12 : forall p q, (p < 3)%nat -> (q < 3)%nat -> (get (rot 1) p q + get (rot 2) p q = third * (if Nat.eqb p q then 1 + 1 else - (1)))%K.
Proof.
  intros p q Hp Hq. rewrite !get_rot by lia. cases3 p Hp; cases3 q Hq; unfold w3, v3, third; cbn [Nat.eqb Nat.mul Nat.add Nat.modulo Nat.divmod fst snd Nat.sub];
  cbv [kadd kmul kopp k0 k1 cplx_ops cadd cmul copp re im R_ops]; f_equal; pose proof sqrt3; runfold; nra.
Qed.
Theorem phase_entry : forall n y0 y1 Y i j p q, shape y0 n n -> shape y1 n n -> make_y_bus3 (y0, y1, y1) = Ok Y -> (i < n)%nat -> (j < n)%nat -> (p < 3)%nat -> (q < 3)%nat ->
  get Y (i * 3 + p) (j * 3 + q) = (third * (if Nat.eqb p q then get y0 i j + (1 + 1) * get y1 i j else get y0 i j - get y1 i j))%K.
Proof.
  intros n y0 y1 Y i j p q S0 S1 E Hi Hj Hp Hq. destruct S0 as (W0 & R0 & C0). destruct S1 as (W1 & R1 & C1). unfold make_y_bus3, sum_kron, same_shape in E. rewrite R0, C0, R1, C1, !Nat.eqb_refl in E. cbn [andb bind] in E.
  rewrite (seq_to_phase_eq n) in E by (apply shape_assemble; assumption).
  assert (OKI : forall a b : mat C, Ok a = Ok b -> a = b) by congruence. apply OKI in E. subst Y. unfold assemble_012.
  rewrite mmul_madd_r by (cbn; rewrite ?R0, ?C0, ?R1, ?C1; auto). rewrite mmul_madd_r by (cbn; rewrite ?R0, ?C0, ?R1, ?C1; auto).
  rewrite mmul_madd_l by (cbn; rewrite ?R0, ?C0, ?R1, ?C1; auto). rewrite mmul_madd_l by (cbn; rewrite ?R0, ?C0, ?R1, ?C1; auto).
  rewrite !(conj_kron n) by (split; auto).
  assert (G : forall y k, nr y = n -> nc y = n -> get (mkron y (rot k)) (i * 3 + p) (j * 3 + q) = (get y i j * get (rot k) p q)%K).
  { intros y k H1 H2. apply (get_mkron y (rot k)); cbn; lia. }
  rewrite !get_madd by (cbn; nia). rewrite !G by auto.
  transitivity (get y0 i j * get (rot 0) p q + get y1 i j * (get (rot 1) p q + get (rot 2) p q))%K; [ring|]. rewrite rot_0, rot_12 by assumption. destruct (Nat.eqb p q); ring.
Qed.
Lemma third_3 : (third * (1 + 1 + 1))%K = 1%K.
Proof. unfold third. cbv [kadd kmul k0 k1 cplx_ops cadd cmul re im R_ops]. f_equal; runfold; field. Qed.
(** a line with the impedance [s] of a phase and [m] between two phases *)
Theorem line_entry : forall n y0 y1 Y i j (s m c : C) (imp : nat -> nat -> C), shape y0 n n -> shape y1 n n -> make_y_bus3 (y0, y1, y1) = Ok Y -> (i < n)%nat -> (j < n)%nat ->
  (get y0 i j * (s + (1 + 1) * m) = - c)%K -> (get y1 i j * (s - m) = - c)%K -> (forall p q, imp p q = if Nat.eqb p q then s else m) ->
  forall p q, (p < 3)%nat -> (q < 3)%nat -> sumn 3 (fun r => (get Y (i * 3 + p) (j * 3 + r) * imp r q)%K) = if Nat.eqb p q then (- c)%K else 0%K.
Proof.
  intros n y0 y1 Y i j s m c imp S0 S1 E Hi Hj H0 H1 HI p q Hp Hq. rewrite sumn_three by reflexivity. rewrite !HI. rewrite !(phase_entry n y0 y1 Y i j) by (auto; lia).
  set (a := get y0 i j) in *. set (b := get y1 i j) in *. set (T := third).
  assert (D : (T * (a * (s + (1 + 1) * m)) + T * ((1 + 1) * (b * (s - m))) = - c)%K) by (rewrite H0, H1; transitivity (- (c * (T * (1 + 1 + 1))))%K; [ring|unfold T; rewrite third_3; ring]).
  assert (N : (T * (a * (s + (1 + 1) * m)) - T * (b * (s - m)) = 0)%K) by (rewrite H0, H1; ring).
  cases3 p Hp; cases3 q Hq; cbn [Nat.eqb]; first [rewrite <- D; ring|rewrite <- N; ring].
Qed.
