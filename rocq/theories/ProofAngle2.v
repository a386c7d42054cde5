(** Another reference angle for each sample. *)
From Coq Require Import Bool Arith List Lia Ring Field.
From Verif Require Import BasePy BaseFld BaseOrd BaseSum BaseMat BaseNumpy BaseLin ModelMatrixOps ModelFit ModelLS SpecMatrix SpecLS SpecFit SpecOrder SpecAngle ProofMatrixOps ProofLS ProofTLS ProofFitBase ProofFitOpt ProofFitEIV ProofOrder ProofOrder4 ProofAngle ProofTLSOpt ProofTLSOpt2 ProofRenumber.
Import ListNotations.
Local Open Scope nat_scope.

Section Angle.
Context {K : Type} {O : Ops K} {F : Fld K} {O2 : OrdOps K} {OF : OrdFld K}.
Notation CK := (cplx K).
Add Field KfldAn2 : (@k_field K O F).
Add Field CfldAn2 : (@k_field CK _ _).
Variables (T : nat) (c : nat -> CK).
Hypothesis HC : angles T c.
Definition turn : mat CK := mk T T (fun t k => if t =? k then c t else 0%K).
Lemma shape_turn : shape turn T T. Proof. apply shape_mk. Qed.
Lemma angle_conj : forall t, t < T -> (conj (c t) * c t)%K = 1%K.
Proof. intros t Ht. specialize (HC t Ht). unfold cnorm2 in HC. apply cplx_eq; cbn; [rewrite <- HC; ring|ring]. Qed.
Lemma turn_unitary : mmul (ctr turn) turn = meye T.
Proof.
  apply (gshape_ext _ _ T T); [apply shape_mmul with (m := T); reflexivity|apply shape_meye|]. intros i j Hi Hj. rewrite get_mmul by assumption. change (nc (ctr turn)) with T. rewrite get_meye by assumption.
  rewrite (sumn_single T i); [|assumption|].
  - rewrite get_ctr by assumption. unfold turn. rewrite !get_mk by assumption. rewrite Nat.eqb_refl. destruct (Nat.eqb_spec i j); [apply angle_conj; exact Hi|ring].
  - intros k Hk Hne. rewrite get_ctr by assumption. unfold turn. rewrite !get_mk by assumption. replace (k =? i) with false by (symmetry; apply Nat.eqb_neq; congruence). rewrite conj_0. ring.
Qed.
Lemma turned_mmul : forall n (x x' : mat CK), turned_phasors T n c x x' -> x' = mmul turn x.
Proof.
  intros n x x' (HX & HX' & H). pose proof HX as (W & R & C). apply (gshape_ext _ _ T n HX'); [apply shape_mmul with (m := T); auto|]. intros t j Ht Hj. rewrite H by assumption. rewrite get_mmul by (first [exact Ht|congruence]). change (nc turn) with T.
  rewrite (sumn_single T t); [|exact Ht|].
  - unfold turn. rewrite get_mk, Nat.eqb_refl by assumption. reflexivity.
  - intros k Hk Hne. unfold turn. rewrite get_mk by assumption. replace (t =? k) with false by (symmetry; apply Nat.eqb_neq; congruence). ring.
Qed.
Lemma mmul_turned : forall n (x : mat CK), shape x T n -> turned_phasors T n c x (mmul turn x).
Proof.
  intros n x HX. pose proof HX as (W & R & C). split; [exact HX|]. split; [apply shape_mmul with (m := T); auto|]. intros t j Ht Hj. rewrite get_mmul by (first [exact Ht|congruence]). change (nc turn) with T.
  rewrite (sumn_single T t); [|exact Ht|].
  - unfold turn. rewrite get_mk, Nat.eqb_refl by assumption. reflexivity.
  - intros k Hk Hne. unfold turn. rewrite get_mk by assumption. replace (t =? k) with false by (symmetry; apply Nat.eqb_neq; congruence). ring.
Qed.
Lemma ols_turned : forall pinv n m (x x' z z' : mat CK), turned_phasors T n c x x' -> turned_phasors T m c z z' -> penrose T n x (pinv x) -> penrose T n x' (pinv x') ->
  complex_regression_fit pinv x' z' = complex_regression_fit pinv x z.
Proof.
  intros pinv n m x x' z z' HX HZ P P'. rewrite (turned_mmul n x x' HX), (turned_mmul m z z' HZ) in *. apply (ols_mixed pinv T n m); [exact shape_turn|exact turn_unitary|apply HZ|exact P|exact P'].
Qed.
Lemma gram_turned : forall n (a : mat CK), shape a T n -> mmul (ctr (mmul turn a)) (mmul turn a) = mmul (ctr a) a.
Proof.
  intros n a (WA & RA & CA). destruct shape_turn as (WQ & RQ & CQ). rewrite ctr_mmul by congruence. pose proof turn_unitary as U. set (q := turn) in *.
  rewrite mmul_assoc by (first [change (nc (ctr a)) with (nr a); change (nr (ctr q)) with (nc q); congruence|change (nc (ctr q)) with (nr q); change (nr (mmul q a)) with (nr q); congruence]).
  rewrite <- (mmul_assoc (ctr q) q a) by (first [congruence|change (nc (ctr q)) with (nr q); congruence]). rewrite U, mmul_1_l' by assumption. reflexivity.
Qed.
Lemma tls_turned : forall svd n m (x x' y y' : mat CK) s, turned_phasors T n c x x' -> turned_phasors T m c y y' ->
  (let '(u, s0, vh) := svd (hstack2 x y) in s0 = s /\ is_svd T (n + m) (hstack2 x y) u s0 vh) -> (let '(u, s0, vh) := svd (hstack2 x' y') in is_svd T (n + m) (hstack2 x' y') u s0 vh) ->
  apart n (n + m) s -> tls_fit svd x' (A2 y') = tls_fit svd x (A2 y).
Proof.
  intros svd n m x x' y y' s HX HY HS HS' SEP.
  assert (G : mmul (ctr (hstack2 x' y')) (hstack2 x' y') = mmul (ctr (hstack2 x y)) (hstack2 x y)).
  { rewrite (turned_mmul n x x' HX), (turned_mmul m y y' HY). destruct HX as ((WX & RX & CX) & _). destruct HY as ((WY & RY & CY) & _). rewrite <- mmul_hstack_r by (change (nc turn) with T; congruence). apply (gram_turned (n + m)). unfold hstack2. rewrite RX, CX, CY. apply shape_mk. }
  destruct (svd (hstack2 x y)) as [[u s0] vh] eqn:ES. destruct HS as [-> HS]. destruct (svd (hstack2 x' y')) as [[u' s'] vh'] eqn:ES'. pose proof HS as (_ & _ & SV & _). pose proof HS' as (_ & _ & SV' & _).
  destruct HX as (HX & HX' & _). destruct HY as (HY & HY' & _).
  rewrite (tls_fit_matrix svd T n m x y u s vh HX HY ES SV). rewrite (tls_fit_matrix svd T n m _ _ u' s' vh' HX' HY' ES' SV').
  pose proof (tls_blocks T T n m _ _ _ _ _ _ _ _ HS HS' G SEP) as B. fold (tls_matrix n (n + m) vh') in B. fold (tls_matrix n (n + m) vh) in B. rewrite B. reflexivity.
Qed.
Lemma br_turned : forall sv (e : estimator K) n (x x' z z' : mat CK) y0, turned_phasors T n c x x' -> turned_phasors T n c z z' -> br_fit sv e x' z' y0 = br_fit sv e x z y0.
Proof. intros sv e n x x' z z' y0 HX HZ. rewrite (turned_mmul n x x' HX), (turned_mmul n z z' HZ). apply (br_mixed T turn shape_turn turn_unitary sv e n); [apply HX|apply HZ]. Qed.

(** symmetric weights are determined by the costs *)
Lemma mvmul_unit : forall N (W : mat K) j, shape W N N -> j < N -> forall i, i < N -> vget (mvmul W (mkv N (fun k => if k =? j then 1%K else 0%K))) i = get W i j.
Proof.
  intros N W j (WW & RW & CW) Hj i Hi. rewrite vget_mvmul by congruence. rewrite CW. rewrite (sumn_single N j); [|exact Hj|].
  - rewrite vget_mkv, Nat.eqb_refl by exact Hj. ring.
  - intros k Hk Hne. rewrite vget_mkv by exact Hk. replace (k =? j) with false by (symmetry; apply Nat.eqb_neq; congruence). ring.
Qed.
Lemma quad_bilinear : forall N (W : mat K) u v, shape W N N -> tr W = W -> length u = N -> length v = N ->
  vdot (vadd u v) (mvmul W (vadd u v)) = (vdot u (mvmul W u) + vdot v (mvmul W v) + (1 + 1) * vdot u (mvmul W v))%K.
Proof.
  intros N W u v (WW & RW & CW) S LU LV. rewrite mvmul_vadd by congruence. rewrite vdot_vadd_l, !vdot_vadd_r by (rewrite ?length_mvmul; congruence).
  assert (E : vdot v (mvmul W u) = vdot u (mvmul W v)) by (rewrite vdot_mvmul by (rewrite ?length_mvmul; congruence); rewrite S; apply vdot_comm; rewrite length_mvmul; congruence).
  rewrite E. ring.
Qed.
Lemma quad_ext : forall N (A B : mat K), shape A N N -> shape B N N -> tr A = A -> tr B = B -> (forall v, length v = N -> vdot v (mvmul A v) = vdot v (mvmul B v)) -> A = B.
Proof.
  intros N A B HA HB SA SB H. apply (gshape_ext _ _ N N HA HB). intros i j Hi Hj.
  set (e := fun a => mkv N (fun k => if k =? a then (1%K : K) else 0%K)). assert (L : forall a, length (e a) = N) by (intro a; apply length_mkv).
  assert (D : forall W a b, shape W N N -> a < N -> b < N -> vdot (e a) (mvmul W (e b)) = get W a b).
  { intros W a b HW Ha Hb. unfold vdot. rewrite L. rewrite (sumn_single N a); [|exact Ha|].
    - unfold e at 2. rewrite (mvmul_unit N W b HW Hb a Ha). unfold e. rewrite vget_mkv, Nat.eqb_refl by exact Ha. ring.
    - intros k Hk Hne. unfold e at 1. rewrite vget_mkv by exact Hk. replace (k =? a) with false by (symmetry; apply Nat.eqb_neq; congruence). ring. }
  rewrite <- (D A i j HA Hi Hj), <- (D B i j HB Hi Hj).
  pose proof (H (vadd (e i) (e j)) ltac:(rewrite length_vadd; apply L)) as Q. rewrite (quad_bilinear N A) in Q by auto. rewrite (quad_bilinear N B) in Q by auto. rewrite (H (e i) (L i)), (H (e j) (L j)) in Q.
  assert (T2 : ((1 + 1) * vdot (e i) (mvmul A (e j)) = (1 + 1) * vdot (e i) (mvmul B (e j)))%K).
  { apply (f_equal (fun t => (t - (vdot (e i) (mvmul B (e i)) + vdot (e j) (mvmul B (e j))))%K)) in Q. match type of Q with ?a = ?b => replace a with ((1 + 1) * vdot (e i) (mvmul A (e j)))%K in Q by ring; replace b with ((1 + 1) * vdot (e i) (mvmul B (e j)))%K in Q by ring end. exact Q. }
  assert (N2 : (1 + 1)%K <> (0%K : K)) by apply k2_neq0.
  apply (f_equal (fun t => (1 / (1 + 1) * t)%K)) in T2. match type of T2 with ?a = ?b => replace a with (vdot (e i) (mvmul A (e j))) in T2 by (field; exact N2); replace b with (vdot (e i) (mvmul B (e j))) in T2 by (field; exact N2) end. exact T2.
Qed.
Lemma weights_turned : forall n (W W' : mat K), shape W (2 * (n * T)) (2 * (n * T)) -> tr W = W -> turned_weights T n c W W' -> W' = turned turn n W.
Proof.
  intros n W W' HW SW (HW' & SW' & H). set (N := 2 * (n * T)) in *. pose proof (shape_turned T turn shape_turn n W) as HT. fold N in HT. pose proof (HB T turn shape_turn n) as HBn. fold N in HBn. pose proof (OB T turn shape_turn turn_unitary n) as OBn. fold N in OBn.
  set (B := big turn n) in *. pose proof HBn as (WB & RB & CB). pose proof HW as (WW & RW & CW).
  assert (ST : tr (turned turn n W) = turned turn n W).
  { unfold turned. fold B. rewrite tr_mmul by (change (nc W = nc B); congruence). rewrite tr_tr by exact WB. rewrite tr_mmul by congruence. rewrite SW. rewrite <- mmul_assoc by (first [change (nc B = nr W); congruence|change (nc W = nc B); congruence|congruence]). reflexivity. }
  apply (quad_ext N); auto. intros v Lv. set (w := mvmul (tr B) v). assert (Lw : length w = N) by (unfold w; rewrite length_mvmul; exact CB).
  assert (E : v = mvmul B w) by (unfold w; symmetry; apply (orth_back' N B HBn OBn); exact Lv).
  destruct (real_matrix_form T n w Lw) as (D & HD & ED & _). specialize (H D (mmul turn D) (mmul_turned n D HD)). unfold wnorm2 in H. rewrite (mix_vector T turn shape_turn n D HD), <- ED in H. fold B in H. rewrite E, H.
  pose proof (turned_vec T turn shape_turn turn_unitary n W w HW Lw) as TV. fold B in TV. rewrite TV. symmetry. apply (orth_dot N B HBn OBn); [exact Lw|rewrite length_mvmul; exact RW].
Qed.
Lemma turned_weights_turned : forall n (W : mat K), shape W (2 * (n * T)) (2 * (n * T)) -> tr W = W -> turned_weights T n c W (turned turn n W).
Proof.
  intros n W HW SW. set (N := 2 * (n * T)) in *. pose proof (HB T turn shape_turn n) as HBn. fold N in HBn. pose proof (OB T turn shape_turn turn_unitary n) as OBn. fold N in OBn. set (B := big turn n) in *. pose proof HBn as (WB & RB & CB). pose proof HW as (WW & RW & CW).
  split; [exact (shape_turned T turn shape_turn n W)|]. split.
  - unfold turned. fold B. rewrite tr_mmul by (change (nc W = nc B); congruence). rewrite tr_tr by exact WB. rewrite tr_mmul by congruence. rewrite SW. rewrite <- mmul_assoc by (first [change (nc B = nr W); congruence|change (nc W = nc B); congruence|congruence]). reflexivity.
  - intros d d' Hd. rewrite (turned_mmul n d d' Hd). destruct Hd as (Hd & _). unfold wnorm2. rewrite (mix_vector T turn shape_turn n d Hd). fold B. set (w := make_real_vector (vectorize_matrix d)). assert (Lw : length w = N) by (apply (length_rv T n d Hd)).
    pose proof (turned_vec T turn shape_turn turn_unitary n W w HW Lw) as TV. fold B in TV. rewrite TV. apply (orth_dot N B HBn OBn); [exact Lw|rewrite length_mvmul; exact RW].
Qed.
Lemma eiv_turned : forall sv ca (e : estimator K) n (x x' z z' : mat CK) y0 W W' w w', solver_sound sv -> solver_complete sv -> turned_phasors T n c x x' -> turned_phasors T n c z z' -> shape y0 n n -> posdef (2 * (n * T)) W -> turned_weights T n c W W' ->
  eiv_fit sv ca e x' z' (Some W') (Some w') y0 = eiv_fit sv ca e x z (Some W) (Some w) y0.
Proof.
  intros sv ca e n x x' z z' y0 W W' w w' SS SC HX HZ HY PW HW. rewrite (turned_mmul n x x' HX), (turned_mmul n z z' HZ). pose proof PW as ((SW & TW & _) & _). rewrite (weights_turned n W W' SW TW HW).
  apply (eiv_mixed_weighted T turn shape_turn turn_unitary sv ca e n x z y0 W w w' SS SC); [apply HX|apply HZ|exact HY|exact PW].
Qed.
End Angle.
