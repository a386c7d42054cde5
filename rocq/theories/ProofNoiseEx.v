(** The covariance formulas as moments of polar noise. *)
From Coq Require Import Arith Lia List Bool ZArith Reals Lra Psatz.
From Verif Require Import BasePy BaseFld BaseSum BaseMat BaseNumpy BaseReal BaseLin ModelMatrixOps ProofMatrixOps
  ModelErrorMetrics ModelNoiseCov SpecNoise ProofNoiseCov.
Import ListNotations.
Local Open Scope R_scope.

Definition hs : list (R -> R) := [(fun _ => 1); cos; sin; (fun x => cos (2 * x)); (fun x => sin (2 * x))].
Definition hh (j : nat) : R -> R := nth j hs (fun _ => 1).

Section Combo.
Context {W : Type} (P : expectation W) (d p : W -> R) (v s : R).
Hypothesis HN : polar_noise P d p v s.

Definition combo (l : list (R * nat * nat)) (w : W) : R :=
  fold_right (fun t acc => fst (fst t) * (d w ^ snd (fst t) * hh (snd t) (p w)) + acc) 0 l.
Definition mom (k : nat) : R := match k with 0 => 1 | 1 => 0 | _ => v end.
Definition chr (j : nat) : R := match j with 0 => 1 | 1 => exp (- s / 2) | 2 => 0 | 3 => exp (- (2 * s)) | _ => 0 end.
Definition eval (l : list (R * nat * nat)) : R :=
  fold_right (fun t acc => fst (fst t) * (mom (snd (fst t)) * chr (snd t)) + acc) 0 l.
Definition okc (l : list (R * nat * nat)) : Prop := Forall (fun t => (snd (fst t) <= 2)%nat /\ (snd t < 5)%nat) l.

Lemma hh_in : forall j, (j < 5)%nat -> In (hh j) hs.
Proof. intros j H. unfold hh. apply nth_In. exact H. Qed.

Lemma Ex_one_pow : integrable P (fun w => d w ^ 0) /\ Ex P (fun w => d w ^ 0) = 1.
Proof. exact (Ex_one _ P). Qed.

Lemma mom_ok : forall k, (k <= 2)%nat -> Ex P (fun w => d w ^ k) = mom k.
Proof.
  intros [|[|[|k]]] H; [apply Ex_one_pow| | |lia].
  - cbn [mom]. rewrite <- (pn_mean P d p v s HN).
    destruct (pn_indep P d p v s HN 1 (fun _ => 1) ltac:(lia) (or_introl eq_refl)) as [I _].
    destruct (Ex_ext _ P (fun w => d w ^ 1 * 1) (fun w => d w ^ 1) ltac:(intro; cbv beta; ring) I) as [I1 _].
    destruct (Ex_ext _ P (fun w => d w ^ 1) d ltac:(intro; cbv beta; ring) I1) as [_ E]. exact E.
  - exact (pn_var P d p v s HN).
Qed.
Lemma chr_ok : forall j, (j < 5)%nat -> Ex P (fun w => hh j (p w)) = chr j.
Proof.
  intros [|[|[|[|[|j]]]]] H; [| | | | |lia]; unfold hh; cbn [nth hs chr].
  - apply Ex_one.
  - apply HN.
  - apply HN.
  - apply HN.
  - apply HN.
Qed.

Lemma Ex_zero : integrable P (fun _ => 0) /\ Ex P (fun _ => 0) = 0.
Proof.
  destruct (Ex_one _ P) as [A B]. destruct (Ex_scal _ P 0 _ A) as [C D].
  destruct (Ex_ext _ P (fun w => 0 * 1) (fun _ => 0) ltac:(intro; cbv beta; ring) C) as [E F]. split; auto. rewrite <- F, D. ring.
Qed.

Lemma Ex_combo : forall l, okc l -> integrable P (combo l) /\ Ex P (combo l) = eval l.
Proof.
  induction l as [|[[a k] j] l IH]; intros H.
  - exact Ex_zero.
  - inversion H as [|x y [Hk Hj] Hl]; subst. cbn [fst snd] in Hk, Hj. destruct (IH Hl) as [I E].
    destruct (pn_indep P d p v s HN k (hh j) Hk (hh_in j Hj)) as [I1 E1].
    destruct (Ex_scal _ P a _ I1) as [I2 E2]. destruct (Ex_add _ P _ _ I2 I) as [I3 E3].
    split; [exact I3|]. cbn [eval fold_right fst snd]. rewrite <- (mom_ok k Hk), <- (chr_ok j Hj), <- E1, <- E2. fold (eval l). rewrite <- E. exact E3.
Qed.

Lemma Ex_is : forall X l, okc l -> (forall w, X w = combo l w) -> integrable P X /\ Ex P X = eval l.
Proof.
  intros X l H E. destruct (Ex_combo l H) as [I V]. destruct (Ex_ext _ P (combo l) X ltac:(intro; cbv beta; symmetry; apply E) I) as [A B].
  split; auto. rewrite <- B. auto.
Qed.

(** the perturbed phasor and products of its parts *)
Definition PX (m f : R) (w : W) : R := (m + d w) * cos (f + p w).
Definition PY (m f : R) (w : W) : R := (m + d w) * sin (f + p w).
Definition lx (a m c1 s1 : R) : list (R * nat * nat) := [(a * (m * c1), 0%nat, 1%nat); (a * - (m * s1), 0%nat, 2%nat); (a * c1, 1%nat, 1%nat); (a * - s1, 1%nat, 2%nat)].
Definition l2 (m al be ga : R) : list (R * nat * nat) :=
  [(m * m * al, 0%nat, 0%nat); (m * m * be, 0%nat, 3%nat); (m * m * ga, 0%nat, 4%nat); (2 * m * al, 1%nat, 0%nat); (2 * m * be, 1%nat, 3%nat); (2 * m * ga, 1%nat, 4%nat);
   (al, 2%nat, 0%nat); (be, 2%nat, 3%nat); (ga, 2%nat, 4%nat)].

Lemma combo_app : forall l l' w, combo (l ++ l') w = combo l w + combo l' w.
Proof. induction l; intros; cbn [combo fold_right app]; [unfold combo; ring|]. fold (combo (l ++ l') w) (combo l w). rewrite IHl. ring. Qed.
Lemma eval_app : forall l l', eval (l ++ l') = eval l + eval l'.
Proof. induction l; intros; cbn [eval fold_right app]; [unfold eval; ring|]. fold (eval (l ++ l')) (eval l). rewrite IHl. ring. Qed.

Lemma okc_lx : forall a m c1 s1, okc (lx a m c1 s1).
Proof. intros. repeat constructor. Qed.
Lemma okc_l2 : forall m a b g, okc (l2 m a b g).
Proof. intros. repeat constructor. Qed.

Lemma combo_x : forall a m f w, combo (lx a m (cos f) (sin f)) w = a * PX m f w.
Proof. intros. unfold PX, lx, combo, hh. cbn [fold_right fst snd nth hs]. rewrite cos_plus. ring. Qed.
Lemma combo_y : forall a m f w, combo (lx a m (sin f) (- cos f)) w = a * PY m f w.
Proof. intros. unfold PY, lx, combo, hh. cbn [fold_right fst snd nth hs]. rewrite sin_plus. ring. Qed.

Lemma combo_2 : forall m al be ga w, combo (l2 m al be ga) w = (m + d w) ^ 2 * (al + be * cos (2 * p w) + ga * sin (2 * p w)).
Proof. intros. unfold l2, combo, hh. cbn [fold_right fst snd nth hs]. ring. Qed.

Lemma trig2' : forall f, cos f * cos f = 1 - sin f * sin f.
Proof. intros f. generalize (trig2 f). simpl. lra. Qed.

Lemma combo_xx : forall m f w, combo (l2 m (/ 2) ((cos f * cos f - sin f * sin f) / 2) (- (sin f * cos f))) w = PX m f w * PX m f w.
Proof.
  intros. rewrite combo_2. unfold PX. rewrite cos_plus, cos_2a, sin_2a.
  transitivity ((m + d w) ^ 2 * ((cos f * cos (p w) - sin f * sin (p w)) * (cos f * cos (p w) - sin f * sin (p w)))); [|ring].
  f_equal. generalize (trig2' f) (trig2' (p w)). intros A B.
  transitivity (/ 2 + (cos f * cos f - sin f * sin f) / 2 * (cos (p w) * cos (p w) - sin (p w) * sin (p w)) - sin f * cos f * (2 * sin (p w) * cos (p w))); [ring|].
  transitivity (cos f * cos f * (cos (p w) * cos (p w)) + sin f * sin f * (sin (p w) * sin (p w)) - 2 * sin f * cos f * (sin (p w) * cos (p w))); [|ring].
  rewrite A, B. field.
Qed.
Lemma combo_yy : forall m f w, combo (l2 m (/ 2) (- (cos f * cos f - sin f * sin f) / 2) (sin f * cos f)) w = PY m f w * PY m f w.
Proof.
  intros. rewrite combo_2. unfold PY. rewrite sin_plus, cos_2a, sin_2a.
  transitivity ((m + d w) ^ 2 * ((sin f * cos (p w) + cos f * sin (p w)) * (sin f * cos (p w) + cos f * sin (p w)))); [|ring].
  f_equal. generalize (trig2' f) (trig2' (p w)). intros A B.
  transitivity (/ 2 - (cos f * cos f - sin f * sin f) / 2 * (cos (p w) * cos (p w) - sin (p w) * sin (p w)) + sin f * cos f * (2 * sin (p w) * cos (p w))); [field|].
  transitivity (sin f * sin f * (cos (p w) * cos (p w)) + cos f * cos f * (sin (p w) * sin (p w)) + 2 * sin f * cos f * (sin (p w) * cos (p w))); [|ring].
  rewrite A, B. field.
Qed.
Lemma combo_xy : forall m f w, combo (l2 m 0 (sin f * cos f) ((cos f * cos f - sin f * sin f) / 2)) w = PX m f w * PY m f w.
Proof.
  intros. rewrite combo_2. unfold PX, PY. rewrite sin_plus, cos_plus, cos_2a, sin_2a. field.
Qed.

Lemma cov_is : forall X Y lX lY lXY, okc (lX 1) -> okc (lY 1) -> okc lXY ->
  (forall a, okc (lX a)) -> (forall a, okc (lY a)) ->
  (forall a w, combo (lX a) w = a * X w) -> (forall a w, combo (lY a) w = a * Y w) -> (forall w, combo lXY w = X w * Y w) ->
  (forall a, eval (lX a) = a * eval (lX 1)) -> (forall a, eval (lY a) = a * eval (lY 1)) ->
  cov P X Y = eval lXY - eval (lX 1) * eval (lY 1).
Proof.
  intros X Y lX lY lXY O1 O2 O3 OX OY EX EY EXY SX SY.
  assert (MX : Ex P X = eval (lX 1)) by (apply Ex_is; auto; intro; rewrite EX; ring).
  assert (MY : Ex P Y = eval (lY 1)) by (apply Ex_is; auto; intro; rewrite EY; ring).
  unfold cov. rewrite MX, MY. set (a := eval (lX 1)). set (b := eval (lY 1)).
  destruct (Ex_is (fun w => (X w - a) * (Y w - b)) (lXY ++ lX (- b) ++ lY (- a) ++ [(a * b, 0%nat, 0%nat)])) as [_ ->].
  - unfold okc. rewrite !Forall_app. repeat split; auto; try apply OX; try apply OY. repeat constructor.
  - intro w. rewrite !combo_app, EX, EY, EXY. unfold combo, hh. cbn [fold_right fst snd nth hs]. ring.
  - rewrite !eval_app, SX, SY. fold a b. unfold eval. cbn [fold_right fst snd mom chr]. ring.
Qed.

Lemma eval_lx : forall a m c1 s1, eval (lx a m c1 s1) = a * (m * c1 * exp (- s / 2)).
Proof. intros. unfold lx, eval. cbn [fold_right fst snd mom chr]. ring. Qed.
Lemma eval_l2 : forall m al be ga, eval (l2 m al be ga) = (m ^ 2 + v) * (al + be * (exp (- s) * exp (- s))).
Proof. intros. unfold l2, eval. cbn [fold_right fst snd mom chr]. rewrite exp_2'. ring. Qed.

Lemma lx_scale : forall m c1 s1 a, eval (lx a m c1 s1) = a * eval (lx 1 m c1 s1).
Proof. intros. rewrite !eval_lx. ring. Qed.

Let q := exp (- s).

Lemma half_sq : exp (- s / 2) * exp (- s / 2) = q.
Proof. apply exp_sq. Qed.

(** variance and covariance of the perturbed phasor, in the rotated form *)
Lemma var_real : forall m f, var P (PX m f) = cos f ^ 2 * exact_R (m ^ 2) v q + sin f ^ 2 * exact_T (m ^ 2) v q.
Proof.
  intros. unfold var. rewrite (cov_is _ _ (fun a => lx a m (cos f) (sin f)) (fun a => lx a m (cos f) (sin f)) _
    (okc_lx _ _ _ _) (okc_lx _ _ _ _) (okc_l2 _ _ _ _) (fun a => okc_lx _ _ _ _) (fun a => okc_lx _ _ _ _)
    (fun a => combo_x a m f) (fun a => combo_x a m f) (combo_xx m f) (lx_scale m _ _) (lx_scale m _ _)).
  rewrite eval_l2, eval_lx. fold q. unfold exact_R, exact_T.
  transitivity ((m ^ 2 + v) * (/ 2 + (cos f * cos f - sin f * sin f) / 2 * (q * q)) - m * m * (cos f * cos f) * (exp (- s / 2) * exp (- s / 2))); [ring|].
  rewrite half_sq. replace (/ 2) with ((cos f ^ 2 + sin f ^ 2) / 2) by (rewrite trig2; field). field.
Qed.
Lemma var_imag : forall m f, var P (PY m f) = sin f ^ 2 * exact_R (m ^ 2) v q + cos f ^ 2 * exact_T (m ^ 2) v q.
Proof.
  intros. unfold var. rewrite (cov_is _ _ (fun a => lx a m (sin f) (- cos f)) (fun a => lx a m (sin f) (- cos f)) _
    (okc_lx _ _ _ _) (okc_lx _ _ _ _) (okc_l2 _ _ _ _) (fun a => okc_lx _ _ _ _) (fun a => okc_lx _ _ _ _)
    (fun a => combo_y a m f) (fun a => combo_y a m f) (combo_yy m f) (lx_scale m _ _) (lx_scale m _ _)).
  rewrite eval_l2, eval_lx. fold q. unfold exact_R, exact_T.
  transitivity ((m ^ 2 + v) * (/ 2 - (cos f * cos f - sin f * sin f) / 2 * (q * q)) - m * m * (sin f * sin f) * (exp (- s / 2) * exp (- s / 2))); [field|].
  rewrite half_sq. replace (/ 2) with ((cos f ^ 2 + sin f ^ 2) / 2) by (rewrite trig2; field). field.
Qed.
Lemma cov_ri : forall m f, cov P (PX m f) (PY m f) = sin f * cos f * (exact_R (m ^ 2) v q - exact_T (m ^ 2) v q).
Proof.
  intros. rewrite (cov_is _ _ (fun a => lx a m (cos f) (sin f)) (fun a => lx a m (sin f) (- cos f)) _
    (okc_lx _ _ _ _) (okc_lx _ _ _ _) (okc_l2 _ _ _ _) (fun a => okc_lx _ _ _ _) (fun a => okc_lx _ _ _ _)
    (fun a => combo_x a m f) (fun a => combo_y a m f) (combo_xy m f) (lx_scale m _ _) (lx_scale m _ _)).
  rewrite eval_l2, !eval_lx. fold q. unfold exact_R, exact_T.
  transitivity ((m ^ 2 + v) * (sin f * cos f * (q * q)) - m * m * (sin f * cos f) * (exp (- s / 2) * exp (- s / 2))); [ring|].
  rewrite half_sq. field.
Qed.

(** ** Expectation of functions of the noise-free phasor *)
(** (m - d)^2 cos^2 (f - p) etc., with coefficients *)
Definition la (m A B al be ga : R) : list (R * nat * nat) :=
  [(A * (m * m) * al + B * al, 0%nat, 0%nat); (A * (m * m) * be + B * be, 0%nat, 3%nat); (A * (m * m) * ga + B * ga, 0%nat, 4%nat);
   (- (2 * A * m * al), 1%nat, 0%nat); (- (2 * A * m * be), 1%nat, 3%nat); (- (2 * A * m * ga), 1%nat, 4%nat);
   (A * al, 2%nat, 0%nat); (A * be, 2%nat, 3%nat); (A * ga, 2%nat, 4%nat)].
Lemma combo_a : forall m A B al be ga w,
  combo (la m A B al be ga) w = (A * (m - d w) ^ 2 + B) * (al + be * cos (2 * p w) + ga * sin (2 * p w)).
Proof. intros. unfold la, combo, hh. cbn [fold_right fst snd nth hs]. ring. Qed.
Lemma eval_a : forall m A B al be ga, eval (la m A B al be ga) = (A * (m ^ 2 + v) + B) * (al + be * (q * q)).
Proof. intros. unfold la, eval. cbn [fold_right fst snd mom chr]. rewrite exp_2'. fold q. ring. Qed.
Lemma okc_a : forall m A B al be ga, okc (la m A B al be ga).
Proof. intros. repeat constructor. Qed.

Lemma cos_sq_shift : forall f x, cos (f - x) ^ 2 = / 2 + (cos f * cos f - sin f * sin f) / 2 * cos (2 * x) + sin f * cos f * sin (2 * x).
Proof.
  intros. rewrite cos_minus, cos_2a, sin_2a. generalize (trig2' f) (trig2' x). intros A B.
  transitivity (cos f * cos f * (cos x * cos x) + sin f * sin f * (sin x * sin x) + 2 * sin f * cos f * (sin x * cos x)); [ring|].
  rewrite A, B. field.
Qed.
Lemma sin_sq_shift : forall f x, sin (f - x) ^ 2 = / 2 + (- (cos f * cos f - sin f * sin f) / 2) * cos (2 * x) + - (sin f * cos f) * sin (2 * x).
Proof.
  intros. rewrite sin_minus, cos_2a, sin_2a. generalize (trig2' f) (trig2' x). intros A B.
  transitivity (sin f * sin f * (cos x * cos x) + cos f * cos f * (sin x * sin x) - 2 * sin f * cos f * (sin x * cos x)); [ring|].
  rewrite A, B. field.
Qed.
Lemma sc_shift : forall f x, sin (f - x) * cos (f - x) = 0 + sin f * cos f * cos (2 * x) + - ((cos f * cos f - sin f * sin f) / 2) * sin (2 * x).
Proof. intros. rewrite cos_minus, sin_minus, cos_2a, sin_2a. field. Qed.

(** coefficients of m^2 and 1 in exact_R and exact_T *)
Definition aR := (1 + q * q) / 2 - q.
Definition bR := v * (1 + q * q) / 2.
Definition aT := (1 - q * q) / 2.
Definition bT := v * (1 - q * q) / 2.
Lemma exact_R_lin : forall m2, exact_R m2 v q = aR * m2 + bR.
Proof. intros. unfold exact_R, aR, bR. field. Qed.
Lemma exact_T_lin : forall m2, exact_T m2 v q = aT * m2 + bT.
Proof. intros. unfold exact_T, aT, bT. field. Qed.

Lemma Ex_real : forall m f X,
  (forall w, X w = cos (f - p w) ^ 2 * exact_R ((m - d w) ^ 2) v q + sin (f - p w) ^ 2 * exact_T ((m - d w) ^ 2) v q) ->
  Ex P X = cos f ^ 2 * avg_R (m ^ 2) v q + sin f ^ 2 * avg_T (m ^ 2) v q.
Proof.
  intros m f X HX. set (C2 := (cos f * cos f - sin f * sin f) / 2).
  destruct (Ex_is X (la m aR bR (/ 2) C2 (sin f * cos f) ++ la m aT bT (/ 2) (- C2) (- (sin f * cos f)))) as [_ ->].
  - unfold okc. rewrite Forall_app. split; apply okc_a.
  - intro w. rewrite HX, combo_app, !combo_a, cos_sq_shift, sin_sq_shift, exact_R_lin, exact_T_lin. unfold C2. field.
  - rewrite eval_app, !eval_a. unfold avg_R, avg_T, aR, bR, aT, bT, C2.
    replace (/ 2) with ((cos f ^ 2 + sin f ^ 2) / 2) by (rewrite trig2; field). field.
Qed.
Lemma Ex_imag : forall m f X,
  (forall w, X w = sin (f - p w) ^ 2 * exact_R ((m - d w) ^ 2) v q + cos (f - p w) ^ 2 * exact_T ((m - d w) ^ 2) v q) ->
  Ex P X = sin f ^ 2 * avg_R (m ^ 2) v q + cos f ^ 2 * avg_T (m ^ 2) v q.
Proof.
  intros m f X HX. set (C2 := (cos f * cos f - sin f * sin f) / 2).
  destruct (Ex_is X (la m aT bT (/ 2) C2 (sin f * cos f) ++ la m aR bR (/ 2) (- C2) (- (sin f * cos f)))) as [_ ->].
  - unfold okc. rewrite Forall_app. split; apply okc_a.
  - intro w. rewrite HX, combo_app, !combo_a, cos_sq_shift, sin_sq_shift, exact_R_lin, exact_T_lin. unfold C2. field.
  - rewrite eval_app, !eval_a. unfold avg_R, avg_T, aR, bR, aT, bT, C2.
    replace (/ 2) with ((cos f ^ 2 + sin f ^ 2) / 2) by (rewrite trig2; field). field.
Qed.
Lemma Ex_ri : forall m f X,
  (forall w, X w = sin (f - p w) * cos (f - p w) * (exact_R ((m - d w) ^ 2) v q - exact_T ((m - d w) ^ 2) v q)) ->
  Ex P X = sin f * cos f * (avg_R (m ^ 2) v q - avg_T (m ^ 2) v q).
Proof.
  intros m f X HX. set (C2 := (cos f * cos f - sin f * sin f) / 2).
  destruct (Ex_is X (la m (aR - aT) (bR - bT) 0 (sin f * cos f) (- C2))) as [_ ->].
  - apply okc_a.
  - intro w. rewrite HX, combo_a, sc_shift, exact_R_lin, exact_T_lin. unfold C2. field.
  - rewrite eval_a. unfold avg_R, avg_T, aR, bR, aT, bT. field.
Qed.
End Combo.

(** ** The matrices *)
Lemma stacked_cov : forall W (P : expectation W) T n M vr vi cri X Y, stacked T n M vr vi cri ->
  (forall t i, (t < T)%nat -> (i < n)%nat -> vr t i = var P (X t i) /\ vi t i = var P (Y t i) /\ cri t i = cov P (X t i) (Y t i)) ->
  (forall t i t' i', (t < T)%nat -> (i < n)%nat -> (t' < T)%nat -> (i' < n)%nat -> (t, i) <> (t', i') ->
     cov P (X t i) (X t' i') = 0 /\ cov P (X t i) (Y t' i') = 0 /\ cov P (Y t i) (X t' i') = 0 /\ cov P (Y t i) (Y t' i') = 0) ->
  (forall t i, (t < T)%nat -> (i < n)%nat -> cov P (Y t i) (X t i) = cov P (X t i) (Y t i)) ->
  covariance_matrix_of P T n M X Y.
Proof.
  intros W P T n M vr vi cri X Y [Hsh H] HV HC HY. split; auto.
  intros t i t' i' Ht Hi Ht' Hi'. cbv zeta. specialize (H t i t' i' Ht Hi Ht' Hi'). cbv zeta in H. destruct H as (H1 & H2 & H3 & H4).
  rewrite H1, H2, H3, H4.
  destruct ((t =? t')%nat && (i =? i')%nat)%bool eqn:Eb.
  - apply andb_true_iff in Eb. destruct Eb as [E1 E2]. apply Nat.eqb_eq in E1, E2. subst t' i'.
    destruct (HV t i Ht Hi) as (-> & -> & ->). rewrite HY by auto. auto.
  - destruct (HC t i t' i') as (-> & -> & -> & ->); auto.
    intro Q. injection Q as -> ->. rewrite !Nat.eqb_refl in Eb. discriminate.
Qed.

Lemma cov_indep : forall W (P : expectation W) d p d' p' g g', independent P d p d' p' ->
  integrable P (fun w => g (d w) (p w)) -> integrable P (fun w => g' (d' w) (p' w)) ->
  cov P (fun w => g (d w) (p w)) (fun w => g' (d' w) (p' w)) = 0.
Proof.
  intros W P d p d' p' g g' HI I1 I2. unfold cov.
  set (a := Ex P (fun w => g (d w) (p w))). set (b := Ex P (fun w => g' (d' w) (p' w))).
  destruct (Ex_one _ P) as [J1 E1].
  assert (SH : forall X c, integrable P X -> integrable P (fun w => X w - c) /\ Ex P (fun w => X w - c) = Ex P X - c).
  { intros X c IX. destruct (Ex_scal _ P (- c) _ J1) as [J2 E2]. destruct (Ex_add _ P _ _ IX J2) as [J3 E3].
    destruct (Ex_ext _ P _ (fun w => X w - c) ltac:(intro w; cbv beta; instantiate (1 := fun w => X w + - c * 1); cbv beta; ring) J3) as [J4 E4].
    split; auto. rewrite <- E4, E3, E2, E1. ring. }
  destruct (SH _ a I1) as [K1 M1]. destruct (SH _ b I2) as [K2 M2].
  destruct (HI (fun x y => g x y - a) (fun x y => g' x y - b) K1 K2) as [_ ->]. rewrite M1, M2. unfold a, b. ring.
Qed.

Lemma cov_comm : forall W (P : expectation W) X Y, integrable P (fun w => (X w - Ex P X) * (Y w - Ex P Y)) -> cov P Y X = cov P X Y.
Proof.
  intros W P X Y I. unfold cov. symmetry. apply Ex_ext; auto. intro w. ring.
Qed.

Section NoiseFam.
Context {W : Type} (P : expectation W) (d p : nat -> nat -> W -> R) (T n : nat) (sd : nat -> R) (sp : R).
Hypothesis HN : forall t i, (t < T)%nat -> (i < n)%nat -> polar_noise P (d t i) (p t i) (sd i ^ 2) (sp ^ 2).

Lemma PX_int : forall t i m f, (t < T)%nat -> (i < n)%nat -> integrable P (noisy_re m f (d t i) (p t i)).
Proof.
  intros t i m f Ht Hi. apply (Ex_is P _ _ _ _ (HN t i Ht Hi) _ (lx 1 m (cos f) (sin f))); [apply okc_lx|].
  intro w. rewrite combo_x. unfold PX, noisy_re. ring.
Qed.
Lemma PY_int : forall t i m f, (t < T)%nat -> (i < n)%nat -> integrable P (noisy_im m f (d t i) (p t i)).
Proof.
  intros t i m f Ht Hi. apply (Ex_is P _ _ _ _ (HN t i Ht Hi) _ (lx 1 m (sin f) (- cos f))); [apply okc_lx|].
  intro w. rewrite combo_y. unfold PY, noisy_im. ring.
Qed.
Lemma PXY_int : forall t i m f a b, (t < T)%nat -> (i < n)%nat ->
  integrable P (fun w => (noisy_re m f (d t i) (p t i) w - a) * (noisy_im m f (d t i) (p t i) w - b)).
Proof.
  intros t i m f a b Ht Hi.
  apply (Ex_is P _ _ _ _ (HN t i Ht Hi) _ (l2 m 0 (sin f * cos f) ((cos f * cos f - sin f * sin f) / 2) ++ lx (- b) m (cos f) (sin f)
     ++ lx (- a) m (sin f) (- cos f) ++ [(a * b, 0%nat, 0%nat)])).
  - unfold okc. rewrite !Forall_app. split; [apply okc_l2|split; [apply okc_lx|split; [apply okc_lx|repeat constructor]]].
  - intro w. rewrite !combo_app, combo_x, combo_y, combo_xy. unfold combo, hh. cbn [fold_right fst snd nth hs].
    unfold noisy_re, noisy_im, PX, PY. ring.
Qed.

Theorem exact_covariance : forall M sda m f, nr M = T -> nc M = n -> sd_means n sda sd ->
  (forall t i t' i', (t < T)%nat -> (i < n)%nat -> (t' < T)%nat -> (i' < n)%nat -> (t, i) <> (t', i') ->
     independent P (d t i) (p t i) (d t' i') (p t' i')) ->
  (forall t i, (t < T)%nat -> (i < n)%nat -> polar (get M t i) (m t i) (f t i)) ->
  exists S Q, exact_noise_covariance M sda sp false = Ok S /\ finite S Q /\
    covariance_matrix_of P T n Q (fun t i => noisy_re (m t i) (f t i) (d t i) (p t i)) (fun t i => noisy_im (m t i) (f t i) (d t i) (p t i)).
Proof.
  intros M sda m f ET En Hs HI HP. assert (Hs1 : sd_means (nc M) sda sd) by (rewrite En; auto).
  destruct (covariance_stacked exact_column exact_all M sda sp sd exact_same Hs1) as (S & Q & E & Fi & St).
  rewrite ET, En in St.
  exists S, Q. split; [exact E|]. split; auto. apply (stacked_cov _ _ _ _ _ _ _ _ _ _ St).
  - intros t i Ht Hi. destruct (polar_same _ _ _ (HP t i Ht Hi)) as (A & B & D & F).
    destruct (exact_column_rot (get M t i) (sd i) sp) as (-> & -> & ->). rewrite <- A, <- B, <- D, <- F.
    split; [|split]; symmetry.
    + exact (var_real P _ _ _ _ (HN t i Ht Hi) (m t i) (f t i)).
    + exact (var_imag P _ _ _ _ (HN t i Ht Hi) (m t i) (f t i)).
    + exact (cov_ri P _ _ _ _ (HN t i Ht Hi) (m t i) (f t i)).
  - intros t i t' i' Ht Hi Ht' Hi' Ne. specialize (HI t i t' i' Ht Hi Ht' Hi' Ne).
    repeat split.
    + apply (cov_indep _ _ _ _ _ _ (fun x y => (m t i + x) * cos (f t i + y)) (fun x y => (m t' i' + x) * cos (f t' i' + y)) HI); apply PX_int; auto.
    + apply (cov_indep _ _ _ _ _ _ (fun x y => (m t i + x) * cos (f t i + y)) (fun x y => (m t' i' + x) * sin (f t' i' + y)) HI); [apply PX_int|apply PY_int]; auto.
    + apply (cov_indep _ _ _ _ _ _ (fun x y => (m t i + x) * sin (f t i + y)) (fun x y => (m t' i' + x) * cos (f t' i' + y)) HI); [apply PY_int|apply PX_int]; auto.
    + apply (cov_indep _ _ _ _ _ _ (fun x y => (m t i + x) * sin (f t i + y)) (fun x y => (m t' i' + x) * sin (f t' i' + y)) HI); apply PY_int; auto.
  - intros t i Ht Hi. apply cov_comm. apply PXY_int; auto.
Qed.

(** expectation, over the noise [w] that led to the measurement, of the covariance of the
    measurement [w'] of the corresponding noise-free phasor *)
Theorem average_covariance : forall M sda m f, nr M = T -> nc M = n -> sd_means n sda sd ->
  (forall t i, (t < T)%nat -> (i < n)%nat -> polar (get M t i) (m t i) (f t i)) ->
  exists S Q vr vi cri, average_true_noise_covariance M sda sp false = Ok S /\ finite S Q /\ stacked T n Q vr vi cri /\
    forall t i, (t < T)%nat -> (i < n)%nat ->
    let X w := noisy_re (m t i - d t i w) (f t i - p t i w) (d t i) (p t i) in
    let Y w := noisy_im (m t i - d t i w) (f t i - p t i w) (d t i) (p t i) in
    vr t i = Ex P (fun w => var P (X w)) /\ vi t i = Ex P (fun w => var P (Y w)) /\ cri t i = Ex P (fun w => cov P (X w) (Y w)).
Proof.
  intros M sda m f ET En Hs HP. assert (Hs1 : sd_means (nc M) sda sd) by (rewrite En; auto).
  destruct (covariance_stacked average_kernel average_kernel M sda sp sd average_same Hs1) as (S & Q & E & Fi & St).
  rewrite ET, En in St.
  exists S, Q. do 3 eexists. split; [exact E|]. split; auto. split; [exact St|].
  intros t i Ht Hi X Y. destruct (polar_same _ _ _ (HP t i Ht Hi)) as (A & B & D & F).
  destruct (average_rot (get M t i) (sd i) sp) as (-> & -> & ->). rewrite <- A, <- B, <- D, <- F.
  split; [|split]; symmetry.
  - apply (Ex_real P _ _ _ _ (HN t i Ht Hi)). intro w. exact (var_real P _ _ _ _ (HN t i Ht Hi) (m t i - d t i w) (f t i - p t i w)).
  - apply (Ex_imag P _ _ _ _ (HN t i Ht Hi)). intro w. exact (var_imag P _ _ _ _ (HN t i Ht Hi) (m t i - d t i w) (f t i - p t i w)).
  - apply (Ex_ri P _ _ _ _ (HN t i Ht Hi)). intro w. exact (cov_ri P _ _ _ _ (HN t i Ht Hi) (m t i - d t i w) (f t i - p t i w)).
Qed.

Theorem average_of_exact : forall M sda m f Z SZ QZ, nr M = T -> nc M = n -> sd_means n sda sd ->
  (forall t i, (t < T)%nat -> (i < n)%nat -> polar (get M t i) (m t i) (f t i)) ->
  (forall w, nr (Z w) = T /\ nc (Z w) = n) ->
  (forall w t i, (t < T)%nat -> (i < n)%nat -> polar (get (Z w) t i) (m t i - d t i w) (f t i - p t i w)) ->
  (forall w, exact_noise_covariance (Z w) sda sp false = Ok (SZ w) /\ finite (SZ w) (QZ w)) ->
  exists S Q, average_true_noise_covariance M sda sp false = Ok S /\ finite S Q /\
    forall a b, (a < 2 * (T * n))%nat -> (b < 2 * (T * n))%nat -> get Q a b = Ex P (fun w => get (QZ w) a b).
Proof.
  intros M sda m f Z SZ QZ ET En Hs HP HZ HPZ HE.
  assert (Hs1 : sd_means (nc M) sda sd) by (rewrite En; auto).
  destruct (covariance_stacked average_kernel average_kernel M sda sp sd average_same Hs1) as (S & Q & E & Fi & St).
  rewrite ET, En in St.
  exists S, Q. split; [exact E|]. split; auto.
  assert (QS : forall w, stacked T n (QZ w) (fun t i => k_real exact_column (get (Z w) t i) (sd i) sp)
    (fun t i => k_imag exact_column (get (Z w) t i) (sd i) sp) (fun t i => k_cov exact_column (get (Z w) t i) (sd i) sp)).
  { intro w. destruct (HZ w) as [Z1 Z2]. assert (Hs2 : sd_means (nc (Z w)) sda sd) by (rewrite Z2; auto).
    destruct (covariance_stacked exact_column exact_all (Z w) sda sp sd exact_same Hs2) as (S1 & Q1 & E1 & F1 & T1).
    destruct (HE w) as [E2 F2]. unfold exact_noise_covariance in E2. rewrite E1 in E2. injection E2 as ->.
    destruct F1 as [_ F1]. destruct F2 as [_ F2]. rewrite F1 in F2. apply mmap_fin_inj in F2. rewrite <- F2. rewrite Z1, Z2 in T1. exact T1. }
  assert (Z0 : Ex P (fun _ => 0) = 0) by apply Ex_zero.
  assert (KR : forall t i, (t < T)%nat -> (i < n)%nat ->
    k_real average_kernel (get M t i) (sd i) sp = Ex P (fun w => k_real exact_column (get (Z w) t i) (sd i) sp) /\
    k_imag average_kernel (get M t i) (sd i) sp = Ex P (fun w => k_imag exact_column (get (Z w) t i) (sd i) sp) /\
    k_cov average_kernel (get M t i) (sd i) sp = Ex P (fun w => k_cov exact_column (get (Z w) t i) (sd i) sp)).
  { intros t i Ht Hi. destruct (polar_same _ _ _ (HP t i Ht Hi)) as (A & B & D & F).
    destruct (average_rot (get M t i) (sd i) sp) as (-> & -> & ->). rewrite <- A, <- B, <- D, <- F.
    assert (G : forall w, rotated (cos (f t i - p t i w) ^ 2) (sin (f t i - p t i w) ^ 2) (sin (f t i - p t i w) * cos (f t i - p t i w))
       (exact_R ((m t i - d t i w) ^ 2) (sd i ^ 2) (exp (- sp ^ 2))) (exact_T ((m t i - d t i w) ^ 2) (sd i ^ 2) (exp (- sp ^ 2)))
       (k_real exact_column (get (Z w) t i) (sd i) sp) (k_imag exact_column (get (Z w) t i) (sd i) sp) (k_cov exact_column (get (Z w) t i) (sd i) sp)).
    { intro w. destruct (polar_same _ _ _ (HPZ w t i Ht Hi)) as (-> & -> & -> & ->). apply exact_column_rot. }
    split; [|split]; symmetry.
    - apply (Ex_real P _ _ _ _ (HN t i Ht Hi)). intro w. apply G.
    - apply (Ex_imag P _ _ _ _ (HN t i Ht Hi)). intro w. apply G.
    - apply (Ex_ri P _ _ _ _ (HN t i Ht Hi)). intro w. apply G. }
  set (N := (T * n)%nat).
  assert (CA : forall a, (a < 2 * N)%nat -> exists t i, (t < T)%nat /\ (i < n)%nat /\ (a = i * T + t \/ a = N + (i * T + t))%nat).
  { intros a Ha. destruct (lt_dec a N) as [L|L].
    - destruct (idx_split T n a L) as (t & i & Ht & Hi & ->). eauto 6.
    - destruct (idx_split T n (a - N)) as (t & i & Ht & Hi & E'); [fold N; lia|]. exists t, i. repeat split; auto. right. lia. }
  assert (FX : forall X Y, (forall w, Y w = X w) -> integrable P X -> Ex P X = Ex P Y).
  { intros X Y H I. apply Ex_ext; auto. }
  assert (IN : forall t i, (t < T)%nat -> (i < n)%nat -> True) by auto.
  intros a b Ha Hb. destruct (CA a Ha) as (t & i & Ht & Hi & Ca). destruct (CA b Hb) as (t' & i' & Ht' & Hi' & Cb).
  destruct St as [_ St]. specialize (St t i t' i' Ht Hi Ht' Hi'). cbv zeta in St. fold N in St.
  assert (QS' := fun w => proj2 (QS w) t i t' i' Ht Hi Ht' Hi'). cbv zeta in QS'. fold N in QS'.
  destruct St as (H1 & H2 & H3 & H4). destruct (KR t i Ht Hi) as (K1 & K2 & K3). rewrite K1 in H1. rewrite K2 in H2. rewrite K3 in H3, H4.
  destruct ((t =? t')%nat && (i =? i')%nat)%bool.
  - destruct Ca as [->| ->]; destruct Cb as [->| ->]; rewrite ?H1, ?H2, ?H3, ?H4;
      f_equal; apply FunctionalExtensionality.functional_extensionality; intro w; destruct (QS' w) as (G1 & G2 & G3 & G4); congruence.
  - destruct Ca as [->| ->]; destruct Cb as [->| ->]; rewrite ?H1, ?H2, ?H3, ?H4; rewrite <- Z0 at 1;
      f_equal; apply FunctionalExtensionality.functional_extensionality; intro w; destruct (QS' w) as (G1 & G2 & G3 & G4); congruence.
Qed.
End NoiseFam.

(** ** Linearisation *)
Lemma lin_deriv : forall c m, derivable_pt_lim (fun x => x * c) m c.
Proof.
  intros c m. assert (H : derivable_pt_lim (id * fct_cte c)%F m (1 * fct_cte c m + id m * 0)).
  { apply derivable_pt_lim_mult; [apply derivable_pt_lim_id|apply derivable_pt_lim_const]. }
  unfold fct_cte, id in H. replace (1 * c + m * 0) with c in H by ring. exact H.
Qed.
Theorem naive_linearised : forall M sda sp sd, sd_means (nc M) sda sd ->
  exists S Q vr vi cri, naive_noise_covariance M sda sp false = Ok S /\ finite S Q /\ stacked (nr M) (nc M) Q vr vi cri /\
    forall t i m f j11 j12 j21 j22, (t < nr M)%nat -> (i < nc M)%nat -> polar (get M t i) m f -> polar_jacobian m f j11 j12 j21 j22 ->
    vr t i = j11 ^ 2 * sd i ^ 2 + j12 ^ 2 * sp ^ 2 /\ vi t i = j21 ^ 2 * sd i ^ 2 + j22 ^ 2 * sp ^ 2 /\
    cri t i = j11 * j21 * sd i ^ 2 + j12 * j22 * sp ^ 2.
Proof.
  intros M sda sp sd Hs.
  destruct (covariance_stacked naive_column naive_all M sda sp sd naive_same Hs) as (S & Q & E & Fi & St).
  exists S, Q. do 3 eexists. split; [exact E|]. split; auto. split; [exact St|].
  intros t i m f j11 j12 j21 j22 Ht Hi HP [J1 J2 J3 J4]. destruct (polar_same _ _ _ HP) as (A & B & D & F).
  destruct (naive_column_rot (get M t i) (sd i) sp) as (-> & -> & ->). rewrite <- A, <- B, <- D, <- F.
  assert (j11 = cos f) as ->.
  { apply (uniqueness_limite (fun x => x * cos f) m); auto. apply lin_deriv. }
  assert (j21 = sin f) as ->.
  { apply (uniqueness_limite (fun x => x * sin f) m); auto. apply lin_deriv. }
  assert (j12 = m * - sin f) as ->.
  { apply (uniqueness_limite (fun x => m * cos x) f); auto. exact (derivable_pt_lim_scal cos m f _ (derivable_pt_lim_cos f)). }
  assert (j22 = m * cos f) as ->.
  { apply (uniqueness_limite (fun x => m * sin x) f); auto. exact (derivable_pt_lim_scal sin m f _ (derivable_pt_lim_sin f)). }
  repeat split; ring.
Qed.
Lemma jacobian_exists : forall m f, polar_jacobian m f (cos f) (m * - sin f) (sin f) (m * cos f).
Proof.
  intros m f. split.
  - apply lin_deriv.
  - exact (derivable_pt_lim_scal cos m f _ (derivable_pt_lim_cos f)).
  - apply lin_deriv.
  - exact (derivable_pt_lim_scal sin m f _ (derivable_pt_lim_sin f)).
Qed.
