(** Noise distributions with finitely many values that have the moments asked for in
    [polar_noise], for every pair of variances: the hypotheses of the covariance theorems
    can be met. *)
From Coq Require Import Arith Lia List Bool Reals Lra Psatz.
From Verif Require Import BasePy BaseFld BaseSum BaseMat ModelErrorMetrics ModelNoiseCov SpecNoise ProofNoiseCov.
Import ListNotations.
Local Open Scope R_scope.

Definition wsum {W} (l : list (R * W)) (X : W -> R) : R := fold_right (fun a s => fst a * X (snd a) + s) 0 l.

Lemma wsum_ext : forall W (l : list (R * W)) X Y, (forall w, X w = Y w) -> wsum l X = wsum l Y.
Proof. induction l as [|a l IH]; intros X Y H; cbn; auto. fold (wsum l X) (wsum l Y). rewrite H, (IH X Y H). reflexivity. Qed.
Lemma wsum_add : forall W (l : list (R * W)) X Y, wsum l (fun w => X w + Y w) = wsum l X + wsum l Y.
Proof. induction l as [|a l IH]; intros X Y; cbn; [ring|]. fold (wsum l X) (wsum l Y) (wsum l (fun w => X w + Y w)). rewrite IH. ring. Qed.
Lemma wsum_scal : forall W (l : list (R * W)) c X, wsum l (fun w => c * X w) = c * wsum l X.
Proof. induction l as [|a l IH]; intros c X; cbn; [ring|]. fold (wsum l X) (wsum l (fun w => c * X w)). rewrite IH. ring. Qed.

Definition fin_exp {W} (l : list (R * W)) (H : wsum l (fun _ => 1) = 1) : expectation W.
Proof.
  refine (mkExpectation W (fun _ => True) (wsum l) _ _ _ _).
  - intros X Y E _. split; auto. apply wsum_ext; auto.
  - intros X Y _ _. split; auto. apply wsum_add.
  - intros a X _. split; auto. apply wsum_scal.
  - split; auto.
Defined.

Definition wprod {U V} (l : list (R * U)) (m : list (R * V)) : list (R * (U * V)) :=
  flat_map (fun a => map (fun b => (fst a * fst b, (snd a, snd b))) m) l.

Lemma wsum_app : forall W (l l' : list (R * W)) X, wsum (l ++ l') X = wsum l X + wsum l' X.
Proof. unfold wsum. induction l as [|a l IH]; intros l' X; cbn [app fold_right]; [ring|]. rewrite IH. ring. Qed.

Lemma wsum_prod : forall U V (l : list (R * U)) (m : list (R * V)) X Y,
  wsum (wprod l m) (fun w => X (fst w) * Y (snd w)) = wsum l X * wsum m Y.
Proof.
  intros U V l m X Y. induction l as [|a l IH]; cbn [wprod flat_map]; [cbn; ring|].
  rewrite wsum_app. fold (wprod l m). rewrite IH. cbn [wsum fold_right]. fold (wsum l X).
  assert (E : wsum (map (fun b => (fst a * fst b, (snd a, snd b))) m) (fun w => X (fst w) * Y (snd w)) = fst a * X (snd a) * wsum m Y).
  { clear. induction m as [|b m IH]; cbn; [ring|]. fold (wsum m Y).
    fold (wsum (map (fun b => (fst a * fst b, (snd a, snd b))) m) (fun w => X (fst w) * Y (snd w))). rewrite IH. ring. }
  rewrite E. ring.
Qed.
Lemma wprod_one : forall U V (l : list (R * U)) (m : list (R * V)), wsum l (fun _ => 1) = 1 -> wsum m (fun _ => 1) = 1 ->
  wsum (wprod l m) (fun _ => 1) = 1.
Proof.
  intros U V l m H1 H2. rewrite (wsum_ext _ _ (fun _ => 1) (fun w => (fun _ => 1) (fst w) * (fun _ => 1) (snd w))) by (intros; ring).
  rewrite (wsum_prod _ _ l m (fun _ => 1) (fun _ => 1)), H1, H2. ring.
Qed.
Lemma wsum_fst : forall U V (l : list (R * U)) (m : list (R * V)) X, wsum m (fun _ => 1) = 1 -> wsum (wprod l m) (fun w => X (fst w)) = wsum l X.
Proof.
  intros U V l m X H. rewrite (wsum_ext _ _ _ (fun w => X (fst w) * (fun _ => 1) (snd w))) by (intros; ring). rewrite (wsum_prod _ _ l m X (fun _ => 1)), H. ring.
Qed.
Lemma wsum_snd : forall U V (l : list (R * U)) (m : list (R * V)) X, wsum l (fun _ => 1) = 1 -> wsum (wprod l m) (fun w => X (snd w)) = wsum m X.
Proof.
  intros U V l m X H. rewrite (wsum_ext _ _ _ (fun w => (fun _ => 1) (fst w) * X (snd w))) by (intros; ring). rewrite (wsum_prod _ _ l m (fun _ => 1) X), H. ring.
Qed.

(** magnitude: +-sd with probability 1/2; phase: 0, +-a *)
Definition atoms_mag (sd : R) : list (R * R) := [(/ 2, sd); (/ 2, - sd)].
Definition ph_c (s : R) := exp (- s / 2).
Definition ph_cos (s : R) := (ph_c s + ph_c s * ph_c s + ph_c s * ph_c s * ph_c s - 1) / 2.
Definition ph_p (s : R) := (1 - ph_c s) / (1 - ph_cos s).
Definition atoms_ph (s : R) : list (R * R) :=
  [(1 - ph_p s, 0); (ph_p s / 2, acos (ph_cos s)); (ph_p s / 2, - acos (ph_cos s))].

Section Phase.
Variable s : R.
Hypothesis Hs : 0 < s.
Lemma ph_c_range : 0 < ph_c s < 1.
Proof. split; [apply exp_pos|]. unfold ph_c. assert (X : exp (- s / 2) < exp 0) by (apply exp_increasing; lra). rewrite exp_0 in X. lra. Qed.
Lemma ph_cos_range : -1 <= ph_cos s <= 1 /\ ph_cos s < 1.
Proof. unfold ph_cos. generalize ph_c_range. generalize (ph_c s). intros c Hc. assert (0 < c * c < 1) by nra. assert (0 < c * c * c < 1) by nra. lra. Qed.
Lemma cos_a : cos (acos (ph_cos s)) = ph_cos s.
Proof. apply cos_acos. apply ph_cos_range. Qed.
Lemma cos_2a_ : cos (2 * acos (ph_cos s)) = 2 * (ph_cos s * ph_cos s) - 1.
Proof. rewrite cos_2a_cos, cos_a. ring. Qed.

(** the weights are probabilities *)
Lemma ph_prob : 0 <= ph_p s <= 1.
Proof.
  generalize ph_cos_range ph_c_range. intros [_ L] Hc. unfold ph_p. split.
  - apply Rmult_le_pos; [lra|]. left. apply Rinv_0_lt_compat. lra.
  - apply (Rmult_le_reg_r (1 - ph_cos s)); [lra|]. unfold Rdiv. rewrite Rmult_assoc, Rinv_l by lra.
    revert Hc. unfold ph_cos. generalize (ph_c s). intros c Hc. nra.
Qed.

Lemma ph_one : wsum (atoms_ph s) (fun _ => 1) = 1.
Proof. cbn. field. Qed.
Lemma ph_cos1 : wsum (atoms_ph s) cos = exp (- s / 2).
Proof.
  cbn. rewrite cos_neg, cos_0, cos_a. fold (ph_c s). unfold ph_p. generalize ph_cos_range. intros [_ L]. field. lra.
Qed.
Lemma ph_sin1 : wsum (atoms_ph s) sin = 0.
Proof. cbn. rewrite sin_neg, sin_0. ring. Qed.
Lemma ph_cos2 : wsum (atoms_ph s) (fun x => cos (2 * x)) = exp (- (2 * s)).
Proof.
  cbn. replace (2 * - acos (ph_cos s)) with (- (2 * acos (ph_cos s))) by ring. rewrite cos_neg, Rmult_0_r, cos_0, cos_2a_.
  assert (E : exp (- (2 * s)) = ph_c s * ph_c s * (ph_c s * ph_c s)).
  { unfold ph_c. rewrite <- !exp_plus. f_equal. field. }
  rewrite E. unfold ph_p. generalize ph_cos_range. intros [_ L].
  transitivity (1 - 2 * (1 - ph_c s) * (1 + ph_cos s)); [field; lra|]. unfold ph_cos. field.
Qed.
Lemma ph_sin2 : wsum (atoms_ph s) (fun x => sin (2 * x)) = 0.
Proof. cbn. replace (2 * - acos (ph_cos s)) with (- (2 * acos (ph_cos s))) by ring. rewrite sin_neg, Rmult_0_r, sin_0. ring. Qed.
End Phase.

Lemma mag_one : forall sd, wsum (atoms_mag sd) (fun _ => 1) = 1.
Proof. intros. cbn. field. Qed.

Definition noise_atoms (sd s : R) := wprod (atoms_mag sd) (atoms_ph s).
Lemma noise_one : forall sd s, 0 < s -> wsum (noise_atoms sd s) (fun _ => 1) = 1.
Proof. intros. apply wprod_one; [apply mag_one|apply ph_one; auto]. Qed.

Lemma mag_mean : forall sd, wsum (atoms_mag sd) (fun x => x) = 0.
Proof. intros. cbn. field. Qed.
Lemma mag_var : forall sd, wsum (atoms_mag sd) (fun x => x ^ 2) = sd ^ 2.
Proof. intros. cbn. field. Qed.

Theorem finite_noise : forall sd s (Hs : 0 < s), polar_noise (fin_exp _ (noise_one sd s Hs)) fst snd (sd ^ 2) s.
Proof.
  intros sd s Hs. assert (M1 := mag_one sd). assert (P1 := ph_one s).
  split; cbn [Ex fin_exp integrable]; unfold noise_atoms.
  - intros k h Hk Hh. split; auto. rewrite (wsum_prod _ _ _ _ (fun x => x ^ k) h).
    rewrite (wsum_fst _ _ _ _ (fun x => x ^ k) P1), (wsum_snd _ _ _ _ h M1). reflexivity.
  - rewrite (wsum_fst _ _ _ _ (fun x => x) P1). apply mag_mean.
  - rewrite (wsum_fst _ _ _ _ (fun x => x ^ 2) P1). apply mag_var.
  - rewrite (wsum_snd _ _ _ _ cos M1). apply ph_cos1; auto.
  - rewrite (wsum_snd _ _ _ _ sin M1). apply ph_sin1; auto.
  - rewrite (wsum_snd _ _ _ _ (fun x => cos (2 * x)) M1). apply ph_cos2; auto.
  - rewrite (wsum_snd _ _ _ _ (fun x => sin (2 * x)) M1). apply ph_sin2; auto.
Qed.

(** two independent copies *)
Section Pair.
Variables (sd sd' s : R).
Hypothesis Hs : 0 < s.
Definition pair_atoms := wprod (noise_atoms sd s) (noise_atoms sd' s).
Lemma pair_one : wsum pair_atoms (fun _ => 1) = 1.
Proof. apply wprod_one; apply noise_one; auto. Qed.
Definition pair_exp := fin_exp _ pair_one.
Definition pd (i : nat) (w : (R * R) * (R * R)) : R := match i with 0%nat => fst (fst w) | _ => fst (snd w) end.
Definition pp (i : nat) (w : (R * R) * (R * R)) : R := match i with 0%nat => snd (fst w) | _ => snd (snd w) end.
Definition psd_ (i : nat) : R := match i with 0%nat => sd | _ => sd' end.

Lemma pair_noise : forall i, (i < 2)%nat -> polar_noise pair_exp (pd i) (pp i) (psd_ i ^ 2) s.
Proof.
  assert (N1 := noise_one sd s Hs). assert (N2 := noise_one sd' s Hs).
  assert (F1 := fun X => wsum_fst _ _ (noise_atoms sd s) (noise_atoms sd' s) X N2).
  assert (F2 := fun X => wsum_snd _ _ (noise_atoms sd s) (noise_atoms sd' s) X N1).
  intros [|[|i]] Hi; [| |lia].
  - destruct (finite_noise sd s Hs) as [A B C D E F G]. split; cbn [Ex fin_exp integrable pair_exp pd pp psd_] in *; unfold pair_atoms in *.
    + intros k h Hk Hh. split; auto. exact (eq_trans (F1 (fun u => fst u ^ k * h (snd u))) (eq_trans (proj2 (A k h Hk Hh)) (eq_sym (f_equal2 Rmult (F1 (fun u => fst u ^ k)) (F1 (fun u => h (snd u))))))).
    + exact (eq_trans (F1 fst) B).
    + exact (eq_trans (F1 (fun u => fst u ^ 2)) C).
    + exact (eq_trans (F1 (fun u => cos (snd u))) D).
    + exact (eq_trans (F1 (fun u => sin (snd u))) E).
    + exact (eq_trans (F1 (fun u => cos (2 * snd u))) F).
    + exact (eq_trans (F1 (fun u => sin (2 * snd u))) G).
  - destruct (finite_noise sd' s Hs) as [A B C D E F G]. split; cbn [Ex fin_exp integrable pair_exp pd pp psd_] in *; unfold pair_atoms in *.
    + intros k h Hk Hh. split; auto. exact (eq_trans (F2 (fun u => fst u ^ k * h (snd u))) (eq_trans (proj2 (A k h Hk Hh)) (eq_sym (f_equal2 Rmult (F2 (fun u => fst u ^ k)) (F2 (fun u => h (snd u))))))).
    + exact (eq_trans (F2 fst) B).
    + exact (eq_trans (F2 (fun u => fst u ^ 2)) C).
    + exact (eq_trans (F2 (fun u => cos (snd u))) D).
    + exact (eq_trans (F2 (fun u => sin (snd u))) E).
    + exact (eq_trans (F2 (fun u => cos (2 * snd u))) F).
    + exact (eq_trans (F2 (fun u => sin (2 * snd u))) G).
Qed.
Lemma pair_independent : forall i i', (i < 2)%nat -> (i' < 2)%nat -> i <> i' -> independent pair_exp (pd i) (pp i) (pd i') (pp i').
Proof.
  assert (N1 := noise_one sd s Hs). assert (N2 := noise_one sd' s Hs).
  assert (F1 := fun X => wsum_fst _ _ (noise_atoms sd s) (noise_atoms sd' s) X N2).
  assert (F2 := fun X => wsum_snd _ _ (noise_atoms sd s) (noise_atoms sd' s) X N1).
  intros [|[|i]] [|[|i']] Hi Hi' Ne; try lia; intros g g' _ _; split; cbn [Ex fin_exp integrable pair_exp pd pp]; unfold pair_atoms; auto.
  - rewrite (F1 (fun u => g (fst u) (snd u))), (F2 (fun u => g' (fst u) (snd u))).
    exact (wsum_prod _ _ _ _ (fun u => g (fst u) (snd u)) (fun u => g' (fst u) (snd u))).
  - rewrite (F2 (fun u => g (fst u) (snd u))), (F1 (fun u => g' (fst u) (snd u))).
    rewrite (wsum_ext _ _ _ (fun w => (fun u => g' (fst u) (snd u)) (fst w) * (fun u => g (fst u) (snd u)) (snd w))) by (intros; ring).
    rewrite (wsum_prod _ _ _ _ (fun u => g' (fst u) (snd u)) (fun u => g (fst u) (snd u))). ring.
Qed.
End Pair.
