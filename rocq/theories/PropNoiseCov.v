(** Properties C31 to C36: covariances of polar noise in Cartesian coordinates. *)
From Coq Require Import Arith Lia List ZArith Reals Lra.
From Verif Require Import BasePy BaseFld BaseSum BaseMat ModelErrorMetrics ModelNoiseCov SpecNoise
  ProofNoiseCov ProofNoiseEx ProofNoiseFin.
Import ListNotations.
Local Open Scope R_scope.

(** C31: the inverted covariance is the inverse, exactly when there is one *)
Theorem C31_inverted_is_inverse : forall f M sd sp s S Q T, In f variants -> sd_means (nc M) sd s ->
  f M sd sp false = Ok S -> finite S Q -> shape T (nr Q) (nr Q) -> mmul Q T = meye (nr Q) ->
  exists S', f M sd sp true = Ok S' /\ finite S' T.
Proof. exact variants_inverse. Qed.
Theorem C31_finite_only_if_invertible : forall f M sd sp s S Q S' T, In f variants -> sd_means (nc M) sd s ->
  f M sd sp false = Ok S -> finite S Q -> f M sd sp true = Ok S' -> finite S' T ->
  shape T (nr Q) (nr Q) /\ mmul Q T = meye (nr Q).
Proof. exact variants_inverse_only. Qed.
Theorem C31_invertible_for_nonzero_noise : forall f M sd sp s, In f variants -> sd_means (nc M) sd s ->
  (forall t i, (t < nr M)%nat -> (i < nc M)%nat -> get M t i <> 0%K /\ s i <> 0) -> sp <> 0 ->
  exists S Q S' T, f M sd sp false = Ok S /\ finite S Q /\ f M sd sp true = Ok S' /\ finite S' T /\
    shape T (nr Q) (nr Q) /\ mmul Q T = meye (nr Q).
Proof. exact variants_invertible. Qed.
Print Assumptions C31_inverted_is_inverse.
Print Assumptions C31_finite_only_if_invertible.
Print Assumptions C31_invertible_for_nonzero_noise.

(** a one-sample measurement of two phasors, 3+4j and -1j, with two standard deviations *)
Definition exM : mat C := mk 1 2 (fun _ i => match i with 0%nat => Cx 3 4 | _ => Cx 0 (-1) end).
Definition exSd : sdarg := SdArray [1/10; 1/5].
Lemma exSd_means : sd_means (nc exM) exSd (vget [1/10; 1/5]).
Proof. constructor. reflexivity. Qed.
Lemma exM_ok : forall t i, (t < nr exM)%nat -> (i < nc exM)%nat -> get exM t i <> 0%K /\ vget [1/10; 1/5] i <> 0.
Proof.
  cbn. intros [|t] [|[|i]] Ht Hi; try lia; split; cbn; try lra; intro H; injection H; intros; lra.
Qed.
Example C31_ex : exists S Q S' T, average_true_noise_covariance exM exSd (1/100) false = Ok S /\ finite S Q /\
  average_true_noise_covariance exM exSd (1/100) true = Ok S' /\ finite S' T /\ shape T (nr Q) (nr Q) /\ mmul Q T = meye (nr Q).
Proof.
  apply (C31_invertible_for_nonzero_noise average_true_noise_covariance exM exSd (1/100) (vget [1/10; 1/5])); [cbn; auto|apply exSd_means|exact exM_ok|lra].
Qed.

(** C32: valid covariance matrices *)
Theorem C32_symmetric_positive : forall f M sd sp s, In f variants -> sd_means (nc M) sd s ->
  exists S Q, f M sd sp false = Ok S /\ finite S Q /\ tr Q = Q /\ pos_semidef (2 * (nr M * nc M)) Q /\
    (forall k, (k < 2 * (nr M * nc M))%nat -> 0 <= get Q k k) /\
    ((forall t i, (t < nr M)%nat -> (i < nc M)%nat -> get M t i <> 0%K /\ s i <> 0) -> sp <> 0 -> pos_def (2 * (nr M * nc M)) Q).
Proof. exact variants_psd. Qed.
Theorem C32_turns_with_the_phasor : forall f M sd sp s theta, In f variants -> sd_means (nc M) sd s ->
  (forall t i, (t < nr M)%nat -> (i < nc M)%nat -> get M t i <> 0%K) ->
  exists S Q S' Q' vr vi cri, f M sd sp false = Ok S /\ finite S Q /\ stacked (nr M) (nc M) Q vr vi cri /\
    f (turned theta M) sd sp false = Ok S' /\ finite S' Q' /\
    exists vr' vi' cri', stacked (nr M) (nc M) Q' vr' vi' cri' /\
    forall t i, (t < nr M)%nat -> (i < nc M)%nat ->
      vr' t i = rot_r theta (vr t i) (vi t i) (cri t i) /\ vi' t i = rot_i theta (vr t i) (vi t i) (cri t i) /\
      cri' t i = rot_c theta (vr t i) (vi t i) (cri t i).
Proof. exact variants_turn. Qed.
Print Assumptions C32_symmetric_positive.
Print Assumptions C32_turns_with_the_phasor.
Example C32_ex : In naive_noise_covariance variants /\ sd_means (nc exM) exSd (vget [1/10; 1/5]) /\
  (forall t i, (t < nr exM)%nat -> (i < nc exM)%nat -> get exM t i <> 0%K /\ vget [1/10; 1/5] i <> 0).
Proof. split; [cbn; auto|]. split; [apply exSd_means|exact exM_ok]. Qed.

(** C33: the exact covariance matrix is the covariance matrix of the noisy phasors *)
Theorem C33_exact_is_covariance_of_polar_noise :
  forall (W : Type) (P : expectation W) (d p : nat -> nat -> W -> R) (T n : nat) (sd : nat -> R) (sp : R),
  (forall t i, (t < T)%nat -> (i < n)%nat -> polar_noise P (d t i) (p t i) (sd i ^ 2) (sp ^ 2)) ->
  forall M sda m f, nr M = T -> nc M = n -> sd_means n sda sd ->
  (forall t i t' i', (t < T)%nat -> (i < n)%nat -> (t' < T)%nat -> (i' < n)%nat -> (t, i) <> (t', i') ->
     independent P (d t i) (p t i) (d t' i') (p t' i')) ->
  (forall t i, (t < T)%nat -> (i < n)%nat -> polar (get M t i) (m t i) (f t i)) ->
  exists S Q, exact_noise_covariance M sda sp false = Ok S /\ finite S Q /\
    covariance_matrix_of P T n Q (fun t i => noisy_re (m t i) (f t i) (d t i) (p t i)) (fun t i => noisy_im (m t i) (f t i) (d t i) (p t i)).
Proof. exact @exact_covariance. Qed.
Theorem C33_polar_coordinates_exist : forall z : C, polar z (cabs z) (angle z).
Proof. exact polar_self. Qed.
Print Assumptions C33_exact_is_covariance_of_polar_noise.

Lemma sp_pos : 0 < (1 / 100) ^ 2. Proof. lra. Qed.
Definition exP := pair_exp (1/10) (1/5) ((1/100) ^ 2) sp_pos.
Example C33_ex :
  (forall t i, (t < 1)%nat -> (i < 2)%nat -> polar_noise exP (pd i) (pp i) (vget [1/10; 1/5] i ^ 2) ((1/100) ^ 2)) /\
  (forall t i t' i', (t < 1)%nat -> (i < 2)%nat -> (t' < 1)%nat -> (i' < 2)%nat -> (t, i) <> (t', i') ->
     independent exP (pd i) (pp i) (pd i') (pp i')).
Proof.
  split.
  - intros t i Ht Hi. generalize (pair_noise (1/10) (1/5) ((1/100) ^ 2) sp_pos i Hi). destruct i as [|[|i]]; try lia; auto.
  - intros t i t' i' Ht Hi Ht' Hi' Ne. apply pair_independent; auto. intro E. apply Ne. f_equal; auto; lia.
Qed.

(** C34: the averaged covariance is the expected covariance given the measurement *)
Theorem C34_average_is_expected_covariance :
  forall (W : Type) (P : expectation W) (d p : nat -> nat -> W -> R) (T n : nat) (sd : nat -> R) (sp : R),
  (forall t i, (t < T)%nat -> (i < n)%nat -> polar_noise P (d t i) (p t i) (sd i ^ 2) (sp ^ 2)) ->
  forall M sda m f, nr M = T -> nc M = n -> sd_means n sda sd ->
  (forall t i, (t < T)%nat -> (i < n)%nat -> polar (get M t i) (m t i) (f t i)) ->
  exists S Q vr vi cri, average_true_noise_covariance M sda sp false = Ok S /\ finite S Q /\ stacked T n Q vr vi cri /\
    forall t i, (t < T)%nat -> (i < n)%nat ->
    let X w := noisy_re (m t i - d t i w) (f t i - p t i w) (d t i) (p t i) in
    let Y w := noisy_im (m t i - d t i w) (f t i - p t i w) (d t i) (p t i) in
    vr t i = Ex P (fun w => var P (X w)) /\ vi t i = Ex P (fun w => var P (Y w)) /\ cri t i = Ex P (fun w => cov P (X w) (Y w)).
Proof. exact @average_covariance. Qed.
Theorem C34_average_is_expectation_of_exact :
  forall (W : Type) (P : expectation W) (d p : nat -> nat -> W -> R) (T n : nat) (sd : nat -> R) (sp : R),
  (forall t i, (t < T)%nat -> (i < n)%nat -> polar_noise P (d t i) (p t i) (sd i ^ 2) (sp ^ 2)) ->
  forall M sda m f Z SZ QZ, nr M = T -> nc M = n -> sd_means n sda sd ->
  (forall t i, (t < T)%nat -> (i < n)%nat -> polar (get M t i) (m t i) (f t i)) ->
  (forall w, nr (Z w) = T /\ nc (Z w) = n) ->
  (forall w t i, (t < T)%nat -> (i < n)%nat -> polar (get (Z w) t i) (m t i - d t i w) (f t i - p t i w)) ->
  (forall w, exact_noise_covariance (Z w) sda sp false = Ok (SZ w) /\ finite (SZ w) (QZ w)) ->
  exists S Q, average_true_noise_covariance M sda sp false = Ok S /\ finite S Q /\
    forall a b, (a < 2 * (T * n))%nat -> (b < 2 * (T * n))%nat -> get Q a b = Ex P (fun w => get (QZ w) a b).
Proof. exact @average_of_exact. Qed.
Print Assumptions C34_average_is_expected_covariance.
Print Assumptions C34_average_is_expectation_of_exact.
Example C34_ex : exists S Q vr vi cri, average_true_noise_covariance exM exSd (1/100) false = Ok S /\ finite S Q /\ stacked 1 2 Q vr vi cri /\
  vr 0%nat 0%nat = Ex exP (fun w => var exP (noisy_re (cabs (Cx 3 4) - pd 0 w) (angle (Cx 3 4) - pp 0 w) (pd 0) (pp 0))).
Proof.
  destruct C33_ex as [N _].
  destruct (C34_average_is_expected_covariance _ exP (fun _ => pd) (fun _ => pp) 1 2 (vget [1/10; 1/5]) (1/100) N exM exSd
    (fun t i => cabs (get exM t i)) (fun t i => angle (get exM t i)) eq_refl eq_refl exSd_means (fun t i _ _ => polar_self _))
    as (S & Q & vr & vi & cri & H1 & H2 & H3 & H4).
  exists S, Q, vr, vi, cri. repeat (split; auto); try apply H3. apply (H4 0%nat 0%nat); lia.
Qed.

(** C35: the naive covariance is the linearised one *)
Theorem C35_naive_is_linearised : forall M sda sp sd, sd_means (nc M) sda sd ->
  exists S Q vr vi cri, naive_noise_covariance M sda sp false = Ok S /\ finite S Q /\ stacked (nr M) (nc M) Q vr vi cri /\
    forall t i m f j11 j12 j21 j22, (t < nr M)%nat -> (i < nc M)%nat -> polar (get M t i) m f -> polar_jacobian m f j11 j12 j21 j22 ->
    vr t i = j11 ^ 2 * sd i ^ 2 + j12 ^ 2 * sp ^ 2 /\ vi t i = j21 ^ 2 * sd i ^ 2 + j22 ^ 2 * sp ^ 2 /\
    cri t i = j11 * j21 * sd i ^ 2 + j12 * j22 * sp ^ 2.
Proof. exact naive_linearised. Qed.
Print Assumptions C35_naive_is_linearised.
Example C35_ex : polar (get exM 0 0) 5 (angle (Cx 3 4)) /\
  polar_jacobian 5 (angle (Cx 3 4)) (cos (angle (Cx 3 4))) (5 * - sin (angle (Cx 3 4))) (sin (angle (Cx 3 4))) (5 * cos (angle (Cx 3 4))).
Proof.
  split; [|apply jacobian_exists].
  assert (E : cabs (Cx 3 4) = 5).
  { unfold cabs. cbn [re im]. replace (3 * 3 + 4 * 4) with (5 * 5) by ring. apply sqrt_square. lra. }
  rewrite <- E. apply (polar_self (Cx 3 4)).
Qed.

(** C36: standard deviations given as a vector, as a float, otherwise *)
Theorem C36_uniform_vector_is_float : forall f M x sp inv, In f variants ->
  f M (SdArray (repeat x (nc M))) sp inv = f M (SdFloat x) sp inv.
Proof. exact variants_uniform. Qed.
Theorem C36_numpy_scalar_is_float : forall f M x sp inv, In f variants -> nc M <> 1%nat -> f M (SdScalar x) sp inv = f M (SdFloat x) sp inv.
Proof. exact variants_scalar. Qed.
(** violated: a vector of another length is accepted and all but its first entry ignored *)
Theorem C36_wrong_length_truncated : forall f M l sp inv, In f variants -> length l <> nc M -> (1 < length l)%nat ->
  f M (SdArray l) sp inv = f M (SdFloat (vget l 0)) sp inv /\ is_ok (f M (SdArray l) sp inv).
Proof. exact variants_truncate. Qed.
Theorem C36_wrong_length_rejected_refuted : exists M l, length l <> nc M /\ (1 < length l)%nat /\
  forall f, In f variants -> is_ok (f M (SdArray l) (1/100) false).
Proof.
  exists exM, [1/10; 1/5; 1/3]. split; [discriminate|]. split; [cbn; lia|]. intros f Hf.
  apply variants_truncate; auto; [discriminate|cbn; lia].
Qed.
(** violated: a numpy scalar is refused for one node, an int always *)
Theorem C36_scalar_for_one_node_fails : forall f M x sp inv, In f variants -> nc M = 1%nat -> f M (SdScalar x) sp inv = Err IndexError.
Proof. exact variants_scalar_err. Qed.
Theorem C36_int_refused : forall f M z sp inv, In f variants -> f M (SdInt z) sp inv = Err AttributeError.
Proof. exact variants_int_err. Qed.
Print Assumptions C36_uniform_vector_is_float.
Print Assumptions C36_numpy_scalar_is_float.
Print Assumptions C36_wrong_length_truncated.
Print Assumptions C36_wrong_length_rejected_refuted.
Print Assumptions C36_scalar_for_one_node_fails.
Print Assumptions C36_int_refused.
Example C36_ex : In exact_noise_covariance variants /\ nc exM <> 1%nat /\ length [1/10; 1/5; 1/3] <> nc exM /\ nc (mk 3 1 (fun _ _ => Cx 1 0)) = 1%nat.
Proof. repeat split; cbn; auto; discriminate. Qed.
