(** C37 to C40: simulated noise, resampling and averaging. *)
From Coq Require Import Arith Lia List ZArith Reals Lra.
From Verif Require Import BasePy BaseFld BaseSum BaseMat BaseOrd BaseReal ModelErrorMetrics ModelNoiseCov ModelNoise ModelResample
  SpecNoise SpecSim SpecResample ProofNoiseCov ProofNoise ProofResample.
Import ListNotations.
Local Open Scope R_scope.

(** ** C37: zero noise changes nothing, whatever the generator returns *)
Theorem C37_zero_polar_noise : forall St (gauss : St -> R * St) M msd psd s, wf M -> no_noise (nc M) msd -> no_noise (nc M) psd ->
  exists s', add_polar_noise_to_measurement gauss M msd psd s = Ok (M, s').
Proof. exact @p_zero_polar. Qed.
Theorem C37_zero_polar_noise_on_both : forall St (gauss : St -> R * St) I V msd psd s, wf I -> wf V ->
  no_noise (nc I) msd -> no_noise (nc I) psd -> no_noise (nc V) msd -> no_noise (nc V) psd ->
  exists s', add_noise_in_polar_coordinates gauss I V msd psd s = Ok (V, I, s').
Proof. exact @p_zero_polar_pair. Qed.
Theorem C37_zero_cartesian_noise : forall St (gauss : St -> R * St) M s, wf M -> exists s',
  add_cartesian_noise_to_measurement gauss M 0 0 s = Ok (M, vzeros (nc M), vzeros (nc M), s').
Proof. exact @p_zero_cartesian. Qed.
Theorem C37_zero_cartesian_noise_on_both : forall St (gauss : St -> R * St) I V s, wf I -> wf V ->
  exists s', add_noise_in_cartesian_coordinates gauss I V 0 0 s = Ok (V, I, s').
Proof. exact @p_zero_cartesian_pair. Qed.
(** inside the resampler zero noise is the same as no noise, including the failures *)
Theorem C37_zero_noise_while_resampling : forall St (gauss : St -> R * St) (M : mat C) old new f s,
  (exists out, (forall s : St, filter_and_resample_measurement (D := sdarg) M old new f None None None s = Ok (out, s)) /\
     exists s', filter_and_resample_measurement M old new f (Some (StdScalar (SdFloat 0))) (Some (StdScalar (SdFloat 0)))
       (Some (add_polar_noise_to_vector gauss)) s = Ok (out, s')) \/
  exists e, forall s s' : St, filter_and_resample_measurement (D := sdarg) M old new f None None None s' = Err e /\
     filter_and_resample_measurement M old new f (Some (StdScalar (SdFloat 0))) (Some (StdScalar (SdFloat 0)))
       (Some (add_polar_noise_to_vector gauss)) s = Err e.
Proof. exact @p_zero_resample. Qed.
(** a Python integer is not accepted as standard deviation *)
Theorem C37_integer_deviation_is_refused : forall St (gauss : St -> R * St) M z sd s,
  add_polar_noise_to_measurement gauss M (SdInt z) sd s = Err AttributeError.
Proof. exact @p_int_refused. Qed.
(** the noise that Cartesian accuracies stand for *)
Theorem C37_cartesian_noise_form : forall St (gauss : St -> R * St) M a b s, 0 <= a -> 0 <= b -> exists G H out rsd isd s',
  add_cartesian_noise_to_measurement gauss M a b s = Ok (out, rsd, isd, s') /\
  shape G (nr M) (nc M) /\ shape H (nr M) (nc M) /\ shape out (nr M) (nc M) /\ length rsd = nc M /\ length isd = nc M /\
  (forall i, (i < nc M)%nat -> vget rsd i = mean_abs re M i * a / 3 /\ vget isd i = mean_abs im M i * b / 3) /\
  forall t i, (t < nr M)%nat -> (i < nc M)%nat ->
    re (get out t i) = re (get M t i) + vget rsd i * get G t i /\ im (get out t i) = im (get M t i) + vget isd i * get H t i.
Proof. exact @p_cartesian_form. Qed.
(** both measurements: voltages get the voltage accuracy, currents the current accuracy *)
Theorem C37_cartesian_noise_form_on_both : forall St (gauss : St -> R * St) I V ci cv s, 0 <= ci -> 0 <= cv ->
  exists V' I' s', add_noise_in_cartesian_coordinates gauss I V ci cv s = Ok (V', I', s') /\
  cartesian_noise cv V V' /\ cartesian_noise ci I I'.
Proof. exact @p_cartesian_pair. Qed.
Print Assumptions C37_cartesian_noise_form_on_both.
Print Assumptions C37_zero_polar_noise.
Print Assumptions C37_zero_polar_noise_on_both.
Print Assumptions C37_zero_cartesian_noise.
Print Assumptions C37_zero_cartesian_noise_on_both.
Print Assumptions C37_zero_noise_while_resampling.
Print Assumptions C37_cartesian_noise_form.

(** two samples of three phasors, one zero and one a negative real; the generator counts *)
Definition simM : mat C := mk 2 3 (fun t i => match i with 0%nat => Cx (-1) 0 | 1%nat => Cx 0 0 | _ => Cx (INR t) 2 end).
Definition counting (s : R) : R * R := (s, s + 1).
Example C37_ex : wf simM /\ no_noise (nc simM) (SdArray (repeat 0 3)) /\ no_noise (nc simM) (SdFloat 0) /\
  exists s', add_polar_noise_to_measurement counting simM (SdArray (repeat 0 3)) (SdFloat 0) 7 = Ok (simM, s').
Proof.
  assert (H1 : no_noise (nc simM) (SdArray (repeat 0 3))) by (right; right; right; cbn; split; [reflexivity|lia]).
  assert (H2 : no_noise (nc simM) (SdFloat 0)) by (left; reflexivity).
  split; [apply wf_mk|]. split; auto. split; auto. apply C37_zero_polar_noise; auto. apply wf_mk.
Qed.

(** ** C38: the noise is relative *)
Definition ones (s : unit) : R * unit := (1, s).
(** magnitude and phase are multiplied by 1 + sd * draw *)
Theorem C38_effective_noise : forall St (gauss : St -> R * St) M msd psd m p s, asks (nc M) msd m -> asks (nc M) psd p -> (0 < nc M)%nat ->
  (forall i, (i < nc M)%nat -> 0 <= m i /\ 0 <= p i) ->
  exists G H out s', add_polar_noise_to_measurement gauss M msd psd s = Ok (out, s') /\
    shape G (nr M) (nc M) /\ shape H (nr M) (nc M) /\ shape out (nr M) (nc M) /\
    forall t i, (t < nr M)%nat -> (i < nc M)%nat ->
      get out t i = phasor (cabs (get M t i) * (1 + m i * get G t i)) (angle (get M t i) * (1 + p i * get H t i)).
Proof. exact @p_polar_form. Qed.
Theorem C38_effective_noise_on_both : forall St (gauss : St -> R * St) I V msd psd m p s, asks (nc I) msd m -> asks (nc I) psd p -> (0 < nc I)%nat -> nc V = nc I ->
  (forall i, (i < nc I)%nat -> 0 <= m i /\ 0 <= p i) ->
  exists V' I' s', add_noise_in_polar_coordinates gauss I V msd psd s = Ok (V', I', s') /\ polar_noise_form m p V V' /\ polar_noise_form m p I I'.
Proof. exact @p_polar_pair. Qed.
Print Assumptions C38_effective_noise_on_both.
(** positive real phasors are never turned *)
Theorem C38_positive_reals_keep_their_phase : forall St (gauss : St -> R * St) M msd psd out s s',
  add_polar_noise_to_measurement gauss M msd psd s = Ok (out, s') ->
  forall t i, (t < nr M)%nat -> (i < nc M)%nat -> 0 < re (get M t i) -> im (get M t i) = 0 -> im (get out t i) = 0.
Proof. exact @p_positive_keeps_phase. Qed.
(** the property asks for (|z| + m, angle z + p) when all draws are 1 *)
Theorem C38_requested_phase_noise_refuted : exists M p out, 0 < p /\ shape M 1 1 /\
  add_polar_noise_to_measurement ones M (SdFloat 0) (SdFloat p) tt = Ok (out, tt) /\
  get out 0 0 <> phasor (cabs (get M 0 0)) (angle (get M 0 0) + p).
Proof.
  exists (mk 1 1 (fun _ _ => Cx 1 0)), 1.
  destruct (C38_effective_noise unit ones (mk 1 1 (fun _ _ => Cx 1 0)) (SdFloat 0) (SdFloat 1) (fun _ => 0) (fun _ => 1) tt)
    as (G & H & out & s' & E & HG & HH & HO & Hv); try constructor; cbn; try lia; try (intros; lra).
  exists out. destruct s'. split; [lra|]. split; [apply shape_mk|]. split; [exact E|].
  rewrite Hv by (cbn; lia). rewrite get_mk by lia.
  rewrite angle_pos by lra. rewrite !Rmult_0_l, Rplus_0_l. unfold phasor. intro F. apply (f_equal im) in F. cbn [im] in F.
  assert (Ec : cabs (Cx 1 0) = 1).
  { unfold cabs. cbn. replace (1 * 1 + 0 * 0) with 1 by ring. apply sqrt_1. }
  rewrite Ec, sin_0 in F. assert (0 < sin 1) by (apply sin_gt_0; pose proof PI2_1; lra). lra.
Qed.
Theorem C38_requested_magnitude_noise_refuted : exists M m out, 0 < m /\ shape M 1 1 /\
  add_polar_noise_to_measurement ones M (SdFloat m) (SdFloat 0) tt = Ok (out, tt) /\
  get out 0 0 <> phasor (cabs (get M 0 0) + m) (angle (get M 0 0)).
Proof.
  exists (mk 1 1 (fun _ _ => Cx 2 0)), 1. eexists. split; [lra|]. split; [apply shape_mk|].
  split; [unfold add_polar_noise_to_measurement, noise_array, normal_all; rewrite negative_pos, negative_0 by lra; reflexivity|].
  rewrite !get_mk by (cbn; lia). unfold polar_entry. cbn [re im vget nth]. rewrite angle_pos by lra.
  assert (Ec : cabs (Cx 2 0) = 2).
  { unfold cabs. cbn. replace (2 * 2 + 0 * 0) with (2 * 2) by ring. apply sqrt_square. lra. }
  rewrite Ec. unfold phasor. intro F. apply (f_equal re) in F. cbn [re nr nc mk Nat.mul Nat.add] in F.
  replace (0 + (0 + 0 * 1) * 0) with 0 in F by ring. rewrite cos_0 in F. lra.
Qed.
(** the covariances of noise_transformation.py promise imaginary variances that never occur *)
Theorem C38_covariance_formulas_disagree : forall f M sd sp s, In f variants -> sd_means (nc M) sd s ->
  (forall t i, (t < nr M)%nat -> (i < nc M)%nat -> 0 < re (get M t i) /\ im (get M t i) = 0) ->
  (forall i, (i < nc M)%nat -> s i <> 0) -> sp <> 0 ->
  (forall St (gauss : St -> R * St) st out st', add_polar_noise_to_measurement gauss M sd (SdFloat sp) st = Ok (out, st') ->
     forall t i, (t < nr M)%nat -> (i < nc M)%nat -> im (get out t i) = im (get M t i)) /\
  exists S Q, f M sd sp false = Ok S /\ finite S Q /\
    forall k, (nr M * nc M <= k)%nat -> (k < 2 * (nr M * nc M))%nat -> 0 < get Q k k.
Proof. exact p_mismatch. Qed.
Print Assumptions C38_effective_noise.
Print Assumptions C38_positive_reals_keep_their_phase.
Print Assumptions C38_requested_phase_noise_refuted.
Print Assumptions C38_requested_magnitude_noise_refuted.
Print Assumptions C38_covariance_formulas_disagree.
Example C38_ex : let M := mk 2 2 (fun t i => Cx (INR (t + i + 1)) 0) in
  In exact_noise_covariance variants /\ sd_means (nc M) (SdArray [1; 2]) (vget [1; 2]) /\
  (forall t i, (t < nr M)%nat -> (i < nc M)%nat -> 0 < re (get M t i) /\ im (get M t i) = 0) /\
  (forall i, (i < nc M)%nat -> vget [1; 2] i <> 0).
Proof.
  split; [cbn; auto|]. split; [constructor; reflexivity|]. split.
  - cbn [nr nc mk]. intros t i Ht Hi. rewrite get_mk by auto. cbn [re im]. split; auto. apply lt_0_INR. lia.
  - cbn. intros [|[|i]] Hi; cbn; try lra; lia.
Qed.

(** ** C39: resampling and averaging *)
Section C39.
Context {K : Type} {O : Ops K} {F : Fld K} {O2 : OrdOps K} {OF : OrdFld K}.
Notation CK := (cplx K).
Local Open Scope K_scope.
(** without noise every output sample is the mean of interpolated samples *)
Theorem C39_means_of_interpolated_samples : forall St D (M : mat CK) old new f nf sm sp (s : St), @noiseless K St D sm sp nf -> increasing old ->
  (2 <= length old)%nat -> nr M = length old -> within old new -> (0 < f)%nat ->
  exists out, filter_and_resample_measurement M (Some old) (Some new) f sm sp nf s = Ok (out, s) /\ averages M old new f out.
Proof. intros St D. exact p_resample. Qed.
Theorem C39_determined : forall (M : mat CK) old new f out out', increasing old -> (0 < f)%nat ->
  averages M old new f out -> averages M old new f out' -> out = out'.
Proof. exact p_averages_unique. Qed.
Theorem C39_constants_preserved : forall (M : mat CK) old new f out i c, increasing old -> (0 < f)%nat -> nr M = length old ->
  averages M old new f out -> (i < nc M)%nat -> (forall r, (r < nr M)%nat -> get M r i = c) ->
  forall t, (t < nr out)%nat -> get out t i = c.
Proof. exact p_averages_constant. Qed.
Theorem C39_stays_within_bounds : forall (M : mat CK) old new f out i lo hi lo' hi', increasing old -> (0 < f)%nat -> nr M = length old ->
  averages M old new f out -> (i < nc M)%nat ->
  (forall r, (r < nr M)%nat -> lo <=! re (get M r i) /\ re (get M r i) <=! hi /\ lo' <=! im (get M r i) /\ im (get M r i) <=! hi') ->
  forall t, (t < nr out)%nat -> lo <=! re (get out t i) /\ re (get out t i) <=! hi /\ lo' <=! im (get out t i) /\ im (get out t i) <=! hi'.
Proof. exact p_averages_bounds. Qed.
Theorem C39_linear : forall (M N : mat CK) old new f out out' p q, increasing old -> (0 < f)%nat -> nr M = length old ->
  nr N = nr M -> nc N = nc M -> averages M old new f out -> averages N old new f out' ->
  averages (madd (mscal p M) (mscal q N)) old new f (madd (mscal p out) (mscal q out')).
Proof. exact p_averages_linear. Qed.
Theorem C39_columns_independent : forall (M N : mat CK) old new f out out' i j, increasing old -> (0 < f)%nat -> nr M = length old -> nr N = length old ->
  averages M old new f out -> averages N old new f out' -> (i < nc M)%nat -> (j < nc N)%nat ->
  (forall r, (r < nr M)%nat -> get M r i = get N r j) ->
  forall t, (t < nr out)%nat -> get out t i = get out' t j.
Proof. exact p_averages_columns. Qed.
Theorem C39_same_times_no_averaging : forall (M : mat CK) old out, increasing old -> (2 <= length old)%nat -> wf M -> nr M = length old ->
  averages M old old 1 out -> out = M.
Proof. exact p_averages_identity. Qed.
(** with noise: column after column, the interpolated samples are disturbed with the deviations of the column, then averaged *)
Theorem C39_noise_before_averaging : forall St D (M : mat CK) old new f (nf : @noise_fun K St D) sm sp m p s out s',
  given (nc M) sm m -> given (nc M) sp p -> increasing old -> (2 <= length old)%nat ->
  nr M = length old -> within old new -> (0 < f)%nat ->
  (forall v a b s v' s', nf v a b s = Ok (v', s') -> length v' = length v) ->
  filter_and_resample_measurement M (Some old) (Some new) f (Some sm) (Some sp) (Some nf) s = Ok (out, s') ->
  shape out (length new / f) (nc M) /\ exists st X W, st 0%nat = s /\ st (nc M) = s' /\ forall i, (i < nc M)%nat ->
    interpolated M old new i (X i) /\ nf (X i) (m i) (p i) (st i) = Ok (W i, st (S i)) /\
    forall t, (t < length new / f)%nat ->
      knat f * re (get out t i) = sumn f (fun k => re (vget (W i) (t * f + k))) /\
      knat f * im (get out t i) = sumn f (fun k => im (vget (W i) (t * f + k))).
Proof. intros St D. exact p_resample_noisy. Qed.
(** no extrapolation *)
Theorem C39_outside_refused : forall St D (M : mat CK) old new f (nf : option (@noise_fun K St D)) sm sp s v, increasing old -> nr M = length old -> (0 < f)%nat -> (0 < nc M)%nat ->
  In v new -> v <! vget old 0 \/ vget old (length old - 1) <! v ->
  filter_and_resample_measurement M (Some old) (Some new) f sm sp nf s = Err ValueError.
Proof. intros St D. exact p_resample_outside. Qed.
Theorem C39_length_mismatch_refused : forall St D (M : mat CK) old new f (nf : option (@noise_fun K St D)) sm sp s, nr M <> length old -> (0 < f)%nat -> (0 < nc M)%nat ->
  filter_and_resample_measurement M (Some old) (Some new) f sm sp nf s = Err ValueError.
Proof. intros St D. exact p_resample_length. Qed.

(** ** C40: without time arguments the resampler fails for every input *)
Theorem C40_default_new_times_never_work : forall St D (M : mat CK) old f (nf : option (@noise_fun K St D)) sm sp s,
  filter_and_resample_measurement M old None f sm sp nf s = Err TypeError.
Proof. intros St D. exact p_default_new. Qed.
Theorem C40_default_old_times_need_one_row_per_average : forall St D (M : mat CK) new f (nf : option (@noise_fun K St D)) sm sp s,
  (0 < f)%nat -> (0 < nc M)%nat -> nr M <> (length new / f)%nat ->
  filter_and_resample_measurement M None (Some new) f sm sp nf s = Err ValueError.
Proof. intros St D. exact p_default_old. Qed.
End C39.
Print Assumptions C39_means_of_interpolated_samples.
Print Assumptions C39_determined.
Print Assumptions C39_constants_preserved.
Print Assumptions C39_stays_within_bounds.
Print Assumptions C39_linear.
Print Assumptions C39_columns_independent.
Print Assumptions C39_same_times_no_averaging.
Print Assumptions C39_noise_before_averaging.
Print Assumptions C39_outside_refused.
Print Assumptions C39_length_mismatch_refused.
Print Assumptions C40_default_new_times_never_work.
Print Assumptions C40_default_old_times_need_one_row_per_average.
