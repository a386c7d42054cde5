(** Vocabulary for noise on phasors: expectations, polar coordinates, noise with the
    moments of a Gaussian, and what it means for a matrix to hold the covariances of
    stacked real and imaginary parts. *)
From Coq Require Import List Reals.
From Verif Require Import BasePy BaseFld BaseSum BaseMat ModelErrorMetrics ModelNoiseCov.
Import ListNotations.
Local Open Scope R_scope.

(** An expectation: a linear functional with E 1 = 1 on a vector space of integrable real
    random variables over [W]. *)
Record expectation (W : Type) := mkExpectation {
  integrable : (W -> R) -> Prop;
  Ex : (W -> R) -> R;
  Ex_ext : forall X Y, (forall w, X w = Y w) -> integrable X -> integrable Y /\ Ex X = Ex Y;
  Ex_add : forall X Y, integrable X -> integrable Y ->
    integrable (fun w => X w + Y w) /\ Ex (fun w => X w + Y w) = Ex X + Ex Y;
  Ex_scal : forall a X, integrable X -> integrable (fun w => a * X w) /\ Ex (fun w => a * X w) = a * Ex X;
  Ex_one : integrable (fun _ => 1) /\ Ex (fun _ => 1) = 1
}.
Arguments integrable {W} _ _.
Arguments Ex {W} _ _.

(** Covariance and variance of random variables *)
Definition cov {W} (P : expectation W) (X Y : W -> R) : R :=
  Ex P (fun w => (X w - Ex P X) * (Y w - Ex P Y)).
Definition var {W} (P : expectation W) (X : W -> R) : R := cov P X X.

(** [z] has polar coordinates (m, f); the origin is given the angle 0 as [np.angle] does *)
Definition polar (z : C) (m f : R) : Prop :=
  re z = m * cos f /\ im z = m * sin f /\ (m <> 0 \/ f = 0).

(** Magnitude noise [d] and phase noise [p] are independent, [d] is centred with variance
    [v], and [p] has the characteristic values of a centred Gaussian of variance [s]. *)
Record polar_noise {W} (P : expectation W) (d p : W -> R) (v s : R) : Prop := mkPolarNoise {
  pn_indep : forall k h, (k <= 2)%nat -> In h [(fun _ => 1); cos; sin; (fun x => cos (2 * x)); (fun x => sin (2 * x))] ->
    integrable P (fun w => d w ^ k * h (p w)) /\
    Ex P (fun w => d w ^ k * h (p w)) = Ex P (fun w => d w ^ k) * Ex P (fun w => h (p w));
  pn_mean : Ex P d = 0;
  pn_var : Ex P (fun w => d w ^ 2) = v;
  pn_cos1 : Ex P (fun w => cos (p w)) = exp (- s / 2);
  pn_sin1 : Ex P (fun w => sin (p w)) = 0;
  pn_cos2 : Ex P (fun w => cos (2 * p w)) = exp (- (2 * s));
  pn_sin2 : Ex P (fun w => sin (2 * p w)) = 0
}.

(** A matrix of finite numbers *)
Definition finite (S : mat flt) (M : mat R) : Prop := wf M /\ S = mmap Fin M.

(** [M] holds, for a T-by-n array of phasors stacked column by column with all real parts
    before all imaginary parts, the variances and covariances given entry by entry, and
    nothing between different phasors. *)
Definition stacked (T n : nat) (M : mat R) (vr vi cri : nat -> nat -> R) : Prop :=
  shape M (2 * (T * n)) (2 * (T * n)) /\
  forall t i t' i', (t < T)%nat -> (i < n)%nat -> (t' < T)%nat -> (i' < n)%nat ->
    let k := (i * T + t)%nat in let k' := (i' * T + t')%nat in let N := (T * n)%nat in
    let same := (Nat.eqb t t' && Nat.eqb i i')%bool in
    get M k k' = (if same then vr t i else 0) /\
    get M (N + k) (N + k') = (if same then vi t i else 0) /\
    get M k (N + k') = (if same then cri t i else 0) /\
    get M (N + k) k' = (if same then cri t i else 0).

(** Positive (semi)definiteness *)
Definition quad (M : mat R) (v : list R) : R := vdot v (mvmul M v).
Definition pos_semidef (n : nat) (M : mat R) : Prop := forall v, length v = n -> 0 <= quad M v.
Definition pos_def (n : nat) (M : mat R) : Prop := forall v, length v = n -> v <> vzeros n -> 0 < quad M v.

(** [J] is the derivative of (m, f) |-> (m cos f, m sin f) *)
Record polar_jacobian (m f : R) (j11 j12 j21 j22 : R) : Prop := mkJac {
  jac11 : derivable_pt_lim (fun x => x * cos f) m j11;
  jac12 : derivable_pt_lim (fun x => m * cos x) f j12;
  jac21 : derivable_pt_lim (fun x => x * sin f) m j21;
  jac22 : derivable_pt_lim (fun x => m * sin x) f j22
}.

(** The standard deviation of each column that an argument stands for *)
Inductive sd_means (n : nat) : sdarg -> (nat -> R) -> Prop :=
| sd_float : forall x, sd_means n (SdFloat x) (fun _ => x)
| sd_scalar : forall x, n <> 1%nat -> sd_means n (SdScalar x) (fun _ => x)
| sd_array : forall l, length l = n -> sd_means n (SdArray l) (vget l).

(** [M] with every phasor multiplied by e^(i theta) *)
Definition turned (theta : R) (M : mat C) : mat C :=
  mk (nr M) (nc M) (fun t i => cmul (get M t i) (Cx (cos theta) (sin theta))).

(** Two pairs of random variables are independent *)
Definition independent {W} (P : expectation W) (d p d' p' : W -> R) : Prop :=
  forall g g' : R -> R -> R,
    integrable P (fun w => g (d w) (p w)) -> integrable P (fun w => g' (d' w) (p' w)) ->
    integrable P (fun w => g (d w) (p w) * g' (d' w) (p' w)) /\
    Ex P (fun w => g (d w) (p w) * g' (d' w) (p' w)) = Ex P (fun w => g (d w) (p w)) * Ex P (fun w => g' (d' w) (p' w)).

(** Real and imaginary parts of the phasor with polar coordinates (m, f), perturbed by (d, p) *)
Definition noisy_re {W} (m f : R) (d p : W -> R) : W -> R := fun w => (m + d w) * cos (f + p w).
Definition noisy_im {W} (m f : R) (d p : W -> R) : W -> R := fun w => (m + d w) * sin (f + p w).

(** [M] is the covariance matrix of the T-by-n random phasors with real parts [X] and imaginary
    parts [Y], stacked column by column with all real parts before all imaginary parts *)
Definition covariance_matrix_of {W} (P : expectation W) (T n : nat) (M : mat R) (X Y : nat -> nat -> W -> R) : Prop :=
  shape M (2 * (T * n)) (2 * (T * n)) /\
  forall t i t' i', (t < T)%nat -> (i < n)%nat -> (t' < T)%nat -> (i' < n)%nat ->
    let k := (i * T + t)%nat in let k' := (i' * T + t')%nat in let N := (T * n)%nat in
    get M k k' = cov P (X t i) (X t' i') /\ get M k (N + k') = cov P (X t i) (Y t' i') /\
    get M (N + k) k' = cov P (Y t i) (X t' i') /\ get M (N + k) (N + k') = cov P (Y t i) (Y t' i').

(** The conventional 2x2 rotation of the entries (vr, cri; cri, vi) by theta *)
Definition rot_r (theta vr vi cri : R) := cos theta ^ 2 * vr - 2 * (sin theta * cos theta) * cri + sin theta ^ 2 * vi.
Definition rot_i (theta vr vi cri : R) := sin theta ^ 2 * vr + 2 * (sin theta * cos theta) * cri + cos theta ^ 2 * vi.
Definition rot_c (theta vr vi cri : R) := sin theta * cos theta * (vr - vi) + (cos theta ^ 2 - sin theta ^ 2) * cri.

(** The three covariance functions of the package *)
Definition variants : list (mat C -> sdarg -> R -> bool -> res (mat flt)) :=
  [exact_noise_covariance; naive_noise_covariance; average_true_noise_covariance].
