(** What the Lasso and the Bayesian identification are documented to compute: reweighted least squares whose penalties are those
    of SpecIdent.v *)
From Coq Require Import Bool Arith List.
From Verif Require Import BasePy BaseFld BaseOrd BaseSum BaseMat BaseLin ModelFit ModelRun SpecMatrix SpecLS SpecFit SpecIdent.
Import ListNotations.
Local Open Scope K_scope.

Section Spec.
Context {K : Type} {O : Ops K} {O2 : OrdOps K}.
Notation CK := (cplx K).

(** square of a residual, divided by its absolute value at the previous estimate (plus the smoothness parameter) *)
Definition relaxed (alpha before u : K) : K := u * u / (kabs before + alpha).

(** a cost of the residuals at two matrices, summed over the lines and over the nodes; the residuals are those of [line_pen] and [node_pen] *)
Definition line_pairs (g : K -> K -> K) (n : nat) (Y M0 M : mat CK) : K :=
  line_sum n (fun i j => parts (fun part =>
    g (part (get M0 i j) / part (get (sym_part n Y) i j)) (part (get M i j) / part (get (sym_part n Y) i j)))).
Definition node_pairs (g : K -> K -> K) (lam : K) (tls : bool) (n : nat) (Y M0 M : mat CK) : K :=
  sumn n (fun i => parts (fun part =>
    g (lam * (part (node_sum n M0 i) / part (reference tls n Y i) - 1)) (lam * (part (node_sum n M i) / part (reference tls n Y i) - 1)))).
(** the quadratic penalty used while the weights are kept from [M0] *)
Definition relaxed_pen (al lam : K) (tls : bool) (n : nat) (Y M0 M : mat CK) : K :=
  line_pairs (relaxed al) n Y M0 M + node_pairs (relaxed al) lam tls n Y M0 M.
(** the penalty of the adaptive Lasso with the weights |y| kept from [M0] *)
Definition relaxed_lasso (al : K) (y w x : list K) : K :=
  sumn (length y) (fun k => relaxed al (kabs (vget y k) * vget w k) (kabs (vget y k) * vget x k)).

(** [v1], [i1] are the measurements [v], [i] without their means: of the columns, or of the whole array of voltages *)
Definition without_means (laplacian_form : bool) (T n : nat) (v i v1 i1 : mat CK) : Prop :=
  shape v1 T n /\ shape i1 T n /\
  if laplacian_form
  then (forall t j, (t < T)%nat -> (j < n)%nat ->
          get v1 t j = get v t j - sumn T (fun s => sumn n (fun k => get v s k)) / knat (T * n)) /\ i1 = i
  else forall t j, (t < T)%nat -> (j < n)%nat ->
          get v1 t j = get v t j - sumn T (fun s => get v s j) / knat T /\
          get i1 t j = get i t j - sumn T (fun s => get i s j) / knat T.

(** weighted size of what is left of the currents when the voltages are corrected by [D] *)
Definition misfit (W : mat K) (v i D Y : mat CK) : K := wnorm2 W (msubt i (mmul (msubt v D) Y)).

(** one round with weights: best correction of the voltages for the previous matrix, best matrix for this correction *)
Definition weighted_round (lap : bool) (T n : nat) (W : mat K) (v i : mat CK) (lam : K) (pen : mat CK -> K) (relax : mat CK -> mat CK -> K)
    (M0 : mat CK) (s : status K) : Prop :=
  admissible lap n (st_y s) /\
  exists D, shape D T n /\
    st_target s = misfit W v i D (st_y s) + wnorm2 W D + lam * pen (st_y s) /\
    (forall D', shape D' T n -> misfit W v i D M0 + wnorm2 W D <=! misfit W v i D' M0 + wnorm2 W D') /\
    forall M, admissible lap n M -> misfit W v i D (st_y s) + lam * relax M0 (st_y s) <=! misfit W v i D M + lam * relax M0 M.

(** one round without weights: nearest data that obey the previous matrix, best matrix for the voltages among them *)
Definition plain_round (lap : bool) (T n : nat) (v i : mat CK) (lam : K) (relax : mat CK -> mat CK -> K) (M0 : mat CK) (s : status K) : Prop :=
  admissible lap n (st_y s) /\
  exists q, shape q T (2 * n) /\ satisfies_flow n M0 q /\
    (forall q', shape q' T (2 * n) -> satisfies_flow n M0 q' -> fro2 (msubt (hstack2 v i) q) <=! fro2 (msubt (hstack2 v i) q')) /\
    forall M, admissible lap n M ->
      fro2 (msubt i (mmul (first_half n q) (st_y s))) + lam * relax M0 (st_y s) <=! fro2 (msubt i (mmul (first_half n q) M)) + lam * relax M0 M.

(** a saved history starts from [Y0], consists of such rounds and ends with the saved matrix *)
Definition history_of (round : mat CK -> status K -> Prop) (Y0 y : mat CK) (its : list (status K)) : Prop :=
  its <> [] /\ (forall d, y = st_y (nth (length its - 1) its d)) /\
  forall k d, (k < length its)%nat -> round (prev_y Y0 its k) (nth k its d).

(** reweighted regression: matrices from [Y0] to [l], each the best one for the weights of the one before *)
Definition reweighted (lap : bool) (n : nat) (v i : mat CK) (lam : K) (relax : mat CK -> mat CK -> K) (bound : nat) (Y0 l : mat CK) : Prop :=
  exists ms, ms <> [] /\ (length ms <= bound)%nat /\ l = nth (length ms - 1) ms Y0 /\
    forall k, (k < length ms)%nat -> admissible lap n (nth k ms Y0) /\
      forall M, admissible lap n M ->
        fro2 (msubt i (mmul v (nth k ms Y0))) + lam * relax (nth k (Y0 :: ms) Y0) (nth k ms Y0) <=!
        fro2 (msubt i (mmul v M)) + lam * relax (nth k (Y0 :: ms) Y0) M.

(** unsynchronised measurements: voltages replaced by their magnitudes, currents turned by the angle of the voltage *)
Definition rotated (cabs : CK -> K) (T n : nat) (v i v1 i1 : mat CK) : Prop :=
  shape v1 T n /\ shape i1 T n /\ forall t j, (t < T)%nat -> (j < n)%nat ->
    get v1 t j = cre (cabs (get v t j)) /\ (cabs (get v t j) <> 0 -> get i1 t j * get v1 t j = get i t j * conj (get v t j)).

(** every entry that is not zero is inverted *)
Definition inverted (A B : mat K) : Prop :=
  nr B = nr A /\ nc B = nc A /\ wf B /\ forall r c, (r < nr A)%nat -> (c < nc A)%nat ->
    (get A r c = 0 -> get B r c = 0) /\ (get A r c <> 0 -> get B r c * get A r c = 1).
End Spec.

(** the configuration with other noise levels of the currents *)
Definition with_current_sd {K} (c : ModelRun.config K) (magnitude phase : K) : ModelRun.config K :=
  ModelRun.Config K (ModelRun.lambda_lasso c) (ModelRun.lambda_eiv c) (ModelRun.lambdaprime c) (ModelRun.abs_tol c) (ModelRun.rel_tol c)
    (ModelRun.use_tls_diag c) (ModelRun.contrast_each_row c) (ModelRun.regularize_diag c)
    (ModelRun.voltage_magnitude_sd c) magnitude (ModelRun.voltage_phase_sd c) phase.
