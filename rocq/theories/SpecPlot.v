(** Vocabulary for the error reports written by plot_results.py. *)
From Coq Require Import String.
From Coq Require Import List Reals Bool ZArith Sorted.
From Verif Require Import BasePy BaseFld BaseSum BaseMat ModelFit ModelRun ModelErrorMetrics ModelLines ModelPlot.
Import ListNotations.
Close Scope string_scope.
Local Open Scope nat_scope.

(** square of the modulus *)
Definition sq (z : C) : R := (re z * re z + im z * im z)%R.
(** sum of the squares of the entries, and of the differences of the entries, of two matrices *)
Definition size2 (A : mat C) : R := sumn (nr A) (fun i => sumn (nc A) (fun j => sq (get A i j))).
Definition gap2 (A B : mat C) : R := sumn (nr A) (fun i => sumn (nc A) (fun j => sq (get A i j - get B i j)%K)).
(** the same, only where the first matrix is not zero *)
Definition gap2_present (A B : mat C) : R :=
  sumn (nr A) (fun i => sumn (nc A) (fun j => if Req_EM_T (sq (get A i j)) 0 then 0%R else sq (get A i j - get B i j)%K)).

(** [x] is the percentage of the root of [d] in the root of [s]; not a number if [s] is zero *)
Definition percentage (s d : R) (x : flt) : Prop :=
  (s = 0%R -> x = NonFinite) /\ (s <> 0%R -> exists r, x = Fin r /\ (0 <= r)%R /\ (r * r * s = 10000 * d)%R).
(** Frobenius error and relative error of the estimate [est] of [y] *)
Definition overall (y est : mat C) (m : ErrorMetrics) : Prop :=
  (0 <= em_fro m)%R /\ (em_fro m * em_fro m = gap2 y est)%R /\ percentage (size2 y) (gap2 y est) (em_rrms m).
(** largest error of an entry and relative error of the entries that are not zero *)
Definition entrywise (y est : mat C) (m : ErrorMetrics) : Prop :=
  (exists i j, i < nr y /\ j < nc y /\ em_max m = cabs (get y i j - get est i j)%K) /\
  (forall i j, i < nr y -> j < nc y -> (cabs (get y i j - get est i j)%K <= em_max m)%R) /\
  percentage (size2 y) (gap2_present y est) (em_map m).

(** [B] is what is shown of the admittance matrix [A] of an identification of the given phases:
    phases instead of sequences unless sequences are asked for, and the other way round *)
Definition shows (phases : string) (sequence : bool) (A B : mat C) : Prop :=
  (phases = "012"%string /\ sequence = false /\ admittance_sequence_to_phase A = Ok B) \/
  (phases = "123"%string /\ sequence = true /\ admittance_phase_to_sequence A = Ok B) \/
  (~ (phases = "012"%string /\ sequence = false) /\ ~ (phases = "123"%string /\ sequence = true) /\ B = A).

(** [m] describes the errors of the estimate [est] of [y]: overall errors of the matrices of the identification, errors of
    the entries of what is shown *)
Definition describes (phases : string) (sequence : bool) (y est : mat C) (m : ErrorMetrics) : Prop :=
  overall y est m /\ exists y' est', shows phases sequence y y' /\ shows phases sequence est est' /\ entrywise y' est' m.

(** the text file reports [m] and nothing else *)
Definition reports (s : outputs) (path : string) (m : ErrorMetrics) : Prop := s path = Some (Text [Metrics m]).

(** the pair of nodes [a > b] is not connected; such pairs are the ones of the sparsity report,
    together with the diagonal entries if the matrix is not a Laplacian *)
Definition absent (y : mat C) (a b : nat) : Prop := get y a b = 0%K /\ get y b a = 0%K.
Definition in_sparsity (laplacian : bool) (y : mat C) (a b : nat) : Prop :=
  (b < a /\ absent y a b) \/ (laplacian = false /\ a = b).
(** [w] is 1 for these pairs and 0 for the others *)
Definition marks (laplacian : bool) (y : mat C) (w : nat -> nat -> R) : Prop :=
  forall a b, a < nr y -> b < nr y -> (in_sparsity laplacian y a b -> w a b = 1%R) /\ (~ in_sparsity laplacian y a b -> w a b = 0%R).
(** sum of the squares of [f] over these pairs *)
Definition over_pairs (n : nat) (w : nat -> nat -> R) (f : nat -> nat -> C) : R :=
  sumn n (fun a => sumn n (fun b => (w a b * sq (f a b))%R)).

(** what [m] of the sparsity report says of the estimate [est]: errors of the sums of the two entries of such a pair *)
Definition both (M : mat C) (a b : nat) : C := (get M a b + get M b a)%K.
Definition sparsity_of (laplacian : bool) (y est : mat C) (m : ErrorMetrics) : Prop := forall w, marks laplacian y w ->
  let d a b := (both est a b - both y a b)%K in
  (0 <= em_fro m)%R /\ (em_fro m * em_fro m = over_pairs (nr y) w d)%R /\
  percentage (over_pairs (nr y) w (both est)) (over_pairs (nr y) w d) (em_rrms m) /\
  percentage (over_pairs (nr y) w (both est)) (over_pairs (nr y) w (fun a b => if Req_EM_T (sq (both est a b)) 0 then 0%K else d a b)) (em_map m) /\
  (exists a b, a < nr y /\ b < nr y /\ in_sparsity laplacian y a b /\ em_max m = cabs (d a b)) /\
  (forall a b, a < nr y -> b < nr y -> in_sparsity laplacian y a b -> (cabs (d a b) <= em_max m)%R).

(** outputs of the part on the standard methods and of the part on the Bayesian identification *)
Definition standard_outputs : list string :=
  ["ols_error_metrics.txt"; "tls_error_metrics.txt"; "lasso_error_metrics.txt";
   "simulations_output/plot_data/y_ols.npz"; "simulations_output/plot_data/y_tls.npz"; "simulations_output/plot_data/y_lasso.npz"]%string.
Definition bayesian_outputs : list string :=
  ["sparse_tls_error_metrics.txt"; "sparsity_metrics.txt";
   "simulations_output/plot_data/y_sparse_tls_cov.npz"; "simulations_output/plot_data/y_sparse_tls_cov_errors.npz";
   "simulations_output/plot_data/errors.npz"; "simulations_output/plot_data/targets.npz"; "simulations_output/plot_data/comparison.npz"]%string.
Definition network_outputs : list string :=
  ["simulations_output/plot_data/correlations.npz"; "simulations_output/plot_data/y_bus.npz"]%string.

(** columns and labels of the voltages fit an admittance matrix of [n] nodes *)
Definition fits (phases : string) (n : nat) (h : list Z) (w : mat C) : Prop :=
  ((phases = "012" \/ phases = "123")%string /\ nc w = n /\ n mod 3 = 0) \/
  ((phases <> "012" /\ phases <> "123")%string /\ length h = nc w /\ count_occ Z.eq_dec h 1%Z = n).
(** the files of a network of [n] nodes: the reference and the simulation are there, and all matrices that are there have the same size *)
Definition consistent (fs : files R) (network : string) (n : nat) (y : mat C) (phases : string) (laplacian : bool) : Prop :=
  fs (reference_path network) = Some (Reference y phases laplacian) /\ shape y n n /\ 0 < n /\
  (exists i v j w yy pw f h, fs (simulation_path network) = Some (Simulation i v j w yy pw f h) /\ fits phases n h w) /\
  (forall c, fs (standard_path network) = Some c -> exists o t e, c = Standard o t e /\ shape o n n /\ shape t n n /\ shape e n n) /\
  (forall c, fs (bayesian_path network) = Some c -> exists yb its, c = Bayesian yb its /\ shape yb n n /\ forall it, In it its -> shape (st_y it) n n).

(** the array of a figure shows the moduli of the entries of [B] *)
Definition pictures (s : outputs) (name : string) (B : mat C) : Prop := exists rows, s ("simulations_output/plot_data/" ++ name ++ ".npz")%string = Some (Array rows) /\
  length rows = nr B /\ forall i, i < nr B -> length (nth i rows []) = nc B /\ forall j, j < nc B -> nth j (nth i rows []) NonFinite = Fin (cabs (get B i j)).
(** the pairs of different nodes with a line, once each *)
Definition connected (y : mat C) (ps : list (nat * nat)) : Prop := NoDup ps /\ forall a b, In (a, b) ps <-> b < a /\ a < nr y /\ ~ absent y a b.
(** half of the modulus of the sum of the two entries of a pair of nodes *)
Definition middle (M : mat C) (p : nat * nat) : flt := Fin (cabs (both M (fst p) (snd p)) / 2)%R.
(** [u] is what is shown of the voltages [w] with labels [h]: the columns with label 1 if one phase was identified *)
Definition shows_voltage (phases : string) (sequence : bool) (h : list Z) (w u : mat C) : Prop :=
  (phases = "012"%string /\ sequence = false /\ measurement_sequence_to_phase w = Ok u) \/
  (phases = "123"%string /\ sequence = true /\ measurement_phase_to_sequence w = Ok u) \/
  (((phases = "012"%string /\ sequence = true) \/ (phases = "123"%string /\ sequence = false)) /\ u = w) \/
  (phases <> "012"%string /\ phases <> "123"%string /\ nr u = nr w /\ exists ks, nc u = length ks /\ Sorted.StronglySorted lt ks /\
    (forall k, In k ks <-> k < nc w /\ (nth_error h k = Some 1%Z \/ nth_error h k = None)) /\
    forall t j, t < nr w -> j < length ks -> get u t j = get w t (nth j ks 0)).
(** [V] is [u] minus the average of each of its columns *)
Definition is_centred (u V : mat C) : Prop := shape V (nr u) (nc u) /\ forall j, j < nc u ->
  (0 < nr u -> sumn (nr u) (fun t => get V t j) = 0%K) /\ forall t t', t < nr u -> t' < nr u -> (get V t j - get V t' j = get u t j - get u t' j)%K.
(** decimal logarithm of the root of the modulus *)
Definition decade (z : C) (x : flt) : Prop := (z = 0%K -> x = NonFinite) /\ (z <> 0%K -> exists r, x = Fin r /\ (Rpower 10 r * Rpower 10 r = cabs z)%R).
