(** Properties C10 and C11: the error metrics. *)
From Coq Require Import List Reals Lra.
From Verif Require Import BasePy BaseFld BaseSum BaseMat ModelErrorMetrics ProofMetrics.
Import ListNotations.
Local Open Scope R_scope.

(** C10: value and metric axioms of the absolute errors *)
Theorem C10_fro_error_is_root_of_squares : forall y h, length y = length h ->
  exists d, fro_error y h = Ok d /\ 0 <= d /\
    d * d = sumn (length y) (fun i => let z := csub (nth i y dflt0) (nth i h dflt0) in re z * re z + im z * im z).
Proof. exact p_fro_value. Qed.
Theorem C10_max_error_is_largest_modulus : forall y h, length y = length h -> y <> [] ->
  exists m, max_error y h = Ok m /\ (exists i, (i < length y)%nat /\ m = cabs (csub (nth i y dflt0) (nth i h dflt0))) /\
            forall i, (i < length y)%nat -> cabs (csub (nth i y dflt0) (nth i h dflt0)) <= m.
Proof. exact p_max_value. Qed.
Theorem C10_fro_error_zero_iff_equal : forall y h, length y = length h ->
  exists d, fro_error y h = Ok d /\ fro_error h y = Ok d /\ 0 <= d /\ (d = 0 <-> y = h).
Proof. exact p_fro_metric. Qed.
Theorem C10_fro_error_triangle : forall x y z, length x = length y -> length y = length z ->
  exists a b c, fro_error x y = Ok a /\ fro_error y z = Ok b /\ fro_error x z = Ok c /\ c <= a + b.
Proof. exact p_fro_triangle. Qed.
Theorem C10_max_error_zero_iff_equal : forall y h, length y = length h -> y <> [] ->
  exists d, max_error y h = Ok d /\ max_error h y = Ok d /\ 0 <= d /\ (d = 0 <-> y = h).
Proof. exact p_max_metric. Qed.
Theorem C10_max_error_triangle : forall x y z, length x = length y -> length y = length z -> x <> [] ->
  exists a b c, max_error x y = Ok a /\ max_error y z = Ok b /\ max_error x z = Ok c /\ c <= a + b.
Proof. exact p_max_triangle. Qed.
Theorem C10_max_le_fro_le_sqrt_size_max : forall y h, length y = length h -> y <> [] ->
  exists m f, max_error y h = Ok m /\ fro_error y h = Ok f /\ m <= f /\ f <= sqrt (INR (length y)) * m.
Proof. exact p_max_fro. Qed.
Theorem C10_shape_mismatch_and_empty_are_rejected : forall y h,
  (length y <> length h -> fro_error y h = Err ValueError /\ max_error y h = Err ValueError) /\
  max_error [] [] = Err ValueError.
Proof. exact p_metrics_shapes. Qed.
Example C10_ex : fro_error [Cx 3 4; Cx 1 0] [Cx 0 0; Cx 1 0] = Ok 5 /\ length [Cx 3 4; Cx 1 0] = length [Cx 0 0; Cx 1 0].
Proof. split; [exact ex_fro|reflexivity]. Qed.

(** C11: relative errors *)
Theorem C11_rrms_is_percentage_of_norm : forall y h, length y = length h -> y <> czero (length y) ->
  exists f w r, fro_error y h = Ok f /\ fro_error y (czero (length y)) = Ok w /\ rrms_error y h = Ok (Fin r) /\
    0 < w /\ r * w = 100 * f.
Proof. exact p_rrms_value. Qed.
Theorem C11_rrms_scale_free : forall k y h, length y = length h -> y <> czero (length y) -> k <> dflt0 ->
  rrms_error (cscale k y) (cscale k h) = rrms_error y h.
Proof. exact p_rrms_scale. Qed.
Theorem C11_rrms_zero_iff_perfect : forall y h, length y = length h -> y <> czero (length y) ->
  exists r, rrms_error y h = Ok (Fin r) /\ 0 <= r /\ (r = 0 <-> y = h).
Proof. exact p_rrms_zero. Qed.
Theorem C11_zero_estimate_gives_100 : forall y, y <> czero (length y) -> rrms_error y (czero (length y)) = Ok (Fin 100).
Proof. exact p_rrms_zero_estimate. Qed.
Theorem C11_zero_truth_has_no_finite_error : forall h, rrms_error (czero (length h)) h = Ok NonFinite.
Proof. exact p_rrms_zero_truth. Qed.
Theorem C11_map_below_rrms : forall y h, length y = length h -> y <> czero (length y) ->
  exists m r, map_error y h = Ok (Fin m) /\ rrms_error y h = Ok (Fin r) /\ 0 <= m <= r /\
    ((forall i, (i < length y)%nat -> nth i y dflt0 = dflt0 -> nth i h dflt0 = dflt0) <-> m = r).
Proof. exact p_map_le_rrms. Qed.
Example C11_ex : [Cx 3 4; Cx 1 0] <> czero (length [Cx 3 4; Cx 1 0]) /\ Cx 2 1 <> dflt0 /\
  rrms_error [Cx 3 4; Cx 1 0] (czero 2) = Ok (Fin 100).
Proof.
  split; [exact ex_nonzero|]. split; [intro H; injection H; lra|].
  exact (C11_zero_estimate_gives_100 _ ex_nonzero).
Qed.

Print Assumptions C10_fro_error_triangle.
Print Assumptions C11_map_below_rrms.
