(** Model of /repo/src/simulation/noise.py:16-109 (noise generation).

    The random generator is a parameter: a state and a function [gauss] that returns the next
    standard normal value; [np.random.normal(0, sd, shape)] is sd times such values, drawn in
    row-major order, and refuses a negative sd.  Real arithmetic is exact.
    Simplification: a measurement without rows, whose column means are nan, has mean 0. *)
From Coq Require Import List ZArith Reals Bool.
From Verif Require Import BasePy BaseFld BaseSum BaseMat ModelErrorMetrics ModelNoiseCov.
Import ListNotations.
Local Open Scope R_scope.

Section Noise.
Context {St : Type} (gauss : St -> R * St).

(** [n] successive standard normal values *)
Fixpoint draws (n : nat) (s : St) : list R * St :=
  match n with
  | 0%nat => ([], s)
  | S n' => let '(g, s1) := gauss s in let '(l, s2) := draws n' s1 in (g :: l, s2)
  end.

Definition negative (x : R) : bool := if Rlt_dec x 0 then true else false.

(** [np.random.normal(0, sd, (r, c))] for a scalar sd, and for an array of c values *)
Definition normal_all (sd : R) (r c : nat) (s : St) : res (mat R * St) :=
  if negative sd then Err ValueError
  else let '(g, s') := draws (r * c) s in Ok (mk r c (fun i j => 0 + sd * vget g (i * c + j)), s').
Definition normal_row (sd : list R) (r c : nat) (s : St) : res (mat R * St) :=
  if existsb negative sd then Err ValueError
  else let '(g, s') := draws (r * c) s in Ok (mk r c (fun i j => 0 + vget sd j * vget g (i * c + j)), s').

(** noise.py:32-52.  The means are taken over the rows. *)
Definition add_cartesian_noise_to_measurement (actual : mat C) (real_accuracy imag_accuracy : R) (s : St)
  : res (mat C * list R * list R * St) :=
  let T := nr actual in let n := nc actual in
  let sd (part : C -> R) (acc : R) :=
    mkv n (fun i => sumn T (fun t => Rabs (part (get actual t i))) / INR T * acc / 3) in
  let real_sd := sd re real_accuracy in
  let imag_sd := sd im imag_accuracy in
  '(noise_real, s1) <- normal_row real_sd T n s ;;
  '(noise_imag, s2) <- normal_row imag_sd T n s1 ;;
  Ok (mk T n (fun t i => cadd (cadd (get actual t i) (Cx (get noise_real t i) 0)) (cmul (Cx 0 1) (Cx (get noise_imag t i) 0))),
      real_sd, imag_sd, s2).

(** noise.py:16-29 *)
Definition add_noise_in_cartesian_coordinates (current voltage : mat C) (current_accuracy voltage_accuracy : R) (s : St)
  : res (mat C * mat C * St) :=
  '(noisy_voltage, _, _, s1) <- add_cartesian_noise_to_measurement voltage voltage_accuracy voltage_accuracy s ;;
  '(noisy_current, _, _, s2) <- add_cartesian_noise_to_measurement current current_accuracy current_accuracy s1 ;;
  Ok (noisy_voltage, noisy_current, s2).

(** noise.py:88-90 = 98-100, one column after the other *)
Fixpoint normal_columns (sds : list R) (T : nat) (s : St) : res (list (mat R) * St) :=
  match sds with
  | [] => Ok ([], s)
  | sd :: r => '(col, s1) <- normal_all sd T 1 s ;; '(cols, s2) <- normal_columns r T s1 ;; Ok (col :: cols, s2)
  end.

(** noise.py:85-92 and 95-102 *)
Definition noise_array (sd : sdarg) (T n : nat) (s : St) : res (mat R * St) :=
  match sd with
  | SdFloat x | SdScalar x => normal_all x T n s
  | SdInt _ => Err AttributeError                        (* int has no attribute 'size' *)
  | SdArray l =>
    if Nat.eqb (length l) 1 then normal_all (vget l 0) T n s
    else if Nat.eqb (length l) n then
      '(cols, s1) <- normal_columns l T s ;;
      Ok (mk T n (fun t i => get (nth i cols (mzeros T 1)) t 0), s1)
    else match l with [] => Err IndexError | x :: _ => normal_all x T n s end
  end.

(** noise.py:82, 105-107 for one phasor *)
Definition polar_entry (z : C) (magnitude_noise phase_noise : R) : C :=
  let magnitude := cabs z in let phase := angle z in
  let noisy_magnitude := magnitude + magnitude_noise * magnitude in
  let noisy_phase := phase + phase_noise * phase in
  Cx (noisy_magnitude * cos noisy_phase) (noisy_magnitude * sin noisy_phase).

(** noise.py:71-109, two-dimensional measurement *)
Definition add_polar_noise_to_measurement (actual : mat C) (magnitude_sd phase_sd : sdarg) (s : St) : res (mat C * St) :=
  let T := nr actual in let n := nc actual in
  '(magnitude_noise, s1) <- noise_array magnitude_sd T n s ;;
  '(phase_noise, s2) <- noise_array phase_sd T n s1 ;;
  Ok (mk T n (fun t i => polar_entry (get actual t i) (get magnitude_noise t i) (get phase_noise t i)), s2).

(** the same for a vector of measurements, as the resampler calls it: [shape[1]] does not exist *)
Definition scalar_like (sd : sdarg) : res unit :=
  match sd with SdArray l => if Nat.eqb (length l) 1 then Ok tt else Err IndexError | _ => Ok tt end.
Definition add_polar_noise_to_vector (actual : list C) (magnitude_sd phase_sd : sdarg) (s : St) : res (list C * St) :=
  let T := length actual in
  _ <- scalar_like magnitude_sd ;;
  '(magnitude_noise, s1) <- noise_array magnitude_sd T 1 s ;;
  _ <- scalar_like phase_sd ;;
  '(phase_noise, s2) <- noise_array phase_sd T 1 s1 ;;
  Ok (mkv T (fun t => polar_entry (vget actual t) (get magnitude_noise t 0) (get phase_noise t 0)), s2).

(** noise.py:55-68 *)
Definition add_noise_in_polar_coordinates (current voltage : mat C) (magnitude_sd phase_sd : sdarg) (s : St)
  : res (mat C * mat C * St) :=
  '(noisy_voltage, s1) <- add_polar_noise_to_measurement voltage magnitude_sd phase_sd s ;;
  '(noisy_current, s2) <- add_polar_noise_to_measurement current magnitude_sd phase_sd s1 ;;
  Ok (noisy_voltage, noisy_current, s2).
End Noise.
