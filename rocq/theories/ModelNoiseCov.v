(** Model of /repo/src/models/noise_transformation.py.

    Real arithmetic is exact.  A division by zero gives [NonFinite], which every further
    operation propagates; the one case where IEEE arithmetic would come back to a finite
    number, 1/inf, needs a zero variance with a non-zero covariance (lines 79-81), which
    the formulas exclude (ProofNoiseCov.kernel_zero_cov).
    Simplifications: the columns written one at a time in the loops (lines 39-55, 114-122,
    257-260) are written as one array; scipy's sparse block matrix is its dense equivalent;
    a measurement array without entries gives the empty matrix. *)
From Coq Require Import List ZArith Reals.
From Verif Require Import BasePy BaseFld BaseSum BaseMat BaseNumpy ModelMatrixOps ModelErrorMetrics.
Import ListNotations.
Local Open Scope R_scope.

(** [np.angle] = arctan2(imag, real).  Simplification: there is no negative zero. *)
Definition angle (z : C) : R :=
  if Rlt_dec 0 (re z) then atan (im z / re z)
  else if Rlt_dec (re z) 0 then
    (if Rle_dec 0 (im z) then atan (im z / re z) + PI else atan (im z / re z) - PI)
  else if Rlt_dec 0 (im z) then PI / 2
  else if Rlt_dec (im z) 0 then - (PI / 2)
  else 0.

(** What may be passed as [sd_magnitude]: a Python float, a numpy scalar, a 1-D array, an int. *)
Inductive sdarg := SdFloat (x : R) | SdScalar (x : R) | SdArray (l : list R) | SdInt (z : Z).

(** The three entries computed for one phasor: real variance, imaginary variance, covariance *)
Record kernel := mkKernel { k_real : C -> R -> R -> R; k_imag : C -> R -> R -> R; k_cov : C -> R -> R -> R }.

(** noise_transformation.py:40-53 (per column) *)
Definition exact_column : kernel := mkKernel
  (fun z sm sp => let m := cabs z in let f := angle z in let m_var := sm ^ 2 in let f_var := sp ^ 2 in
     m ^ 2 * exp (- f_var) * (cos f ^ 2 * (cosh f_var - 1) + sin f ^ 2 * sinh f_var)
     + m_var * exp (- f_var) * (cos f ^ 2 * cosh f_var + sin f ^ 2 * sinh f_var))
  (fun z sm sp => let m := cabs z in let f := angle z in let m_var := sm ^ 2 in let f_var := sp ^ 2 in
     m ^ 2 * exp (- f_var) * (sin f ^ 2 * (cosh f_var - 1) + cos f ^ 2 * sinh f_var)
     + m_var * exp (- f_var) * (sin f ^ 2 * cosh f_var + cos f ^ 2 * sinh f_var))
  (fun z sm sp => let m := cabs z in let f := angle z in let m_var := sm ^ 2 in let f_var := sp ^ 2 in
     sin f * cos f * exp (- 2 * f_var) * (m_var + m ^ 2 * (1 - exp f_var))).
(** noise_transformation.py:67-79 (one value for all) *)
Definition exact_all : kernel := mkKernel
  (fun z sm sp => let m := cabs z in let f := angle z in let m_var := sm ^ 2 in let f_var := sp ^ 2 in
     m ^ 2 * exp (- f_var) * (cos f ^ 2 * (cosh f_var - 1) + sin f ^ 2 * sinh f_var)
     + m_var * exp (- f_var) * (cos f ^ 2 * cosh f_var + sin f ^ 2 * sinh f_var))
  (fun z sm sp => let m := cabs z in let f := angle z in let m_var := sm ^ 2 in let f_var := sp ^ 2 in
     m ^ 2 * exp (- f_var) * (sin f ^ 2 * (cosh f_var - 1) + cos f ^ 2 * sinh f_var)
     + m_var * exp (- f_var) * (sin f ^ 2 * cosh f_var + cos f ^ 2 * sinh f_var))
  (fun z sm sp => let m := cabs z in let f := angle z in let m_var := sm ^ 2 in let f_var := sp ^ 2 in
     sin f * cos f * exp (- 2 * f_var) * (m_var + m ^ 2 * (1 - exp f_var))).

(** noise_transformation.py:115-122 (per column) *)
Definition naive_column : kernel := mkKernel
  (fun z sm sp => let m := cabs z in let f := angle z in let m_var := sm ^ 2 in let f_var := sp ^ 2 in
     cos f ^ 2 * m_var + m ^ 2 * sin f ^ 2 * f_var)
  (fun z sm sp => let m := cabs z in let f := angle z in let m_var := sm ^ 2 in let f_var := sp ^ 2 in
     sin f ^ 2 * m_var + m ^ 2 * cos f ^ 2 * f_var)
  (fun z sm sp => let m := cabs z in let f := angle z in let m_var := sm ^ 2 in let f_var := sp ^ 2 in
     sin f * cos f * (m_var - m ^ 2 * f_var)).
(** noise_transformation.py:137-146 (one value for all) *)
Definition naive_all : kernel := mkKernel
  (fun z sm sp => let m := cabs z in let f := angle z in let m_var := sm ^ 2 in let f_var := sp ^ 2 in
     cos f ^ 2 * m_var + m ^ 2 * sin f ^ 2 * f_var)
  (fun z sm sp => let m := cabs z in let f := angle z in let m_var := sm ^ 2 in let f_var := sp ^ 2 in
     sin f ^ 2 * m_var + m ^ 2 * cos f ^ 2 * f_var)
  (fun z sm sp => let m := cabs z in let f := angle z in let m_var := sm ^ 2 in let f_var := sp ^ 2 in
     sin f * cos f * (m_var - m ^ 2 * f_var)).

(** noise_transformation.py:164-186, one entry of the array *)
Definition average_true_var_real (z : C) (sd_magnitude sd_phase : R) : R :=
  let m := cabs z in let f := angle z in
  let m_var := sd_magnitude ^ 2 in let f_var := sd_phase ^ 2 in
  let term_1 := cos f ^ 2 * (cosh (2 * f_var) - cosh f_var) in
  let term_2 := sin f ^ 2 * (sinh (2 * f_var) - sinh f_var) in
  let term_3 := cos f ^ 2 * (2 * cosh (2 * f_var) - cosh f_var) in
  let term_4 := sin f ^ 2 * (2 * sinh (2 * f_var) - sinh f_var) in
  m ^ 2 * exp (- 2 * f_var) * (term_1 + term_2) + m_var * exp (- 2 * f_var) * (term_3 + term_4).

(** noise_transformation.py:189-211, one entry of the array *)
Definition average_true_var_imag (z : C) (sd_magnitude sd_phase : R) : R :=
  let m := cabs z in let f := angle z in
  let m_var := sd_magnitude ^ 2 in let f_var := sd_phase ^ 2 in
  let term_1 := sin f ^ 2 * (cosh (2 * f_var) - cosh f_var) in
  let term_2 := cos f ^ 2 * (sinh (2 * f_var) - sinh f_var) in
  let term_3 := sin f ^ 2 * (2 * cosh (2 * f_var) - cosh f_var) in
  let term_4 := cos f ^ 2 * (2 * sinh (2 * f_var) - sinh f_var) in
  m ^ 2 * exp (- 2 * f_var) * (term_1 + term_2) + m_var * exp (- 2 * f_var) * (term_3 + term_4).

(** noise_transformation.py:214-233, one entry of the array *)
Definition average_true_cov (z : C) (sd_magnitude sd_phase : R) : R :=
  let m := cabs z in let f := angle z in
  let m_var := sd_magnitude ^ 2 in let f_var := sd_phase ^ 2 in
  sin f * cos f * exp (- 4 * f_var) * (m_var + (m ^ 2 + m_var) * (1 - exp f_var)).

(** noise_transformation.py:258-260 and 277-279 *)
Definition average_kernel : kernel := mkKernel average_true_var_real average_true_var_imag average_true_cov.

(** float arithmetic with non-finite values *)
Definition f2 (op : R -> R -> R) (x y : flt) : flt :=
  match x, y with Fin a, Fin b => Fin (op a b) | _, _ => NonFinite end.
Definition fneg (x : flt) : flt := match x with Fin a => Fin (- a) | NonFinite => NonFinite end.
Definition fquot (x y : flt) : flt := match x, y with Fin a, Fin b => fdiv a b | _, _ => NonFinite end.

(** noise_transformation.py:82-86 = 149-155 = 282-288, for one phasor *)
Definition invert_entry (r i c : flt) : flt * flt * flt :=
  let real_var_inv := fquot (Fin 1) (f2 Rminus r (f2 Rmult c (fquot c i))) in
  let imag_var_inv := fquot (Fin 1) (f2 Rminus i (f2 Rmult c (fquot c r))) in
  let cov_inv := fneg (fquot (f2 Rmult c real_var_inv) i) in
  (real_var_inv, imag_var_inv, cov_inv).

(** noise_transformation.py:89-92 = 158-161 = 291-294: [bmat] of four diagonal blocks *)
Definition fnth (l : list flt) (i : nat) : flt := nth i l (Fin 0).
Definition sparse_bmat (real_var imag_var cov : list flt) : mat flt :=
  let n := length real_var in
  mk (n + n) (n + n) (fun a b =>
    if Nat.ltb a n
    then (if Nat.ltb b n then (if Nat.eqb a b then fnth real_var a else Fin 0)
          else (if Nat.eqb a (b - n) then fnth cov a else Fin 0))
    else (if Nat.ltb b n then (if Nat.eqb (a - n) b then fnth cov b else Fin 0)
          else (if Nat.eqb a b then fnth imag_var (a - n) else Fin 0))).

Definition finish_covariance (inverted : bool) (r i c : list R) : mat flt :=
  let ks := map (fun k => (Fin (vget r k), Fin (vget i k), Fin (vget c k))) (range (length r)) in
  let ks' := if inverted then map (fun p => invert_entry (fst (fst p)) (snd (fst p)) (snd p)) ks else ks in
  sparse_bmat (map (fun p => fst (fst p)) ks') (map (fun p => snd (fst p)) ks') (map snd ks').

(** The body shared by the three covariance functions.
    Lines 34-62, 110-129, 252-268: one standard deviation per column;
    lines 65-79, 132-146, 271-279: one for all. *)
Definition covariance (column all : kernel) (measurement : mat C) (sd_magnitude : sdarg) (sd_phase : R)
  (inverted : bool) : res (mat flt) :=
  let per_column (l : list R) :=
    let e (g : C -> R -> R -> R) := vectorize_matrix (mk (nr measurement) (nc measurement)
      (fun t i => g (get measurement t i) (vget l i) sd_phase)) in
    Ok (finish_covariance inverted (e (k_real column)) (e (k_imag column)) (e (k_cov column))) in
  let for_all (sd : list R) :=
    let v := vectorize_matrix measurement in
    let e (g : C -> R -> R -> R) := broadcast1 (fun z s => g z s sd_phase) v sd in
    r <- e (k_real all) ;; i <- e (k_imag all) ;; c <- e (k_cov all) ;;
    Ok (finish_covariance inverted r i c) in
  match sd_magnitude with
  | SdFloat x => for_all [x]
  | SdInt _ => Err AttributeError                       (* int has no attribute 'size' *)
  | SdScalar x => if Nat.eqb 1 (nc measurement) then Err IndexError   (* sd_magnitude[0] on a scalar *)
                  else for_all [x]
  | SdArray l => if Nat.eqb (length l) (nc measurement) then per_column l
                 else if Nat.ltb 1 (length l) then for_all [vget l 0]
                 else for_all l
  end.

(** noise_transformation.py:20-92 *)
Definition exact_noise_covariance := covariance exact_column exact_all.
(** noise_transformation.py:95-161 *)
Definition naive_noise_covariance := covariance naive_column naive_all.
(** noise_transformation.py:236-295 *)
Definition average_true_noise_covariance := covariance average_kernel average_kernel.
