(** Model of /repo/plot_results.py:22-149 and of the saving and colouring parts of
    /repo/src/identification/utils.py:20-40 (map_color_colormap), 43-63 (plot_heatmap),
    66-104 (plot_scatter) and 107-140 (plot_series).

    The program reads the files of the simulation and of the identification, and writes text
    files with error metrics and the arrays shown on the figures.  The figures themselves
    (png, pdf and tikz files) and what is printed on the terminal are not modelled.
    Not modelled either: the part after line 151, which reads the file of an uncertainty
    analysis; the identification never finishes when it is asked for one (C72), so that no
    such file is written.  Arithmetic is exact, over the real numbers; the eigenvalues of
    line 59 are a parameter. *)
From Coq Require Import String.
From Coq Require Import List Reals Bool ZArith.
From Verif Require Import BasePy BaseFld BaseSum BaseMat BaseNumpy BaseLin ModelMatrixOps ModelReduce ModelFit ModelIdent ModelRun
  ModelErrorMetrics ModelLines.
Import ListNotations.
Local Open Scope nat_scope.

(** one printed line: a title or error metrics *)
Inductive line := Title (s : string) | Metrics (m : ErrorMetrics).
(** what an output file contains: printed lines or the array of a figure *)
Inductive artifact := Text (l : list line) | Array (rows : list (list flt)).
Definition outputs := string -> option artifact.
(** a program that writes output files *)
Definition out (A : Type) := outputs -> outputs * res A.
Definition pure {A} (r : res A) : out A := fun s => (s, r).
Definition bind_out {A B} (m : out A) (f : A -> out B) : out B :=
  fun s => match m s with (s', Ok a) => f a s' | (s', Err e) => (s', Err e) end.
Notation "x <~ e ;;; k" := (bind_out e (fun x => k)) (at level 61, e at next level, right associativity).
Notation "! p <~ e ;;; k" := (bind_out e (fun p => k)) (at level 61, p pattern, e at next level, right associativity).

Definition write (path : string) (a : artifact) : out unit :=
  fun s => ((fun p => if String.eqb p path then Some a else s p), Ok tt).
(** [print(..., file=f)] into a file that is open *)
Definition print (path : string) (l : line) : out unit :=
  fun s => ((fun p => if String.eqb p path then Some (Text (match s path with Some (Text t) => t ++ [l] | _ => [l] end)) else s p), Ok tt).

Section Names.
Local Open Scope string_scope.
(** utils.py:56, 82, 123 *)
Definition plot_data_path (name : string) : string := "simulations_output/plot_data/" ++ name ++ ".npz".
End Names.

(** utils.py:20-40; [cmap norm] is the colour map of the given name, [colormaps] the known names *)
Inductive colour_arg := ByName (s : string) | ByList (l : list string) | Other (s : string).
Definition map_color_colormap (colormaps : list string) (cmap : string -> nat -> nat -> string) (name : colour_arg) (nitem : nat) : res (list string) :=
  match name with
  | ByName s => if existsb (String.eqb s) colormaps then Ok (map (cmap s nitem) (range nitem)) else Ok (map (fun _ => s) (range nitem))
  | ByList l => if (nitem <=? length l) then Ok (map (fun i => nth i l EmptyString) (range nitem))
                else match l with [] => Err IndexError | x :: _ => Ok (map (fun _ => x) (range nitem)) end
  | Other s => Ok (map (fun _ => s) (range nitem))
  end.

(** utils.py:43-63, as far as the saved array is concerned *)
Definition plot_heatmap (m : list (list flt)) (name : string) : out unit := write (plot_data_path name) (Array m).
(** utils.py:66-104 *)
Definition plot_scatter (m : list (list flt)) (name : string) : out unit := write (plot_data_path name) (Array m).
(** utils.py:107-140: with as many labels as columns, line 134 calls a method that does not exist;
    [columns] is [m.shape[1]] *)
Definition plot_series (m : list (list flt)) (columns : nat) (name : string) (labels : option (list string)) : out unit :=
  _ <~ write (plot_data_path name) (Array m) ;;;
  pure (match labels with
        | Some l => if (length l =? columns) && (0 <? columns) then Err AttributeError else Ok tt
        | None => Ok tt
        end).

(** [np.abs] of a matrix, as an array *)
Definition moduli (m : mat C) : list (list flt) := map (map (fun z => Fin (cabs z))) (dat m).
(** a vector as an array with one column: [np.expand_dims(v, axis=1)], [v.reshape((nodes, 1))] *)
Definition column (v : list flt) : list (list flt) := map (fun x => [x]) v.
Definition flog10 (x : R) : flt := if Req_EM_T x 0 then NonFinite else Fin (ln x / ln 10)%R.

(** plot_results.py:58 *)
Definition centred (v : mat C) : mat C :=
  mk (nr v) (nc v) (fun i j => (get v i j - sumn (nr v) (fun k => get v k j) / knat (nr v))%K).

(** [error_metrics] of matrices: the sizes must agree *)
Definition same_size (a b : mat C) : bool := (nr a =? nr b) && (nc a =? nc b).
Definition matrix_metrics (y h : mat C) : res ErrorMetrics :=
  if same_size y h then error_metrics (flatten y) (flatten h) else Err ValueError.
Definition matrix_rrms (y h : mat C) : res flt :=
  if same_size y h then rrms_error (flatten y) (flatten h) else Err ValueError.

(** [np.abs(y_bus-np.diag(np.diag(y_bus)))]; the matrix must be square *)
Definition off_diagonal_moduli (y : mat C) : res (mat R) :=
  if (nr y =? nc y) then Ok (mk (nr y) (nc y) (fun i j => cabs (if (i =? j) then (get y i j - get y i j)%K else get y i j)))
  else Err ValueError.

Section Program.
Variable eigvals : mat C -> list C.
(** the files in the data folder before the program starts *)
Variable fs : files R.

Local Open Scope string_scope.

(** plot_results.py:43-53: the conversion of admittances and the voltages *)
Definition correct_component (phases : string) (sequence : bool) (y : mat C) : res (mat C) :=
  if negb (String.eqb phases "012") && negb (String.eqb phases "123") then Ok y
  else if String.eqb phases "012" && negb sequence then admittance_sequence_to_phase y
  else if String.eqb phases "123" && sequence then admittance_phase_to_sequence y
  else Ok y.
Definition correct_voltage (phases : string) (sequence : bool) (ids : list Z) (v : mat C) : res (mat C) :=
  if negb (String.eqb phases "012") && negb (String.eqb phases "123")
  then delete_cols v (selected (map (fun p => negb (p =? 1)%Z) ids))
  else if String.eqb phases "012" && negb sequence then measurement_sequence_to_phase v
  else if String.eqb phases "123" && sequence then measurement_phase_to_sequence v
  else Ok v.

(** plot_results.py:72-76 = 78-82 = 85-89 *)
Definition report (y_bus est : mat C) (text name : string) : out unit :=
  m <~ pure (matrix_metrics y_bus est) ;;;
  _ <~ write text (Text [Metrics m]) ;;;
  plot_heatmap (moduli est) name.

(** plot_results.py:63-93; the three estimates stay undefined without a file *)
Definition standard_section (name : string) (correct : mat C -> res (mat C)) (y_bus : mat C) : out (option (mat C * mat C * mat C)) :=
  match fs (standard_path name) with
  | None => pure (Ok None)
  | Some (Standard o t l) =>
      y_ols <~ pure (correct o) ;;; y_tls <~ pure (correct t) ;;; y_lasso <~ pure (correct l) ;;;
      _ <~ report y_bus y_ols "ols_error_metrics.txt" "y_ols" ;;;
      _ <~ report y_bus y_tls "tls_error_metrics.txt" "y_tls" ;;;
      _ <~ report y_bus y_lasso "lasso_error_metrics.txt" "y_lasso" ;;;
      pure (Ok (Some (y_ols, y_tls, y_lasso)))
  | Some _ => pure (Err KeyError)
  end.

(** [a[mask]] and [2*a[mask]] for a column of [y_comp] *)
Definition doubled (mask : list bool) (l : list C) : list C := map (fun z => ((1 + 1) * z)%K) (ModelErrorMetrics.select mask l).
(** plot_results.py:139-146, one estimate *)
Definition sparsity_lines (title : string) (mask : list bool) (est actual : list C) : out unit :=
  _ <~ print "sparsity_metrics.txt" (Title title) ;;;
  m <~ pure (error_metrics (doubled mask est) (doubled mask actual)) ;;;
  print "sparsity_metrics.txt" (Metrics m).

(** plot_results.py:95-149 *)
Definition bayesian_section (name : string) (correct : mat C -> res (mat C)) (y_bus : mat C) (laplacian : bool) (nodes : nat)
    (standard : option (mat C * mat C * mat C)) : out unit :=
  match fs (bayesian_path name) with
  | None => pure (Ok tt)
  | Some (Bayesian y its) =>
      est <~ pure (correct y) ;;;
      errors <~ pure (mapM (fun i => f <- correct (st_y i) ;; matrix_rrms y_bus f) its) ;;;
      m <~ pure (matrix_metrics y_bus est) ;;;
      _ <~ write "sparse_tls_error_metrics.txt" (Text [Metrics m]) ;;;
      _ <~ plot_heatmap (moduli est) "y_sparse_tls_cov" ;;;
      _ <~ plot_heatmap (moduli (mk (nr est) (nc est) (fun i j => (get est i j - get y_bus i j)%K))) "y_sparse_tls_cov_errors" ;;;
      _ <~ plot_series (column errors) 1 "errors" None ;;;
      _ <~ plot_series (column (map (fun i => Fin (st_target i)) (tl its))) 1 "targets" None ;;;
      E <~ pure (e_of nodes laplacian) ;;;
      off <~ pure (off_diagonal_moduli y_bus) ;;;
      c <~ pure (eliminated_real E off) ;;;
      let idx := map (fun x => if Rlt_dec 0 (Rabs x) then true else false) c in
      match standard with
      | None => pure (Err UnboundLocalError)
      | Some (y_ols, y_tls, y_lasso) =>
          c0 <~ pure (eliminated E y_ols) ;;; c1 <~ pure (eliminated E y_tls) ;;; c2 <~ pure (eliminated E y_lasso) ;;;
          c3 <~ pure (eliminated E est) ;;; c4 <~ pure (eliminated E y_bus) ;;;
          _ <~ plot_scatter (map (fun k => map (fun c => Fin (cabs (vget c k))) [c0; c1; c2; c3; c4]) (selected idx)) "comparison" ;;;
          _ <~ write "sparsity_metrics.txt" (Text []) ;;;
          let out_idx := map negb idx in
          _ <~ sparsity_lines "OLS" out_idx c0 c4 ;;;
          _ <~ sparsity_lines "TLS" out_idx c1 c4 ;;;
          _ <~ sparsity_lines "Lasso" out_idx c2 c4 ;;;
          sparsity_lines "MLE" out_idx c3 c4
      end
  | Some _ => pure (Err KeyError)
  end.

(** plot_results.py:22-149; the options that only concern the figures are left out *)
Definition plot_results (network : string) (sequence : bool) : out unit :=
  ! (y, phases, laplacian) <~ pure (match fs (reference_path network) with
    | Some (Reference y p l) => Ok (y, p, l) | Some _ => Err KeyError | None => Err FileNotFoundError end) ;;;
  ! (voltage, ids) <~ pure (match fs (simulation_path network) with
    | Some (Simulation _ _ _ w _ _ _ h) => Ok (w, h) | Some _ => Err KeyError | None => Err FileNotFoundError end) ;;;
  voltage <~ pure (correct_voltage phases sequence ids voltage) ;;;
  y_bus <~ pure (correct_component phases sequence y) ;;;
  let nodes := nc voltage in
  let meaned := centred voltage in
  _ <~ plot_series (column (map (fun z => flog10 (sqrt (cabs z))) (eigvals (mmul (tr meaned) meaned)))) 1 "correlations" None ;;;
  _ <~ plot_heatmap (moduli y_bus) "y_bus" ;;;
  standard <~ standard_section network (correct_component phases sequence) y_bus ;;;
  bayesian_section network (correct_component phases sequence) y_bus laplacian nodes standard.
End Program.
