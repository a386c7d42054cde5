(** Model of the program /repo/simulate_network.py:30-125, of [simulate_net] (/repo/src/simulation/run.py:104-138,
    run3ph.py:158-193), of [make_net] (run.py:10-27, run3ph.py:12-29) and of [get_current_and_voltage]
    (/repo/src/simulation/simulation.py:90-105, simulation_3ph.py:110-132).

    Parameters: the power flow ([flow1], [flow3]: voltage magnitudes and angles of every time step, one column per bus),
    the three-phase admittance matrix [y_bus3] and reduction [reduce3] (ModelReduce3.v, over the reals), the transforms
    [seq_measurement], [seq_admittance] (ModelLines.v), [polar m a] for [m * (cos(a*pi/180) + 1j*sin(a*pi/180))];
    [pinv], [rnd], [root], [noise], [randint], [gauss], [seeded] as in the files imported.
    The four files of one network in /repo/data/simulations_output are a record.  The list [hidden_nodes] of the settings,
    which the program changes in place, is read once.  Printing and the pandapower tables of other results are left out. *)
From Coq Require Import String.
From Coq Require Import Bool Arith List ZArith.
From Verif Require Import BasePy BaseFld BaseOrd BaseSum BaseMat BaseLin BaseNumpy ModelErrorMetrics ModelSet ModelKron ModelNet ModelReduce
  ModelResample ModelLoads ModelMeasure ModelRun.
Import ListNotations.
Close Scope string_scope.
Local Open Scope K_scope.

(** conf/simulation.py *)
Record settings (K : Type) := Settings {
  hidden_nodes : list nat; constant_load_hidden_nodes : bool; load_constantness : K;
  selected_weeks : list Z; days : nat; time_steps : nat; measurement_frequency : K; safety_factor : K;
  s_voltage_magnitude_sd : K; s_current_magnitude_sd : K; s_voltage_phase_sd : K; s_current_phase_sd : K }.
Arguments hidden_nodes {K}. Arguments constant_load_hidden_nodes {K}. Arguments load_constantness {K}. Arguments selected_weeks {K}.
Arguments days {K}. Arguments time_steps {K}. Arguments measurement_frequency {K}. Arguments safety_factor {K}.
Arguments s_voltage_magnitude_sd {K}. Arguments s_current_magnitude_sd {K}. Arguments s_voltage_phase_sd {K}. Arguments s_current_phase_sd {K}.
(** simulate_network.py:14-28; [profiles]: the arrays of the two profile files, when both exist *)
Record options (K : Type) := Options {
  profiles : option (mat K * mat K); gaussian_loads : K;
  loads_only : bool; network_sim_only : bool; noise_only : bool;
  three_phased : bool; sequence : bool; equivalent_noise : bool; laplacian : bool }.
Arguments profiles {K}. Arguments gaussian_loads {K}. Arguments loads_only {K}. Arguments network_sim_only {K}. Arguments noise_only {K}.
Arguments three_phased {K}. Arguments sequence {K}. Arguments equivalent_noise {K}. Arguments laplacian {K}.

(** sim_loads_*.npz ([lf_a] only for three phases), sim_results_*.npz, filtered_results_*.npz, *.npz *)
Record loads_file (K : Type) := LoadsFile { lf_p : mat K; lf_q : mat K; lf_a : option (list (mat K)); lf_t : list Z }.
Arguments LoadsFile {K}. Arguments lf_p {K}. Arguments lf_q {K}. Arguments lf_a {K}. Arguments lf_t {K}.
Record data_files (K : Type) := DataFiles {
  f_loads : option (loads_file K); f_results : option (mat (cplx K) * mat (cplx K) * mat (cplx K));
  f_filtered : @saved_results K; f_output : option (content K) }.
Arguments DataFiles {K}. Arguments f_loads {K}. Arguments f_results {K}. Arguments f_filtered {K}. Arguments f_output {K}.

(** a program that reads and writes these files *)
Definition step (K A : Type) := data_files K -> data_files K * res A.
Definition ret {K A} (r : res A) : step K A := fun s => (s, r).
Definition then_ {K A B} (m : step K A) (f : A -> step K B) : step K B :=
  fun s => match m s with (s', Ok a) => f a s' | (s', Err e) => (s', Err e) end.
Notation "x <~ e ;;; k" := (then_ e (fun x => k)) (at level 61, e at next level, right associativity).
Notation "! p <~ e ;;; k" := (then_ e (fun p => k)) (at level 61, p pattern, e at next level, right associativity).

(** an integer as a number *)
Fixpoint of_pos {K} {O : Ops K} (p : positive) : K :=
  match p with xH => 1 | xO q => (1 + 1) * of_pos q | xI q => (1 + 1) * of_pos q + 1 end.
Definition of_Z {K} {O : Ops K} (z : Z) : K := match z with Z0 => 0 | Zpos p => of_pos p | Zneg p => - of_pos p end.
(** [np.delete] of a vector *)
Definition delete_list {A} (v : list A) (d : A) (idx : list nat) : res (list A) :=
  if forallb (fun i => i <? length v)%nat idx then Ok (map (fun i => nth i v d) (staying (length v) idx)) else Err IndexError.

Section Sim.
Context {K : Type} {O : Ops K} {O2 : OrdOps K}.
Notation CK := (cplx K).
Context (pinv : mat CK -> mat CK) (rnd : K -> Z) (root : K -> K) (polar : K -> K -> CK).
Context {St : Type} (randint : nat -> nat -> St -> list nat * St) (gauss : St -> K * St) (noise : @noise_fun K St K) (seeded : St).
Context (flow1 : net (K := K) -> mat K -> mat K -> res (mat K * mat K)).
Context (flow3 : net (K := K) -> mat K -> mat K -> list (mat K) -> res ((mat K * mat K) * (mat K * mat K) * (mat K * mat K))).
Context (y_bus3 : net (K := K) -> res (mat CK)).
Context (reduce3 : net (K := K) -> mat CK -> mat CK -> list nat -> bool -> res (list nat * mat CK)).
Context (seq_measurement seq_admittance : mat CK -> res (mat CK)).
Context (conf : settings K).

(** run.py:10-27: [getattr] of the template, and the bus data *)
Definition make_net (template : option (list (bus_data (K := K)) * list (line_data (K := K)))) : res (net (K := K) * list (bus_data (K := K))) :=
  match template with
  | None => Err AttributeError
  | Some (bus_data, line_data) => n <- NetData (Some bus_data) (Some line_data) None ;; Ok (n, bus_data)
  end.
(** run3ph.py:12-29; [ts] are the line types of net_templates_3ph.py *)
Definition make_net3 (ts : list (string * (K * K))) (template : option (list (bus_data (K := K)) * list (line_data (K := K))))
  : res (net (K := K) * list (bus_data (K := K))) :=
  match template with
  | None => Err AttributeError
  | Some (bus_data, line_data) => n <- NetData3P ts (Some bus_data) (Some line_data) None ;; Ok (n, bus_data)
  end.

(** simulation.py:101-104 *)
Definition voltages (m a : mat K) : res (mat CK) :=
  if ((nr m =? nr a) && (nc m =? nc a))%nat then Ok (mk (nr m) (nc m) (fun t j => polar (get m t j) (get a t j))) else Err ValueError.
Definition currents (voltage y : mat CK) : res (mat CK) := if (nc voltage =? nr y)%nat then Ok (mmul voltage y) else Err ValueError.
Definition get_current_and_voltage (n : net (K := K)) (m a : mat K) : res (mat CK * mat CK) :=
  v <- voltages m a ;; y <- make_y_bus n ;; i <- currents v y ;; Ok (v, i).
(** simulation_3ph.py:121-132: [np.kron(va, [1, 0, 0]) + np.kron(vb, [0, 1, 0]) + np.kron(vc, [0, 0, 1])] *)
Definition interleave (a b c : mat CK) : res (mat CK) :=
  if ((nr a =? nr b) && (nc a =? nc b) && (nr a =? nr c) && (nc a =? nc c))%nat
  then Ok (mk (nr a) (nc a * 3) (fun t j => match (j mod 3)%nat with 0%nat => get a t (j / 3) | 1%nat => get b t (j / 3) | _ => get c t (j / 3) end))
  else Err ValueError.
Definition get_current_and_voltage3 (n : net (K := K)) (r : (mat K * mat K) * (mat K * mat K) * (mat K * mat K)) : res (mat CK * mat CK) :=
  let '(pa, pb, pc) := r in
  va <- voltages (fst pa) (snd pa) ;; vb <- voltages (fst pb) (snd pb) ;; vc <- voltages (fst pc) (snd pc) ;;
  v <- interleave va vb vc ;; y <- y_bus3 n ;; i <- currents v y ;; Ok (v, i).

(** run.py:29-102 and run3ph.py:31-156, with the file *)
Definition new_loads (three : bool) (n : net (K := K)) (p : load_params (K := K)) : res (loads_file K) :=
  if three
  then '(lp, lq, la, t, _) <- generate_loads_3ph rnd randint (load_constantness conf) seeded n p ;; Ok (LoadsFile lp lq (Some la) t)
  else '((lp, lq, t), _, _) <- generate_loads rnd randint gauss (load_constantness conf) seeded n (Some p) None seeded ;; Ok (LoadsFile lp lq None t).
Definition loads_step (three : bool) (n : net (K := K)) (prm : option (load_params (K := K))) : step K (loads_file K) :=
  fun s =>
  match prm with
  | None => (s, match f_loads s with
      | None => Err FileNotFoundError
      | Some r => if three then match lf_a r with None => Err KeyError | Some _ => Ok r end else Ok r end)
  | Some p =>
    match new_loads three n p with
    | Err e => (s, Err e)
    | Ok r => (DataFiles (Some r) (f_results s) (f_filtered s) (f_output s), Ok r)
    end
  end.

(** run.py:104-138 and run3ph.py:158-193, with the file *)
Definition new_results (three : bool) (n : net (K := K)) (l : loads_file K) : res (mat CK * mat CK * mat CK) :=
  y <- (if three then y_bus3 n else make_y_bus n) ;;
  '(v, i) <- (if three
              then r <- flow3 n (lf_p l) (lf_q l) (match lf_a l with Some a => a | None => [] end) ;; get_current_and_voltage3 n r
              else '(m, a) <- flow1 n (lf_p l) (lf_q l) ;; get_current_and_voltage n m a) ;;
  Ok (v, i, y).
Definition simulate_step (three : bool) (n : net (K := K)) (l : option (loads_file K)) : step K (mat CK * mat CK * mat CK) :=
  fun s =>
  match l with
  | None => (s, match f_results s with None => Err FileNotFoundError | Some r => Ok r end)
  | Some l =>
    match new_results three n l with
    | Err e => (s, Err e)
    | Ok r => (DataFiles (f_loads s) (Some r) (f_filtered s) (f_output s), Ok r)
    end
  end.

(** simulate_network.py:79-89 with run.py:140-243 and run3ph.py:195-319 *)
Definition noise_settings {F} (o : options K) (redo : bool) (factor : F) : option (noise_params F) :=
  if redo then Some (NoiseParams (s_voltage_magnitude_sd conf) (s_current_magnitude_sd conf)
    (s_voltage_phase_sd conf) (s_current_phase_sd conf) (equivalent_noise o) factor) else None.
Definition seconds (times : list Z) : list K := map of_Z times.
Definition measurements (o : options K) (redo : bool) (n : net (K := K)) (voltage current : mat CK) (times : list Z) (saved : @saved_results K)
  : res (((mat CK * mat CK * mat CK * mat CK) * list K * nat) * @saved_results K) :=
  if three_phased o
  then add_noise_and_filter_3ph rnd root noise seeded n voltage current (seconds times) (measurement_frequency conf) (time_steps conf)
         (noise_settings o redo [safety_factor conf * 1; safety_factor conf * 1; safety_factor conf * 1]) saved
  else add_noise_and_filter rnd root noise seeded n voltage current (seconds times) (measurement_frequency conf) (time_steps conf)
         (noise_settings o redo (safety_factor conf)) saved.
Definition noise_step (o : options K) (redo : bool) (n : net (K := K)) (voltage current : mat CK) (times : list Z)
  : step K ((mat CK * mat CK * mat CK * mat CK) * list K * nat) :=
  fun s =>
  match measurements o redo n voltage current times (f_filtered s) with
  | Err e => (s, Err e)
  | Ok (r, saved) => (DataFiles (f_loads s) (f_results s) saved (f_output s), Ok r)
  end.

(** simulate_network.py:34-36 *)
Definition redo (flag a b c : bool) : bool := flag || (negb a && negb b && negb c).
(** simulate_network.py:52-61 *)
Definition choose_loads (o : options K) (redo_loads : bool) (constant_load_nodes : option (list nat)) : res (option (load_params (K := K))) :=
  if redo_loads && kltb 0 (gaussian_loads o) then Ok (Some (FromStd (gaussian_loads o) (days conf) constant_load_nodes))
  else match profiles o with
  | Some (active, reactive) => Ok (if redo_loads then Some (FromProfiles active reactive (selected_weeks conf) (days conf) constant_load_nodes) else None)
  | None => if redo_loads then Err SystemExit else Ok None
  end.
(** simulate_network.py:93-95 *)
Definition reduced (o : options K) (n : net (K := K)) (voltage current : mat CK) (hidden : list nat) : res (list nat * mat CK) :=
  if three_phased o then reduce3 n voltage current hidden (negb (sequence o)) else reduce_network pinv n voltage current hidden (laplacian o).
(** simulate_network.py:98-117: the removal of columns and the change to sequence values *)
Definition remaining_data (o : options K) (n : net (K := K)) (m : mat CK * mat CK * mat CK * mat CK) (ratings : list K) (fparam : nat)
  (idx_todel : list nat) (y_bus : mat CK) : res (content K) :=
  let '(nv, ni, v, i) := m in
  nv <- delete_cols nv idx_todel ;; ni <- delete_cols ni idx_todel ;; v <- delete_cols v idx_todel ;; i <- delete_cols i idx_todel ;;
  ratings <- delete_list ratings 0 idx_todel ;;
  phases_idx <- delete_list (concat (repeat (if three_phased o then [1; 2; 3] else [1])%Z (length (buses n)))) 0%Z idx_todel ;;
  if sequence o then
    nv <- seq_measurement nv ;; ni <- seq_measurement ni ;; v <- seq_measurement v ;; i <- seq_measurement i ;;
    y_bus <- seq_admittance y_bus ;;
    Ok (Simulation ni nv i v y_bus ratings (knat fparam) (map (fun p => p - 1)%Z phases_idx))
  else Ok (Simulation ni nv i v y_bus ratings (knat fparam) phases_idx).
(** [np.savez] of the result *)
Definition save_output (c : content K) : step K unit := fun s => (DataFiles (f_loads s) (f_results s) (f_filtered s) (Some c), Ok tt).

(** simulate_network.py:38-49 *)
Definition hidden_list (o : options K) (ns : list (bus_data (K := K))) : list nat :=
  if three_phased o then hidden_nodes conf else with_substations ns (laplacian o) (hidden_nodes conf).
(** simulate_network.py:30-125 *)
Definition simulate (o : options K) (ts : list (string * (K * K))) (template : option (list (bus_data (K := K)) * list (line_data (K := K)))) : step K unit :=
  let '(l, s, d) := (loads_only o, network_sim_only o, noise_only o) in
  let redo_loads := redo l l s d in let redo_netsim := redo s l s d in let redo_noise := redo d l s d in
  ! (n, bus_data) <~ ret (if three_phased o then make_net3 ts template else make_net template) ;;;
  let hidden := hidden_list o bus_data in
  let constant_load_nodes := if constant_load_hidden_nodes conf then Some hidden else None in
  load_params <~ ret (choose_loads o redo_loads constant_load_nodes) ;;;
  lf <~ loads_step (three_phased o) n load_params ;;;
  ! (voltage, current, _) <~ simulate_step (three_phased o) n (if redo_netsim then Some lf else None) ;;;
  ! (m, ratings, fparam) <~ noise_step o redo_noise n voltage current (lf_t lf) ;;;
  let '(_, _, voltage, current) := m in
  ! (idx_todel, y_bus) <~ ret (reduced o n voltage current hidden) ;;;
  out <~ ret (remaining_data o n m ratings fparam idx_todel y_bus) ;;;
  save_output out.
End Sim.
