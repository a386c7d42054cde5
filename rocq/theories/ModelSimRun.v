(** Model of SimulatedNet.run, /repo/src/simulation/simulation.py:24-87, and SimulatedNet3P.run, /repo/src/simulation/simulation_3ph.py:24-107.
    One power flow of pandapower ([runpp], [runpp_3ph]) is a parameter: a function of the network with its present loads that gives
    the columns of the result tables or an exception.  The controllers, the writer of the results and the directories are modelled:
    - [ConstControl] writes one row of its table into one column of the loads in each time step, in the order of creation;
    - the time steps are the rows of the first table; a table with fewer rows raises KeyError;
    - the files are written after the last time step only; an exception before leaves the disk as it was;
    - a file [stem].csv found in the directory is replaced if it belongs to the same result table. *)
From Coq Require Import String.
From Coq Require Import Bool Arith List.
From Verif Require Import BasePy BaseFld BaseSum BaseMat ModelNet ModelScript.
Import ListNotations.
Close Scope string_scope.

(** the columns set by the controllers: simulation.py:65-70, simulation_3ph.py:72-87 *)
Inductive variable := LoadP | LoadQ | AsymP (phase : nat) | AsymQ (phase : nat).
(** simulation_3ph.py:72 *)
Definition variables : list variable := [AsymP 0; AsymP 1; AsymP 2; AsymQ 0; AsymQ 1; AsymQ 2].
(** the files logged by simulation.py:77-79 (the default ones of the writer are among them) and simulation_3ph.py:94-97 *)
Definition logged1 : list (string * string) :=
  [("res_line", "loading_percent"); ("res_bus", "vm_pu"); ("res_bus", "va_degree"); ("res_bus", "p_mw"); ("res_bus", "q_mvar")]%string.
Definition logged3 : list (string * string) := map (fun v => ("res_bus_3ph", v))%string
  ["vm_a_pu"; "va_a_degree"; "p_a_mw"; "q_a_mvar"; "vm_b_pu"; "va_b_degree"; "p_b_mw"; "q_b_mvar"; "vm_c_pu"; "va_c_degree"; "p_c_mw"; "q_c_mvar"]%string.
(** the fields of the data classes: simulation.py:30-34, simulation_3ph.py:30-41 *)
Definition fields1 : list string := ["vm_pu"; "va_degree"; "p_mw"; "q_mvar"; "loading_percent"]%string.
Definition fields3 : list string :=
  ["vm_a_pu"; "va_a_degree"; "p_a_mw"; "q_a_mvar"; "vm_b_pu"; "va_b_degree"; "p_b_mw"; "q_b_mvar"; "vm_c_pu"; "va_c_degree"; "p_c_mw"; "q_c_mvar"]%string.

Section SimRun.
Context {K : Type} {O : Ops K}.
Notation net := (net (K := K)).
(** the values of a column of a result table *)
Definition columns := string -> string -> list K.
Context (flow : net -> res columns).

(** *** the controllers *)
Definition size_of (v : variable) (n : net) : nat := match v with LoadP | LoadQ => length (loads n) | _ => length (asyms n) end.
Definition put_at (f : nat -> K) (k : nat) (x : K) : nat -> K := fun i => if (i =? k)%nat then x else f i.
Definition assign (v : variable) (n : net) (row : list K) : net :=
  match v with
  | LoadP => with_loads n (map (fun '(l, x) => Load (l_id l) (l_bus l) x (l_q l) (l_z l) (l_i l)) (combine (loads n) row))
  | LoadQ => with_loads n (map (fun '(l, x) => Load (l_id l) (l_bus l) (l_p l) x (l_z l) (l_i l)) (combine (loads n) row))
  | AsymP k => with_asyms n (map (fun '(l, x) => Asym (a_id l) (a_bus l) (put_at (a_p l) k x) (a_q l)) (combine (asyms n) row))
  | AsymQ k => with_asyms n (map (fun '(l, x) => Asym (a_id l) (a_bus l) (a_p l) (put_at (a_q l) k x)) (combine (asyms n) row))
  end.
Definition source := (variable * mat K)%type.
(** [DFData(pd.DataFrame(data, columns=index))] *)
Definition add_source (n : net) (l : list source) (v : variable) (m : mat K) : res (list source) :=
  if (nc m =? size_of v n)%nat then Ok (l ++ [(v, m)]) else Err ValueError.
(** simulation.py:65-70 *)
Definition sources1 (n : net) (load_p load_q : mat K) : res (list source) :=
  l <- add_source n [] LoadP load_p ;; add_source n l LoadQ load_q.
(** simulation_3ph.py:75-87 *)
Definition sources3 (n : net) (load_p load_q : mat K) (asym_load : option (list (mat K))) : res (list source) :=
  l <- sources1 n load_p load_q ;;
  match asym_load with
  | None => Ok l
  | Some a => for_each (range (length variables)) l (fun l i =>
      match nth_error a i with None => Err IndexError | Some m => add_source n l (nth i variables LoadP) m end)
  end.

(** *** the time series: [run_timeseries] *)
Definition table_row (m : mat K) (t : nat) : list K := map (get m t) (seq 0 (nc m)).
Definition control_step (t : nat) (n : net) (s : source) : res net :=
  if (t <? nr (snd s))%nat then Ok (assign (fst s) n (table_row (snd s) t)) else Err KeyError.
Definition time_step (srcs : list source) (st : net * list columns) (t : nat) : res (net * list columns) :=
  n <- for_each srcs (fst st) (control_step t) ;; r <- flow n ;; Ok (n, snd st ++ [r]).
Definition steps (srcs : list source) : nat := match srcs with [] => 0 | s :: _ => nr (snd s) end.
Definition time_series (srcs : list source) (n : net) : res (list columns) :=
  '(_, l) <- for_each (range (steps srcs)) (n, []) (time_step srcs) ;; Ok l.

(** *** the files *)
Definition file := (string * string * mat K)%type.
Definition drive := string -> list file.
Definition table_of (l : list columns) (tv : string * string) : mat K :=
  let rows := map (fun r => r (fst tv) (snd tv)) l in
  mk (length rows) (length (nth 0 rows [])) (fun t j => nth j (nth t rows []) 0%K).
Definition results_of (logged : list (string * string)) (l : list columns) : list file := map (fun tv => (fst tv, snd tv, table_of l tv)) logged.
Definition same_name (a b : file) : bool := (fst (fst a) =? fst (fst b))%string && (snd (fst a) =? snd (fst b))%string.
Definition put_file (l : list file) (f : file) : list file := filter (fun g => negb (same_name f g)) l ++ [f].
Definition write_dir (d : drive) (dir : string) (l : list file) : drive :=
  fun x => if (x =? dir)%string then fold_left put_file l (d x) else d x.
Definition results := list (string * mat K).
(** simulation.py:37-42, simulation_3ph.py:44-49: the files are the keyword arguments of the data class *)
Definition from_dir (fields : list string) (l : list file) : res results :=
  let kw := map (fun f : file => (snd (fst f), snd f)) l in
  if forallb (fun a => existsb (fun f => (fst a =? f)%string) fields) kw && forallb (fun f => existsb (fun a => (fst a =? f)%string) kw) fields
  then Ok kw else Err TypeError.
(** a field of the object; of two files with the same stem the later one counts *)
Definition field (r : results) (f : string) : option (mat K) :=
  match find (fun a => (fst a =? f)%string) (rev r) with Some a => Some (snd a) | None => None end.

(** simulation.py:50-87 and simulation_3ph.py:58-107; [dir] is the name with the present second *)
Definition run_sources (logged : list (string * string)) (fields : list string) (srcs : res (list source)) (n : net) (dir : string) (d : drive) : drive * res results :=
  match (l <- srcs ;; time_series l n) with
  | Err e => (d, Err e)
  | Ok l => let d' := write_dir d dir (results_of logged l) in (d', from_dir fields (d' dir))
  end.
Definition sim_run (n : net) (load_p load_q : mat K) (dir : string) (d : drive) : drive * res results :=
  run_sources logged1 fields1 (sources1 n load_p load_q) n dir d.
Definition sim_run3 (n : net) (load_p load_q : mat K) (asym_load : option (list (mat K))) (dir : string) (d : drive) : drive * res results :=
  run_sources logged3 fields3 (sources3 n load_p load_q asym_load) n dir d.

(** run.py:124, simulation.py:101-102: the tables read by get_current_and_voltage *)
Definition flow1_of (dir : string) (d : drive) (n : net) (p q : mat K) : res (mat K * mat K) :=
  r <- snd (sim_run n p q dir d) ;;
  match field r "vm_pu"%string, field r "va_degree"%string with Some m, Some a => Ok (m, a) | _, _ => Err AttributeError end.

(** run3ph.py:179, simulation_3ph.py:121-126 *)
Definition flow3_of (dir : string) (d : drive) (n : net) (p q : mat K) (a : list (mat K)) : res ((mat K * mat K) * (mat K * mat K) * (mat K * mat K)) :=
  r <- snd (sim_run3 n p q (Some a) dir d) ;;
  let two x y := match field r x, field r y with Some m, Some b => Ok (m, b) | _, _ => Err AttributeError end in
  pa <- two "vm_a_pu"%string "va_a_degree"%string ;; pb <- two "vm_b_pu"%string "va_b_degree"%string ;; pc <- two "vm_c_pu"%string "va_c_degree"%string ;; Ok (pa, pb, pc).

(** *** several programs at the same time: each has computed its results, writes them and reads its directory *)
Record program := Program { pr_dir : string; pr_fields : list string; pr_files : list file }.
Inductive action := Writes (k : nat) | Reads (k : nat).
Definition act (ps : list program) (st : drive * list (nat * res results)) (a : action) : drive * list (nat * res results) :=
  match a with
  | Writes k => match nth_error ps k with Some p => (write_dir (fst st) (pr_dir p) (pr_files p), snd st) | None => st end
  | Reads k => match nth_error ps k with Some p => (fst st, snd st ++ [(k, from_dir (pr_fields p) (fst st (pr_dir p)))]) | None => st end
  end.
Definition schedule (ps : list program) (d : drive) (l : list action) : drive * list (nat * res results) := fold_left (act ps) l (d, []).
End SimRun.
