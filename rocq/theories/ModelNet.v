(** Model of network construction: /repo/src/simulation/network.py, network_3ph.py,
    abstract_network.py, and the data classes of lines.py and load_profile.py.

    A network is its pandapower tables: rows in insertion order, every row with its label.  Columns
    that the package never reads are left out.  The pandapower functions used are modelled after their
    documentation: [create_bus], [create_load], [create_ext_grid], [create_line_from_parameters],
    [get_element_index], [drop_buses], [drop_lines] and the bus admittance matrix of [runpp].
    Labels are non-negative integers.  An exception loses the partial changes made before it. *)
From Coq Require Import Bool Arith List ZArith String Decimal DecimalString.
From Verif Require Import BasePy BaseFld BaseSum BaseMat.
Import ListNotations.
Local Open Scope K_scope.

(** [str(i)] *)
Definition str (i : nat) : string := NilZero.string_of_uint (Nat.to_uint i).

(** A Python value used as the name to look for *)
Inductive pyval := PStr (s : string) | PInt (i : nat).

Section Net.
Context {K : Type} {O : Ops K}.

(** load_profile.py:13-48, the fields a network reads *)
Inductive power := Single (p : K) | Phases (a b c : K).
Record bus_data := BusData { bd_id : nat; bd_type : nat; bd_p : power; bd_q : power; bd_kv : K; bd_z : K; bd_i : K }.
(** lines.py:15-50, the fields a network reads *)
Record line_data := LineData { ld_start : nat; ld_end : nat; ld_length : K; ld_r : K; ld_x : K; ld_status : Z; ld_type : option string }.

Record bus_row := Bus { b_id : nat; b_name : string; b_kv : K }.
Record load_row := Load { l_id : nat; l_bus : nat; l_p : K; l_q : K; l_z : K; l_i : K }.
Record asym_row := Asym { a_id : nat; a_bus : nat; a_p : nat -> K; a_q : nat -> K }.
Record line_row := Line { n_id : nat; n_from : nat; n_to : nat; n_len : K; n_r : K; n_x : K }.
Record net := Net { buses : list bus_row; loads : list load_row; asyms : list asym_row; grids : list nat;
                    lines : list line_row; sn : K; types : list (string * (K * K)) }.

Definition has_bus (n : net) (i : nat) : bool := existsb (fun b => b_id b =? i)%nat (buses n).
Definition with_buses (n : net) x := Net x (loads n) (asyms n) (grids n) (lines n) (sn n) (types n).
Definition with_loads (n : net) x := Net (buses n) x (asyms n) (grids n) (lines n) (sn n) (types n).
Definition with_asyms (n : net) x := Net (buses n) (loads n) x (grids n) (lines n) (sn n) (types n).
Definition with_grids (n : net) x := Net (buses n) (loads n) (asyms n) x (lines n) (sn n) (types n).
Definition with_lines (n : net) x := Net (buses n) (loads n) (asyms n) (grids n) x (sn n) (types n).
Definition with_types (n : net) x := Net (buses n) (loads n) (asyms n) (grids n) (lines n) (sn n) x.

(** ** pandapower *)
Definition pp_create_empty_network : net := Net [] [] [] [] [] 1 [].
(** an index that is taken raises UserWarning *)
Definition pp_create_bus (n : net) (kv : K) (name : string) (index : nat) : res net :=
  if has_bus n index then Err UserWarning else Ok (with_buses n (buses n ++ [Bus index name kv])).
Definition pp_create_load (n : net) (bus : nat) (p q z i : K) (index : nat) : res net :=
  if negb (has_bus n bus) then Err UserWarning
  else if existsb (fun l => l_id l =? index)%nat (loads n) then Err UserWarning
  else Ok (with_loads n (loads n ++ [Load index bus p q z i])).
Definition pp_create_asymmetric_load (n : net) (bus : nat) (p q : nat -> K) (index : nat) : res net :=
  if negb (has_bus n bus) then Err UserWarning
  else if existsb (fun l => a_id l =? index)%nat (asyms n) then Err UserWarning
  else Ok (with_asyms n (asyms n ++ [Asym index bus p q])).
Definition pp_create_ext_grid (n : net) (bus : nat) : res net :=
  if negb (has_bus n bus) then Err UserWarning else Ok (with_grids n (grids n ++ [bus])).
(** the next free label *)
Definition free_index (l : list nat) : nat := fold_right (fun i m => Nat.max (S i) m) 0%nat l.
Definition pp_create_line_from_parameters (n : net) (f t : nat) (len r x : K) : res net :=
  if negb (has_bus n f && has_bus n t) then Err UserWarning
  else Ok (with_lines n (lines n ++ [Line (free_index (map n_id (lines n))) f t len r x])).
(** a line of a standard type: UserWarning if the type is unknown *)
Definition pp_create_line (n : net) (f t : nat) (len : K) (typ : option string) : res net :=
  if negb (has_bus n f && has_bus n t) then Err UserWarning
  else match typ with
  | None => Err UserWarning
  | Some s => match find (fun e => String.eqb (fst e) s) (types n) with
    | None => Err UserWarning
    | Some e => pp_create_line_from_parameters n f t len (fst (snd e)) (snd (snd e))
    end
  end.
(** the buses whose name equals [name]: none or several raise UserWarning.  An integer never equals a string. *)
Definition pp_get_element_index (n : net) (name : pyval) : res nat :=
  match filter (fun b => match name with PStr s => String.eqb (b_name b) s | PInt _ => false end) (buses n) with
  | [b] => Ok (b_id b)
  | _ => Err UserWarning
  end.
Definition isin (i : nat) (l : list nat) : bool := existsb (Nat.eqb i) l.
(** pandas raises KeyError for a label that is missing; connected elements go with the buses *)
Definition pp_drop_buses (n : net) (ids : list nat) : res net :=
  if forallb (has_bus n) ids
  then Ok (Net (filter (fun b => negb (isin (b_id b) ids)) (buses n))
               (filter (fun l => negb (isin (l_bus l) ids)) (loads n))
               (filter (fun l => negb (isin (a_bus l) ids)) (asyms n))
               (filter (fun g => negb (isin g ids)) (grids n))
               (filter (fun l => negb (isin (n_from l) ids || isin (n_to l) ids)) (lines n)) (sn n) (types n))
  else Err KeyError.
(** [drop_lines] starts with [.isin(lines)], which raises TypeError for a single number *)
Inductive one_or_many := One (i : nat) | Many (l : list nat).
Definition pp_drop_lines (n : net) (ids : one_or_many) : res net :=
  match ids with
  | One _ => Err TypeError
  | Many l => if forallb (fun i => existsb (fun r => n_id r =? i)%nat (lines n)) l
              then Ok (with_lines n (filter (fun r => negb (isin (n_id r) l)) (lines n)))
              else Err KeyError
  end.

(** ** abstract_network.py *)
Definition TYPE_LOAD := 1%nat.
Definition TYPE_PCC := 3%nat.
(** abstract_network.py:49-50 *)
Definition remove_bus (n : net) (bus : nat) : res net := pp_drop_buses n [bus].
(** abstract_network.py:52-53 *)
Definition remove_buses (n : net) (bus : list nat) : res net := pp_drop_buses n bus.
(** abstract_network.py:55-56 *)
Definition remove_line (n : net) (line : one_or_many) : res net := pp_drop_lines n line.
(** abstract_network.py:58-59 *)
Definition remove_lines (n : net) (ls : list nat) : res net := pp_drop_buses n ls.

(** abstract_network.py:61-96.  [idx in self.load.bus] looks at the labels of the load table; the row
    read is then the first one whose bus is [idx], IndexError if there is none. *)
Definition passive_phases (n : net) (idx : nat) : res (nat -> bool) :=
  if isin idx (grids n) then Ok (fun _ => false)
  else
    passive <- (if existsb (fun l => l_id l =? idx)%nat (loads n)
                then match find (fun l => l_bus l =? idx)%nat (loads n) with
                     | Some l => Ok (fun _ : nat => keqb (l_p l) 0 && keqb (l_q l) 0)
                     | None => Err IndexError
                     end
                else Ok (fun _ : nat => true)) ;;
    if existsb (fun l => a_id l =? idx)%nat (asyms n)
    then match find (fun l => a_bus l =? idx)%nat (asyms n) with
         | Some l => Ok (fun ph => if keqb (a_p l ph) 0 && keqb (a_q l ph) 0 then passive ph else false)
         | None => Err IndexError
         end
    else Ok passive.
Definition give_passive_nodes (n : net) : res (nat -> list nat) :=
  for_each (buses n) (fun _ => []) (fun acc b =>
    passive <- passive_phases n (b_id b) ;;
    Ok (fun ph => if passive ph then (acc ph ++ [b_id b])%list else acc ph)).

(** ** network.py (one phase) *)
(** a power of a record as a single number; simplified: three numbers are rejected *)
Definition single (p : power) : res K := match p with Single p => Ok p | Phases _ _ _ => Err TypeError end.
(** network.py:26-46 *)
Definition create_bus (n : net) (i t : nat) (p q kv z cur : K) : res net :=
  n <- pp_create_bus n kv (str i) i ;;
  if (t =? TYPE_LOAD)%nat then pp_create_load n i p q z cur i
  else if (t =? TYPE_PCC)%nat then n <- pp_create_load n i 0 0 0 0 i ;; pp_create_ext_grid n i
  else Ok n.
(** abstract_network.py:38-47 *)
Definition create_buses (n : net) (ns : list bus_data) : res net :=
  for_each ns n (fun n b => p <- single (bd_p b) ;; q <- single (bd_q b) ;;
                            create_bus n (bd_id b) (bd_type b) p q (bd_kv b) (bd_z b) (bd_i b)).
(** [r / l] of Python numbers *)
Definition pydiv (a b : K) : res K := if keqb b 0 then Err ZeroDivisionError else Ok (a / b).
(** network.py:48-64: the names looked for are integers *)
Definition create_line (n : net) (f t : nat) (r x len : K) : res net :=
  let '(f, t) := if (t <? f)%nat then (t, f) else (f, t) in
  fb <- pp_get_element_index n (PInt f) ;;
  tb <- pp_get_element_index n (PInt t) ;;
  rk <- pydiv r len ;; xk <- pydiv x len ;;
  pp_create_line_from_parameters n fb tb len rk xk.
(** network.py:73-75: the caller's record is turned round *)
Definition oriented (l : line_data) : line_data :=
  if (ld_end l <? ld_start l)%nat then LineData (ld_end l) (ld_start l) (ld_length l) (ld_r l) (ld_x l) (ld_status l) (ld_type l) else l.
(** network.py:66-82; returns also the records, which are modified in place *)
Definition create_lines (n : net) (ls : list line_data) : res (net * list line_data) :=
  n <- for_each ls n (fun n l =>
    let l := oriented l in
    if (0 <? ld_status l)%Z then
      fb <- pp_get_element_index n (PStr (str (ld_start l))) ;;
      tb <- pp_get_element_index n (PStr (str (ld_end l))) ;;
      rk <- pydiv (ld_r l) (ld_length l) ;; xk <- pydiv (ld_x l) (ld_length l) ;;
      pp_create_line_from_parameters n fb tb (ld_length l) rk xk
    else Ok n) ;;
  Ok (n, map oriented ls).
(** network.py:18-24.  [ns] is replaced by a list before line 21 tests it, so [ls] is never defaulted. *)
Definition NetData (ns : option (list bus_data)) (ls : option (list line_data)) (other : option net) : res net :=
  let n := match other with None => pp_create_empty_network | Some o => o end in
  let ns := match ns with None => [] | Some l => l end in
  n <- create_buses n ns ;;
  match ls with
  | None => Err TypeError
  | Some l => r <- create_lines n l ;; Ok (fst r)
  end.

(** [self.bus.vn_kv[i]]: by label *)
Definition vn_kv (n : net) (i : nat) : res K :=
  match find (fun b => b_id b =? i)%nat (buses n) with Some b => Ok (b_kv b) | None => Err KeyError end.
(** [self.bus.index[i]]: by position *)
Definition bus_index (n : net) (i : nat) : res nat :=
  match nth_error (buses n) i with Some b => Ok (b_id b) | None => Err IndexError end.
(** a real number times a complex one *)
Definition rscal (a : K) (z : cplx K) : cplx K := Cx (a * re z) (a * im z).
(** network.py:84-100.  The divisions are numpy's; voltages and the base power are taken non-zero. *)
Definition create_lines_from_ybus (n : net) (y_bus : mat (cplx K)) : res net :=
  for_each (range (nr y_bus)) n (fun n i =>
    for_each (range i) n (fun n j =>
      if keqb (get y_bus i j) 0 then Ok n
      else
        vi <- vn_kv n i ;;
        let y := rscal (kinv (vi * vi) * sn n) (- get y_bus i j) in
        bi <- bus_index n i ;; fb <- pp_get_element_index n (PStr (str bi)) ;;
        bj <- bus_index n j ;; tb <- pp_get_element_index n (PStr (str bj)) ;;
        let z := kinv y in
        pp_create_line_from_parameters n fb tb 1 (re z) (im z))).

(** position of a bus *)
Fixpoint position_from (k : nat) (l : list bus_row) (i : nat) : option nat :=
  match l with [] => None | b :: r => if (b_id b =? i)%nat then Some k else position_from (S k) r i end.
Definition position (n : net) (i : nat) : option nat := position_from 0 (buses n) i.
Definition at_position (n : net) (i k : nat) : bool := match position n i with Some j => (j =? k)%nat | None => false end.
(** per-unit admittance of a line in pandapower: the base is the voltage of its first bus *)
Definition line_admittance (n : net) (l : line_row) : cplx K :=
  match find (fun b => b_id b =? n_from l)%nat (buses n) with
  | Some b => rscal (b_kv b * b_kv b / sn n) (kinv (Cx (n_r l * n_len l) (n_x l * n_len l)))
  | None => 0
  end.
Definition line_entry (n : net) (l : line_row) (a b : nat) : cplx K :=
  let y := line_admittance n l in
  let f := at_position n (n_from l) in let t := at_position n (n_to l) in
  (if f a && f b then y else 0) + (if t a && t b then y else 0)
  - (if f a && t b then y else 0) - (if t a && f b then y else 0).
(** per-unit admittance of the constant-impedance part of a load *)
Definition hundred : K := knat 100.
Definition load_admittance (n : net) (l : load_row) : cplx K :=
  rscal (l_z l / hundred / sn n) (Cx (l_p l) (- l_q l)).
(** bus admittance matrix of [runpp]: lines without capacitance, constant-impedance loads.  Not
    modelled: buses that no external grid supplies (pandapower leaves them out) and divergence. *)
Definition y_matrix (n : net) : mat (cplx K) :=
  let m := List.length (buses n) in
  mk m m (fun a b => lsum (map (fun l => line_entry n l a b) (lines n)) +
    (if (a =? b)%nat then lsum (map (fun l => if at_position n (l_bus l) a then load_admittance n l else 0) (loads n)) else 0)).
(** network.py:102-114: UserWarning without a reference bus *)
Definition make_y_bus (n : net) : res (mat (cplx K)) :=
  match grids n with [] => Err UserWarning | _ => Ok (y_matrix n) end.

(** ** network_3ph.py *)
Definition phase_of (p : power) (ph : nat) : K :=
  match p with Single x => x | Phases a b c => match ph with 0%nat => a | 1%nat => b | _ => c end end.
(** network_3ph.py:37-62.  For a load, the kind of [p] decides; [q] is then used the same way, a
    number where three are needed raises TypeError. *)
Definition create_bus3 (n : net) (i t : nat) (p q : power) (kv z cur : K) : res net :=
  n <- pp_create_bus n kv (str i) i ;;
  if (t =? TYPE_LOAD)%nat then
    match p, q with
    | Single p, Single q => pp_create_load n i p q z cur i
    | Phases _ _ _, Phases _ _ _ => pp_create_asymmetric_load n i (phase_of p) (phase_of q) i
    | _, _ => Err TypeError
    end
  else if (t =? TYPE_PCC)%nat then
    match p with
    | Single _ => n <- pp_create_load n i 0 0 0 0 i ;; pp_create_ext_grid n i
    | Phases _ _ _ => Err AssertionError
    end
  else Ok n.
Definition create_buses3 (n : net) (ns : list bus_data) : res net :=
  for_each ns n (fun n b => create_bus3 n (bd_id b) (bd_type b) (bd_p b) (bd_q b) (bd_kv b) (bd_z b) (bd_i b)).
(** network_3ph.py:64-78 *)
Definition create_line3 (n : net) (f t : nat) (len : K) (typename : option string) : res net :=
  let '(f, t) := if (t <? f)%nat then (t, f) else (f, t) in
  fb <- pp_get_element_index n (PStr (str f)) ;;
  tb <- pp_get_element_index n (PStr (str t)) ;;
  pp_create_line n fb tb len typename.
(** network_3ph.py:80-90 *)
Definition create_lines3 (n : net) (ls : list line_data) : res net :=
  for_each ls n (fun n l => if (0 <? ld_status l)%Z then create_line3 n (ld_start l) (ld_end l) (ld_length l) (ld_type l) else Ok n).
(** network_3ph.py:21-35; a type that is given twice keeps the last parameters *)
Definition NetData3P (ts : list (string * (K * K))) (ns : option (list bus_data)) (ls : option (list line_data)) (other : option net) : res net :=
  let n := match other with None => pp_create_empty_network | Some o => o end in
  let n := with_types n (List.rev ts ++ types n)%list in
  let ns := match ns with None => [] | Some l => l end in
  let ls := match ls with None => [] | Some l => l end in
  n <- create_buses3 n ns ;; create_lines3 n ls.
(** network_3ph.py:92-96 *)
Definition create_lines_from_ybus3 (n : net) (y_bus : mat (cplx K)) : res net := Err NotImplementedError.
End Net.
