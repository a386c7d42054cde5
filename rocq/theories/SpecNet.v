(** Vocabulary for networks. *)
From Coq Require Import Arith List ZArith String.
From Verif Require Import BasePy BaseFld BaseSum BaseMat ModelNet.
Import ListNotations.
Local Open Scope K_scope.

Section SpecNet.
Context {K : Type} {O : Ops K}.

Definition ids (n : net (K := K)) : list nat := map b_id (buses n).

(** tables as a user expects them: labels unique, names are the numbers, elements on existing buses,
    the load of a bus carries the label of the bus *)
Definition consistent (n : net (K := K)) : Prop :=
  NoDup (ids n) /\ (forall b, In b (buses n) -> b_name b = str (b_id b)) /\
  NoDup (map n_id (lines n)) /\ (forall l, In l (lines n) -> In (n_from l) (ids n) /\ In (n_to l) (ids n)) /\
  NoDup (map l_bus (loads n)) /\ (forall l, In l (loads n) -> l_id l = l_bus l /\ In (l_bus l) (ids n)) /\
  NoDup (map a_bus (asyms n)) /\ (forall l, In l (asyms n) -> a_id l = a_bus l /\ In (a_bus l) (ids n)) /\
  (forall g, In g (grids n) -> In g (ids n)).

(** everything a user can do to a network through the package *)
Inductive op :=
| Buses (ns : list (bus_data (K := K))) | Lines (ls : list (line_data (K := K))) | ALine (f t : nat) (r x len : K)
| FromYbus (y : mat (cplx K))
| Buses3 (ns : list (bus_data (K := K))) | Lines3 (ls : list (line_data (K := K))) | ALine3 (f t : nat) (len : K) (typ : option string)
| RemoveBus (i : nat) | RemoveBuses (l : list nat) | RemoveLine (l : one_or_many) | RemoveLines (l : list nat).
Definition exec (n : net (K := K)) (o : op) : res net :=
  match o with
  | Buses ns => create_buses n ns
  | Lines ls => r <- create_lines n ls ;; Ok (fst r)
  | ALine f t r x len => create_line n f t r x len
  | FromYbus y => create_lines_from_ybus n y
  | Buses3 ns => create_buses3 n ns
  | Lines3 ls => create_lines3 n ls
  | ALine3 f t len typ => create_line3 n f t len typ
  | RemoveBus i => remove_bus n i
  | RemoveBuses l => remove_buses n l
  | RemoveLine l => remove_line n l
  | RemoveLines l => remove_lines n l
  end.
Definition history (n0 : net (K := K)) (ops : list op) : res net := for_each ops n0 exec.

(** phase [ph] of bus [i] injects nothing *)
Definition idle (n : net (K := K)) (ph i : nat) : Prop :=
  ~ In i (grids n) /\
  (forall l, In l (loads n) -> l_bus l = i -> l_p l = 0 /\ l_q l = 0) /\
  (forall l, In l (asyms n) -> a_bus l = i -> a_p l ph = 0 /\ a_q l ph = 0).

(** what a bus record should become *)
Definition is_single (p : power (K := K)) : Prop := exists x, p = Single x.
Definition number (p : power (K := K)) : K := match p with Single x => x | Phases _ _ _ => 0 end.
Definition bus_of (b : bus_data (K := K)) : nat * K := (bd_id b, bd_kv b).
(** in service *)
Definition active (l : line_data (K := K)) : bool := (0 <? ld_status l)%Z.
(** end points in ascending order, length, total resistance and reactance *)
Definition wanted_line (l : line_data (K := K)) : nat * nat * K * K * K :=
  (Nat.min (ld_start l) (ld_end l), Nat.max (ld_start l) (ld_end l), ld_length l, ld_r l, ld_x l).
Definition seen_line (l : line_row (K := K)) : nat * nat * K * K * K :=
  (n_from l, n_to l, n_len l, n_r l * n_len l, n_x l * n_len l).
Definition wanted_load (b : bus_data (K := K)) : nat * K * K :=
  if (bd_type b =? 1)%nat then (bd_id b, number (bd_p b), number (bd_q b)) else (bd_id b, 0, 0).
Definition has_load (b : bus_data (K := K)) : bool := ((bd_type b =? 1) || (bd_type b =? 3))%nat%bool.
Definition seen_load (l : load_row (K := K)) : nat * K * K := (l_bus l, l_p l, l_q l).

(** the admittance matrix of lines only whose off-diagonal entries are given by the lower triangle of [Y] *)
Definition laplacian_of (Y : mat (cplx K)) : mat (cplx K) :=
  let low i j := if (j <? i)%nat then get Y i j else get Y j i in
  mk (nr Y) (nr Y) (fun a b => if (a =? b)%nat then - sumn (nr Y) (fun j => if (j =? a)%nat then 0 else low a j) else low a b).
End SpecNet.

(** for the three-phase class *)
Section SpecNet3.
Context {K : Type} {O : Ops K}.
Definition three (p : power (K := K)) : Prop := exists a b c, p = Phases a b c.
Definition both (A : power (K := K) -> Prop) (b : bus_data (K := K)) : Prop := A (bd_p b) /\ A (bd_q b).
Definition is_asym (b : bus_data (K := K)) : bool := match bd_p b with Phases _ _ _ => (bd_type b =? 1)%nat | _ => false end.
Definition has_load3 (b : bus_data (K := K)) : bool := (match bd_p b with Single _ => (bd_type b =? 1)%nat | _ => false end || (bd_type b =? 3)%nat)%bool.
(** the parameters a type name stands for: the last definition counts *)
Definition type_of (ts : list (string * (K * K))) (s : string) : option (K * K) :=
  option_map snd (find (fun e => String.eqb (fst e) s) (rev ts)).
Definition wanted_line3 (ts : list (string * (K * K))) (l : line_data (K := K)) : nat * nat * K * option (K * K) :=
  (Nat.min (ld_start l) (ld_end l), Nat.max (ld_start l) (ld_end l), ld_length l, match ld_type l with Some s => type_of ts s | None => None end).
Definition seen_line3 (l : line_row (K := K)) : nat * nat * K * option (K * K) := (n_from l, n_to l, n_len l, Some (n_r l, n_x l)).
(** bus, active and reactive power of each phase *)
Definition wanted_asym (b : bus_data (K := K)) : nat * (K * K * K) * (K * K * K) :=
  let t p := match p with Phases x y z => (x, y, z) | Single x => (x, x, x) end in (bd_id b, t (bd_p b), t (bd_q b)).
Definition seen_asym (l : asym_row (K := K)) : nat * (K * K * K) * (K * K * K) :=
  let t f := (f 0%nat, f 1%nat, f 2%nat) in (a_bus l, t (a_p l), t (a_q l)).
(** records the class accepts: a load has both powers for one phase or both for three, a substation one *)
Definition accepted3 (b : bus_data (K := K)) : Prop :=
  (bd_type b = 1%nat -> both is_single b \/ both three b) /\ (bd_type b = 3%nat -> is_single (bd_p b)).
End SpecNet3.

Section SpecNetY.
Context {K : Type} {O : Ops K}.
(** the bus whose number is the row number [i] has the base voltage of the bus in row [i] *)
Definition row_number_fits (n : net (K := K)) (i : nat) : Prop :=
  exists b c, nth_error (buses n) i = Some b /\ In c (buses n) /\ b_id c = i /\ b_kv c * b_kv c = b_kv b * b_kv b /\ b_kv c <> 0.
(** tables other than the lines *)
Definition only_lines_changed (n n' : net (K := K)) : Prop :=
  buses n' = buses n /\ loads n' = loads n /\ asyms n' = asyms n /\ grids n' = grids n /\ sn n' = sn n /\ types n' = types n.
End SpecNetY.
