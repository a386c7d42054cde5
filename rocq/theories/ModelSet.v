(** Model of CPython's [set] of small non-negative integers, whose iteration order decides the row
    order of reduced networks (/repo/src/simulation/abstract_network.py:102,
    /repo/src/simulation/run.py:246-295).

    The algorithm is Objects/setobject.c of CPython 3.7 to 3.12: open addressing with runs of up to
    ten linear probes, the hash of a small non-negative integer being the integer itself.
    Simplified: a key that is present is found (so only the place of a new key is computed), and the
    probing sequence has [FUEL] runs after which the first free slot is taken; the slots of discarded
    keys count as free for iteration. *)
From Coq Require Import List Arith.
From Verif Require Import BasePy.
Import ListNotations.

Definition LINEAR_PROBES := 9.
Definition FUEL := 200.
Definition MINSIZE := 8.

Definition table := list (option nat).
Definition empty_table (size : nat) : table := repeat None size.

Definition slot (t : table) (i : nat) : option nat := nth i t None.
Definition free (t : table) (i : nat) : bool := match slot t i with None => true | Some _ => false end.

(** the keys in iteration order *)
Fixpoint keys (t : table) : list nat :=
  match t with
  | [] => []
  | None :: r => keys r
  | Some x :: r => x :: keys r
  end.

(** set_add_entry / set_insert_clean: where a new key goes *)
Definition window (t : table) (i : nat) : list nat :=
  if i + LINEAR_PROBES <=? length t - 1 then seq i (S LINEAR_PROBES) else [i].
Fixpoint probe (fuel : nat) (t : table) (i perturb : nat) : option nat :=
  match fuel with
  | 0 => find (free t) (seq 0 (length t))
  | S fuel =>
      match find (free t) (window t i) with
      | Some j => Some j
      | None => let perturb := perturb / 32 in
                probe fuel t ((i * 5 + 1 + perturb) mod length t) perturb
      end
  end.
Fixpoint put (t : table) (i x : nat) : table :=
  match t, i with
  | [], _ => []
  | _ :: r, 0 => Some x :: r
  | o :: r, S i => o :: put r i x
  end.
Definition insert_clean (t : table) (x : nat) : table :=
  match probe FUEL t (x mod length t) x with
  | Some i => put t i x
  | None => t
  end.

(** set_table_resize: the smallest power of two from 8 that is larger than [minused] *)
Fixpoint grow (fuel size minused : nat) : nat :=
  match fuel with
  | 0 => size
  | S fuel => if minused <? size then size else grow fuel (size * 2) minused
  end.
Definition newsize (minused : nat) : nat := grow (S minused) MINSIZE minused.
Definition resize (t : table) (minused : nat) : table :=
  fold_left insert_clean (keys t) (empty_table (newsize minused)).

Definition used (t : table) : nat := length (keys t).
Definition minused (n : nat) : nat := if 50000 <? n then n * 2 else n * 4.
Definition mem (x : nat) (l : list nat) : bool := existsb (Nat.eqb x) l.

(** set_add_entry *)
Definition set_add (t : table) (x : nat) : table :=
  if mem x (keys t) then t
  else
    let t := insert_clean t x in
    if used t * 5 <? (length t - 1) * 3 then t else resize t (minused (used t)).
Definition set_of (l : list nat) : table := fold_left set_add l (empty_table MINSIZE).

(** set_copy: set_merge into a fresh set *)
Definition set_copy (t : table) : table :=
  let size := if used t * 5 <? (MINSIZE - 1) * 3 then MINSIZE else newsize (used t * 2) in
  if size =? length t then t else fold_left insert_clean (keys t) (empty_table size).

(** set_discard of every element of [other], then the resize of set_difference_update *)
Definition set_discard (t : table) (other : list nat) : table :=
  let t' := map (fun o => match o with Some x => if mem x other then None else Some x | None => None end) t in
  if used t - used t' <=? (length t - 1) / 4 then t' else resize t' (minused (used t')).

(** set_difference: [so - other] *)
Definition set_diff (so other : table) : table :=
  if used other <? used so / 4 then set_discard (set_copy so) (keys other)
  else fold_left set_add (filter (fun x => negb (mem x (keys other))) (keys so)) (empty_table MINSIZE).

(** [list(set(range(n)) - set(idx))] *)
Definition remaining (n : nat) (idx : list nat) : list nat :=
  keys (set_diff (set_of (range n)) (set_of idx)).
(** [list(set(a).union(b))]: the copy of [set(a)] receives the elements of [b] *)
Definition union_list (a b : list nat) : list nat :=
  keys (fold_left set_add b (set_copy (set_of a))).
