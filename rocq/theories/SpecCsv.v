(** What is expected of the loads read from csv files, without reference to how they are read. *)
From Coq Require Import Arith List ZArith.
From Verif Require Import BasePy BaseFld BaseOrd BaseSum BaseMat.
Import ListNotations.
Local Open Scope K_scope.

(** the numbers of the lines that are left of a file with [N] lines, part by part: a part is the file without its first [h] and its last [f] lines *)
Definition kept_lines (N : nat) (parts : list (Z * Z)) : list nat :=
  flat_map (fun hf => seq (Z.to_nat (fst hf)) (N - Z.to_nat (snd hf) - Z.to_nat (fst hf))) parts.
(** a part that can be read: no negative footer, and a line after the skipped ones *)
Definition readable (N : nat) (part : Z * Z) : Prop := (0 <= snd part)%Z /\ (Z.to_nat (fst part) < N)%nat.
Section SpecCsv.
Context {K : Type} {O : Ops K}.
(** the listed lines of the file, in million units *)
Definition lines_of (file : mat K) (lines : list nat) (m : mat K) : Prop :=
  shape m (length lines) (nc file) /\
  forall t h, (t < length lines)%nat -> (h < nc file)%nat -> get m t h * (knat 10 * knat 10 * knat 10 * knat 10 * knat 10 * knat 10) = get file (nth t lines 0%nat) h.
End SpecCsv.
