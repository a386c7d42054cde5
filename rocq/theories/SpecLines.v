(** Vocabulary for three-phase quantities: columns 3i, 3i+1, 3i+2 are the phases a, b, c of node i. *)
From Coq Require Import Arith List.
From Verif Require Import BasePy BaseFld BaseSum BaseMat.

(** the phase that takes the place of phase [p] when b and c are exchanged *)
Definition other_phase (p : nat) : nat := match p with 1 => 2 | 2 => 1 | _ => p end.
(** exchanging phases b and c at all [n] nodes leaves the matrix as it is *)
Definition bc_symmetric {T} (d : T) (n : nat) (Y : mat T) : Prop :=
  forall i j p q, i < n -> j < n -> p < 3 -> q < 3 ->
    gget d Y (i * 3 + other_phase p) (j * 3 + other_phase q) = gget d Y (i * 3 + p) (j * 3 + q).
