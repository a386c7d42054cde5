(** Vocabulary for the program identify_network.py: its options and its files. *)
From Coq Require Import String.
From Coq Require Import Bool Arith List ZArith Sorted.
From Verif Require Import BasePy BaseFld BaseOrd BaseSum BaseMat ModelFit ModelRun SpecRun.
Import ListNotations.
Close Scope string_scope.
Local Open Scope nat_scope.

(** same options with other values of some of them *)
Definition with_flags (o : options) (st ba : bool) : options :=
  Options (network o) (max_iterations o) st ba (continue_id o) (phases o) (sequence o) (exact o) (laplacian o) (weighted o) (uncertainty o) (unsynchronized o).
Definition with_phases (o : options) (p : string) : options :=
  Options (network o) (max_iterations o) (standard o) (bayesian o) (continue_id o) p (sequence o) (exact o) (laplacian o) (weighted o) (uncertainty o) (unsynchronized o).
Definition with_unsynchronized (o : options) (b : bool) : options :=
  Options (network o) (max_iterations o) (standard o) (bayesian o) (continue_id o) (phases o) (sequence o) (exact o) (laplacian o) (weighted o) (uncertainty o) b.
Definition with_weighted (o : options) (b : bool) : options :=
  Options (network o) (max_iterations o) (standard o) (bayesian o) (continue_id o) (phases o) (sequence o) (exact o) (laplacian o) b (uncertainty o) (unsynchronized o).
Definition with_exact (o : options) (b : bool) : options :=
  Options (network o) (max_iterations o) (standard o) (bayesian o) (continue_id o) (phases o) (sequence o) b (laplacian o) (weighted o) (uncertainty o) (unsynchronized o).

(** number of rounds of the Bayesian method *)
Definition rounds (o : options) : Z := if bayesian o || negb (standard o) then max_iterations o else 0%Z.

Section SpecIdentify.
Context {K : Type} {O : Ops K}.
Notation CK := (cplx K).
(** the Bayesian results are those from before, or hold at most [n] iterations *)
Definition of_this_run (name : string) (n : nat) (before : option (content K)) (s : files K) : Prop :=
  s (bayesian_path name) = before \/ exists y its, s (bayesian_path name) = Some (Bayesian y its) /\ length its <= n.

(** values of the positions of a label *)
Definition values_of (ids : list Z) (p : Z) (r rp : list K) : Prop := forall idx, positions_of ids p idx -> rp = map (vget r) idx.
(** the part of a simulation file that belongs to one label *)
Record part_of (l : Z) (i v j w y : mat CK) (p : list K) (h : list Z) (i' v' j' w' y' : mat CK) (p' : list K) : Prop := {
  po_i : nc i = length h /\ columns_of h l i i'; po_v : nc v = length h /\ columns_of h l v v';
  po_j : nc j = length h /\ columns_of h l j j'; po_w : nc w = length h /\ columns_of h l w w';
  po_y : shape y (length h) (length h) /\ block h l y y';
  po_p : length p = length h /\ values_of h l p p' }.
(** nothing changed except in the listed files *)
Definition only_changes (paths : list string) (s s' : files K) : Prop := forall p, ~ In p paths -> s' p = s p.
End SpecIdentify.

(** where the results of the uncertainty analysis are saved *)
Definition uncertainty_path (name : string) : string := ("simulations_output/uncertainty_results_" ++ name ++ ".npz")%string.
