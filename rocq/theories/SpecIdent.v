(** What the priors of the identification are documented to be: penalties on lines and on nodes. *)
From Coq Require Import Arith List Bool.
From Verif Require Import BasePy BaseFld BaseOrd BaseSum BaseMat SpecMatrix ModelMatrixOps ModelPrior.
Import ListNotations.
Local Open Scope K_scope.

Section Spec.
Context {K : Type} {O : Ops K} {O2 : OrdOps K}.
Notation CK := (cplx K).

(** the two parametrisations of an admittance matrix *)
Definition admissible (laplacian_form : bool) (n : nat) (M : mat CK) : Prop :=
  if laplacian_form then laplacian n M else symmetric n M.
Definition parameters (laplacian_form : bool) (M : mat CK) : list K :=
  make_real_vector (if laplacian_form then ve M else vech M).

(** every line once: sum over j < i < n *)
Definition line_sum (n : nat) (f : nat -> nat -> K) : K := sumn n (fun i => sumn i (fun j => f i j)).
(** the same with complex terms *)
Definition total (n : nat) (M : mat CK) : CK := sumn n (fun i => sumn i (fun j => get M i j)).
(** real plus imaginary part of a penalty *)
Definition parts (f : (CK -> K) -> K) : K := f re + f im.
(** the lines at node i *)
Definition node_sum (n : nat) (M : mat CK) (i : nat) : CK := sumn n (fun j => if (j =? i)%nat then 0 else get M i j).
(** both parts differ from zero *)
Definition nonzero_parts (z : CK) : Prop := re z <> 0 /\ im z <> 0.
(** no line of the estimate is zero *)
Definition no_zero_line (n : nat) (Y : mat CK) : Prop :=
  forall i j, (i < n)%nat -> (j < n)%nat -> i <> j -> nonzero_parts (get (sym_part n Y) i j).

(** what the sum of the lines at node i is compared with: the diagonal or the sum in the estimate *)
Definition reference (use_diagonal : bool) (n : nat) (Y : mat CK) (i : nat) : CK :=
  if use_diagonal then - get Y i i else node_sum n (sym_part n Y) i.

(** a Laplace row: absolute value of the residual plus the smoothness parameter *)
Definition cost (alpha u : K) : K := kabs u + alpha.
(** the penalty that the prior returns at the parameters x *)
Definition penalty_at (p : spprior K) (x : list K) (c : K) : Prop := exists A b, sp_log_distribution p x = Ok (A, b, c).

(** penalties: relative size of every line; sum of the lines at every node relative to its reference; distance of the diagonal;
    the sum of all lines relative to the sum of the references *)
Definition line_pen (al : K) (n : nat) (Y M : mat CK) : K :=
  line_sum n (fun i j => parts (fun part => cost al (part (get M i j) / part (get (sym_part n Y) i j)))).
Definition node_pen (al lam : K) (tls : bool) (n : nat) (Y M : mat CK) : K :=
  sumn n (fun i => parts (fun part => cost al (lam * (part (node_sum n M i) / part (reference tls n Y i) - 1)))).
Definition diag_pen (al lam : K) (n : nat) (Y M : mat CK) : K :=
  sumn n (fun i => parts (fun part => cost al (lam * (part (get M i i) - part (get Y i i))))).
Definition single_pen (al lam : K) (tls : bool) (n : nat) (Y M : mat CK) : K :=
  parts (fun part => cost al (lam * (part (total n M) / part (sumn n (fun i => reference tls n Y i)) + 1))).
(** the same with no residual: every line as large as in the estimate, every node balanced *)
Definition line_pen_unit (al : K) (n : nat) : K := line_sum n (fun _ _ => parts (fun _ => cost al 1)).
Definition no_residual (al : K) (n : nat) : K := sumn n (fun _ => parts (fun _ => cost al 0)).
(** the lines of M are those of the estimate *)
Definition same_lines (n : nat) (M Y : mat CK) : Prop :=
  forall i j, (i < n)%nat -> (j < n)%nat -> i <> j -> get M i j = get (sym_part n Y) i j.
(** M and L differ in the conductance of line a-b at most *)
Definition differ_in_conductance (n a b : nat) (M L : mat CK) : Prop :=
  forall i j, (j < i)%nat -> (i < n)%nat -> im (get M i j) = im (get L i j) /\ ((i, j) <> (a, b) -> re (get M i j) = re (get L i j)).
(** every line close to its value *)
Definition exact_lines (al : K) (n : nat) (Y M : mat CK) : K :=
  line_sum n (fun i j => parts (fun part => cost al (part (get M i j) - part (get (sym_part n Y) i j)))).

(** lines known to an expert: all lines at some nodes, those listed with their value, the others absent *)
Definition touches (nodes : list nat) (a b : nat) : bool := existsb (Nat.eqb a) nodes || existsb (Nat.eqb b) nodes.
Definition listed (lines : list (nat * nat)) (a b : nat) : bool :=
  existsb (fun l => ((fst l =? a)%nat && (snd l =? b)%nat) || ((fst l =? b)%nat && (snd l =? a)%nat)) lines.
Definition known_value (lines : list (nat * nat)) (n : nat) (Y : mat CK) (a b : nat) : CK :=
  if listed lines a b then get (sym_part n Y) a b else 0.
Definition knowledge (alpha lambda factor : K) (nodes : list nat) (lines : list (nat * nat)) (n : nat) (Y M : mat CK) : K :=
  line_sum n (fun a b => if touches nodes a b
    then parts (fun part => cost alpha (lambda * (part (get M a b) - part (known_value lines n Y a b) * factor))) else 0).

(** the lines near the substation of the network, and the lines in the middle of its feeders *)
Definition opt_nodes : list nat := [0; 25; 26]%nat.
Definition opt_lines : list (nat * nat) := [(0, 1); (24, 25); (25, 26); (26, 27); (26, 28)]%nat.
Definition sub_nodes : list nat := [7; 20; 21]%nat.
Definition sub_lines : list (nat * nat) := [(7, 6); (7, 8); (19, 20); (20, 21); (21, 22)]%nat.
(** number of real parameters *)
Definition columns (laplacian_form : bool) (n : nat) : nat := if laplacian_form then (n * (n - 1))%nat else (n * (n + 1))%nat.

(** adaptive Lasso penalty with the given weights of the parameters *)
Definition weighted_penalty (alpha : K) (weight : K -> K) (y x : list K) : K :=
  sumn (length y) (fun k => cost alpha (weight (vget y k) * vget x k)).
End Spec.
