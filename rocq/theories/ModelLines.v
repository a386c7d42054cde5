(** Model of the conversions of /repo/src/simulation/lines.py:52-130.
    Real arithmetic is exact.  [LineData] (lines 15-50) is modelled in ModelNet.v. *)
From Coq Require Import List Reals.
From Verif Require Import BasePy BaseFld BaseSum BaseMat ModelErrorMetrics.
Import ListNotations.
Local Open Scope R_scope.

(** [np.deg2rad], [np.exp(1j * x)] *)
Definition deg2rad (x : R) : R := x * PI / 180.
Definition cis (x : R) : C := Cx (cos x) (sin x).

Definition mat3 (l : list (list C)) : mat C := mk 3 3 (fun i j => nth j (nth i l []) 0%K).

(** lines.py:59-64 = 82-87 = 106-111 *)
Definition block_abc : mat C := mat3
  [[Cx 1 0; Cx 1 0; Cx 1 0];
   [Cx 1 0; cis (deg2rad (-120)); cis (deg2rad 120)];
   [Cx 1 0; cis (deg2rad 120); cis (deg2rad (-120))]].
(** lines.py:66-71 = 89-94 = 123-128 *)
Definition block_012 : mat C := mmap (fun z => Cx (re z / 3) (im z / 3)) (mat3
  [[Cx 1 0; Cx 1 0; Cx 1 0];
   [Cx 1 0; cis (deg2rad 120); cis (deg2rad (-120))];
   [Cx 1 0; cis (deg2rad (-120)); cis (deg2rad 120)]]).

Definition t_abc (columns : nat) : mat C := mkron (meye (columns / 3)) block_abc.
Definition t_012 (columns : nat) : mat C := mkron (meye (columns / 3)) block_012.

(** lines.py:52-73 *)
Definition admittance_sequence_to_phase (y_012 : mat C) : res (mat C) :=
  a <- matmul (t_abc (nc y_012)) y_012 ;; matmul a (t_012 (nc y_012)).
(** lines.py:75-96 *)
Definition admittance_phase_to_sequence (y_012 : mat C) : res (mat C) :=
  a <- matmul (t_012 (nc y_012)) y_012 ;; matmul a (t_abc (nc y_012)).
(** lines.py:99-113 *)
Definition measurement_sequence_to_phase (measurement : mat C) : res (mat C) :=
  matmul measurement (t_abc (nc measurement)).
(** lines.py:116-130 *)
Definition measurement_phase_to_sequence (measurement : mat C) : res (mat C) :=
  matmul measurement (t_012 (nc measurement)).

(** network_3ph.py:124-125: three sequence admittance matrices put together *)
Definition unit3 (k : nat) : mat C := mdiag (mkv 3 (fun i => if Nat.eqb i k then Cx 1 0 else 0%K)).
Definition assemble_012 (y0 y1 y2 : mat C) : mat C :=
  madd (madd (mkron y0 (unit3 0)) (mkron y1 (unit3 1))) (mkron y2 (unit3 2)).
