(** Vocabulary for simulated measurements: apparent power, noise levels, sampling. *)
From Coq Require Import Arith List Bool ZArith.
From Verif Require Import BasePy BaseFld BaseOrd BaseSum BaseMat ModelNet ModelResample ModelMeasure SpecResample.
Import ListNotations.
Local Open Scope K_scope.

Section Spec.
Context {K : Type} {O : Ops K} {O2 : OrdOps K}.
Notation CK := (cplx K).

(** [s] is the apparent power of the active power [p] and the reactive power [q] *)
Definition apparent (p q s : K) : Prop := 0 <=! s /\ s * s = p * p + q * q.

(** load number [i] is connected to an external grid *)
Definition at_substation (n : net (K := K)) (i : nat) : Prop :=
  exists l, nth_error (loads n) i = Some l /\ In (l_bus l) (grids n).

(** the last element satisfying [P] *)
Definition last_such {A} (P : A -> Prop) (l : list A) (x : A) : Prop :=
  exists l1 l2, l = l1 ++ x :: l2 /\ P x /\ forall y, In y l2 -> ~ P y.
(** [p] and [q] are the powers of phase [ph] of the load of bus [b] counted last: asymmetric loads
    after symmetric ones, no load as zero *)
Definition counted (n : net (K := K)) (b ph : nat) (p q : K) : Prop :=
  (exists a, last_such (fun a => a_bus a = b) (asyms n) a /\ p = a_p a ph /\ q = a_q a ph) \/
  (forall a, In a (asyms n) -> a_bus a <> b) /\
    ((exists l, last_such (fun l => l_bus l = b) (loads n) l /\ p = l_p l /\ q = l_q l) \/
     (forall l, In l (loads n) -> l_bus l <> b) /\ p = 0 /\ q = 0).

(** [new] divides the time from 0 to [stop] into equal steps *)
Definition equally_spaced (stop : K) (new : list K) : Prop :=
  (forall k, (k < length new)%nat -> vget new k * knat (length new - 1) = knat k * stop) /\
  (new <> [] -> vget new 0 = 0).

Context {St : Type} (noise : @noise_fun K St K).
(** column [c] of [out] has the averages of [f] consecutive samples of column [c] of [M] at the new
    times, disturbed with deviations [sm] and [sp] *)
Definition disturbed (M : mat CK) (old new : list K) (f c : nat) (sm sp : K) (s s' : St) (out : mat CK) : Prop :=
  exists x w, interpolated M old new c x /\ noise x sm sp s = Ok (w, s') /\
    forall t, (t < length new / f)%nat ->
      knat f * re (get out t c) = sumn f (fun k => re (vget w (t * f + k))) /\
      knat f * im (get out t c) = sumn f (fun k => im (vget w (t * f + k))).
(** the four results of a measurement of [V] and [I]; [vm im vp ip c] are the deviations of column [c] *)
Definition measured (s : St) (V I : mat CK) (old new : list K) (f : nat) (vm im vp ip : nat -> K)
  (r : mat CK * mat CK * mat CK * mat CK) : Prop :=
  let '(nv, ni, v, i) := r in
  shape nv (length new / f) (nc V) /\ shape ni (length new / f) (nc V) /\
  averages V old new f v /\ averages I old new f i /\
  exists st, st 0%nat = s /\ forall c, (c < nc V)%nat ->
    disturbed V old new f c (vm c) (vp c) (st c) (st (S c)) nv /\
    disturbed I old new f c (im c) (ip c) (st (nc V + c)%nat) (st (S (nc V + c))) ni.
End Spec.

Section Usable.
Context {K : Type} {O : Ops K} {O2 : OrdOps K}.
(** at least two increasing times from 0 on, a row for each of them, [N] columns *)
Definition usable (times : list K) (V I : mat (cplx K)) (N : nat) : Prop :=
  increasing times /\ (2 <= length times)%nat /\ vget times 0 = 0 /\
  nr V = length times /\ nr I = length times /\ nc V = N /\ nc I = N.
(** the noise function returns as many values as it gets *)
Definition keeps_length {St} (noise : @noise_fun K St K) : Prop :=
  forall v a b s v' s', noise v a b s = Ok (v', s') -> length v' = length v.
Definition never_fails {St} (noise : @noise_fun K St K) : Prop := forall v a b s, exists w s', noise v a b s = Ok (w, s').
(** safety factor of a phase: one value for all phases or one for each *)
Definition phase_factor (factor : list K) (ph : nat) : K := if (length factor =? 1)%nat then vget factor 0 else vget factor ph.
End Usable.

(** number of [rows] obtained from [S] samples for [steps] time steps of [g] samples: everything that was
    sampled is used; taken directly, the number of rows is rounded *)
Definition row_bounds (equivalent : bool) (S steps g rows : nat) : Prop :=
  (steps <= rows)%nat /\
  if equivalent then (2 * S <= 2 * (rows * g) + g + 1 /\ 2 * (rows * g) <= 2 * S + g + 1)%nat else rows = (steps + S mod steps / g)%nat.

Section Measurement.
Context {K : Type} {O : Ops K} {O2 : OrdOps K}.
(** number of samples taken: the duration times the frequency, rounded *)
Definition samples (rnd : K -> Z) (times : list K) (fmeas : K) : nat := Z.to_nat (rnd (vget times (length times - 1) * fmeas)).
(** [m] is measured with the settings [prm] such that the variance of the noise is divided by [g]: averages
    of [f] samples are taken, and the deviations are divided by [scale] *)
Definition measured_with {St P} (noise : @noise_fun K St K) (seeded : St) (prm : @noise_params K P) V I times g ratings m : Prop :=
  exists new f scale, (0 < f)%nat /\ knat f * (scale * scale) = knat g /\
    (if use_equivalent_noise prm then f = 1%nat else scale = 1) /\
    equally_spaced (vget times (length times - 1)) new /\
    measured noise seeded V I times new f
      (fun _ => voltage_magnitude_sd prm / scale) (fun c => current_magnitude_sd prm / scale * vget ratings c)
      (fun _ => voltage_phase_sd prm / scale) (fun _ => current_phase_sd prm / scale) m.
End Measurement.
