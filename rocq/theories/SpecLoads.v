(** What is expected of generated loads, without reference to how they are computed. *)
From Coq Require Import Arith List ZArith Permutation Sorted.
From Verif Require Import BasePy BaseFld BaseOrd BaseSum BaseMat.
Import ListNotations.
Local Open Scope K_scope.

Section SpecLoads.
Context {K : Type} {O : Ops K} {O2 : OrdOps K}.

(** an integer as a number *)
Definition ofZ (z : Z) : K := if (z <? 0)%Z then - knat (Z.to_nat (- z)) else knat (Z.to_nat z).
(** [z] is the integer nearest to [x], the even one if there are two *)
Definition nearest (x : K) (z : Z) : Prop :=
  knat 2 * kabs (x - ofZ z) <=! 1 /\ (knat 2 * kabs (x - ofZ z) = 1 -> Z.even z = true).
(** a rounding function *)
Definition rounds (rnd : K -> Z) : Prop := forall x, nearest x (rnd x).

(** [x] is the 90th percentile of [l]: nine tenths of the way through the ordered values, on a
    straight line between two neighbours *)
Definition percentile_of (l : list K) (x : K) : Prop :=
  exists (s : list K) (j : nat) (g : K),
    Permutation l s /\ (forall i k, (i <= k < length s)%nat -> vget s i <=! vget s k) /\ (j < length s)%nat /\
    0 <=! g /\ g <! 1 /\ knat 10 * (knat j + g) = knat 9 * knat (length l - 1) /\
    x = (1 - g) * vget s j + g * vget s (if (S j <? length s)%nat then S j else j).
(** [x] is the mean over the columns of [m] of the 90th percentiles of the absolute values *)
Definition typical_share (m : mat K) (x : K) : Prop :=
  exists pc : nat -> K, (forall j, (j < nc m)%nat -> percentile_of (mkv (nr m) (fun t => kabs (get m t j))) (pc j)) /\
    knat (nc m) * x = sumn (nc m) pc.

(** the lines of the file in the selected weeks, [len] of each, in million units *)
Definition selects (file : mat K) (weeks : list Z) (len : nat) (m : mat K) : Prop :=
  shape m (length weeks * len) (nc file) /\
  forall w t h, (w < length weeks)%nat -> (t < len)%nat -> (h < nc file)%nat ->
    (get m (w * len + t) h * (knat 10 * knat 10 * knat 10 * knat 10 * knat 10 * knat 10) = get file (Z.to_nat (10080 * nth w weeks 0%Z) + t) h).
(** the file is long enough for all weeks *)
Definition long_enough (file : mat K) (weeks : list Z) (len : nat) : Prop :=
  forall w, In w weeks -> (0 <= w /\ 10080 * w + Z.of_nat len <= Z.of_nat (nr file))%Z.

(** column [c] is the sum of as many households of the profile as the reference asks for *)
Definition sum_of_households (m : mat K) (share reference : K) (c : nat -> K) : Prop :=
  exists picks : list nat, nearest (reference / share) (Z.of_nat (length picks)) /\
    (forall h, In h picks -> (h < nc m)%nat) /\
    forall t, (t < nr m)%nat -> c t = lsum (map (fun h => get m t h) picks).

(** [y] is [x], mixed with the share [a] of the nominal value if node [b] is one of the constant nodes *)
Definition mixes (a nominal : K) (const : option (list nat)) (b : nat) (x y : K) : Prop :=
  ((exists l, const = Some l /\ In b l) -> y = (1 - a) * x + a * nominal) /\
  (~ (exists l, const = Some l /\ In b l) -> y = x).

(** random household numbers: as many as asked for, all existing *)
Definition fair {St : Type} (randint : nat -> nat -> St -> list nat * St) : Prop :=
  forall b n s, (0 < b)%nat -> length (fst (randint b n s)) = n /\ forall h, In h (fst (randint b n s)) -> (h < b)%nat.

(** the m-th random number from a state on, counted from 0, and the state after m of them *)
Fixpoint drawn {St : Type} (gauss : St -> K * St) (s : St) (m : nat) : K :=
  match m with 0%nat => fst (gauss s) | S m' => drawn gauss (snd (gauss s)) m' end.
Fixpoint after {St : Type} (gauss : St -> K * St) (s : St) (m : nat) : St :=
  match m with 0%nat => s | S m' => after gauss (snd (gauss s)) m' end.
(** [y] is the sum of the [picks], as many as the nominal value asks for, mixed with the nominal value on constant nodes *)
Definition from_picks (a : K) (m : mat K) (share nominal : K) (const : option (list nat)) (b : nat) (picks : list nat) (y : nat -> K) : Prop :=
  nearest (nominal / share) (Z.of_nat (length picks)) /\
  forall t, (t < nr m)%nat -> mixes a nominal const b (lsum (map (fun h => get m t h) picks)) (y t).
(** requests for household numbers below a bound, answered by one generator one after the other;
    an empty request does not reach the generator *)
Fixpoint in_turn {St : Type} (randint : nat -> nat -> St -> list nat * St) (s : St) (l : list (nat * list nat)) (s' : St) : Prop :=
  match l with
  | [] => s' = s
  | (b, picks) :: l' =>
    match picks with
    | [] => in_turn randint s l' s'
    | _ :: _ => picks = fst (randint b (length picks) s) /\ in_turn randint (snd (randint b (length picks) s)) l' s'
    end
  end.
End SpecLoads.
