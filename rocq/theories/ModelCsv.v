(** Model of the csv reader for load profiles: /repo/src/simulation/load_profile.py:82-180.
    A csv file is the table of the numbers in its lines (separator ';', no header, every line as long as the first one); that the text is
    parsed to these numbers is not modelled, nor are the messages of [verbose]. *)
From Coq Require Import Bool Arith List ZArith.
From Verif Require Import BasePy BaseFld BaseOrd BaseSum BaseMat BaseLin BaseNumpy ModelNet ModelLoads.
Import ListNotations.
Local Open Scope K_scope.

Section Csv.
Context {K : Type} {O : Ops K} {O2 : OrdOps K}.

(** load_profile.py:111-112 = 115-116: [pd.read_csv(file, header=None, engine='python', skiprows=h, skipfooter=f).to_numpy()].
    A negative [skipfooter] is a ValueError; a negative [skiprows] skips nothing; a file without a line after the skipped ones is an
    EmptyDataError, which is a ValueError; a footer that is too long leaves no row. *)
Definition read_csv (file : mat K) (skiprows skipfooter : Z) : res (mat K) :=
  if (skipfooter <? 0)%Z then Err ValueError
  else if (nr file <=? Z.to_nat skiprows)%nat then Err ValueError
  else let a := Z.to_nat skiprows in
       Ok (mk (nr file - Z.to_nat skipfooter - a) (nc file) (fun t j => get file (a + t) j)).
(** load_profile.py:103-104, 110-117: [pload_profile] and [qload_profile] are None before the first part *)
Fixpoint csv_parts (active reactive : mat K) (skip_header skip_footer : list Z) (profiles : option (mat K * mat K)) : res (option (mat K * mat K)) :=
  match skip_header with
  | [] => Ok profiles
  | h :: hs =>
    match skip_footer with
    | [] => Err IndexError
    | f :: fs =>
      pl <- read_csv active h f ;;
      ql <- read_csv reactive h f ;;
      csv_parts active reactive hs fs (Some (match profiles with None => (pl, ql) | Some (p, q) => (vstack2 p pl, vstack2 q ql) end))
    end
  end.
(** load_profile.py:110-123: without any part None is divided by a number *)
Definition csv_profiles (active reactive : mat K) (skip_header skip_footer : list Z) : res (mat K * mat K) :=
  parts <- csv_parts active reactive skip_header skip_footer None ;;
  match parts with
  | None => Err TypeError
  | Some (p, q) => Ok (mmap (fun x => x / million) p, mmap (fun x => x / million) q)
  end.

Context (rnd : K -> Z).
Context {St : Type} (randint : nat -> nat -> St -> list nat * St).
(** load_profile.py:82-180; lines 124-180 are the same as lines 226-283 of the reader of npy files *)
Definition load_profile_from_csv (active reactive : mat K) (skip_header skip_footer : list Z) (refs : list (K * K)) (s : St) : res (mat K * mat K * St) :=
  '(p, q) <- csv_profiles active reactive skip_header skip_footer ;; fill_loads rnd randint p q refs s.
Definition load_asym_from_csv (active reactive : mat K) (skip_header skip_footer : list Z) (refs : list (phased (K := K))) (s : St) : res (list (mat K) * St) :=
  '(p, q) <- csv_profiles active reactive skip_header skip_footer ;; fill_asym rnd randint p q refs s.
End Csv.
