(** Model of the generation of loads: /repo/src/simulation/load_profile.py, and [generate_loads] of
    /repo/src/simulation/run.py and run3ph.py.

    The random generator is a state with two functions: [randint b n] gives n household numbers
    below b, [gauss] the next standard normal value.  Profile values are exact numbers; only the
    number of lines per week, run.py:64-65, is computed in double precision, since it is truncated.
    [rnd] is Python's [round].  A profile file is its array; reading it from disk is left out.
    A profile without rows or columns has nan as percentile, which [round] refuses. *)
From Coq Require Import Bool Arith List ZArith Reals.
From Flocq Require Import Core.
From Verif Require Import BasePy BaseFld BaseOrd BaseSum BaseMat BaseLin BaseNumpy BaseFloat ModelNet.
Import ListNotations.
Close Scope R_scope.
Local Open Scope K_scope.

(** run.py:64-65 = run3ph.py:62-63 = 75: [np.array(days / len(selected_weeks) * 24 * 60, dtype=np.int64)] *)
Definition lines_per_week (days weeks : nat) : res Z :=
  if (weeks =? 0)%nat then Err ZeroDivisionError
  else Ok (Ztrunc (fl64 (fl64 (fl64 (INR days / INR weeks) * 24) * 60))%R).

Section Loads.
Context {K : Type} {O : Ops K} {O2 : OrdOps K}.

Fixpoint insert_value (x : K) (l : list K) : list K :=
  match l with
  | [] => [x]
  | y :: r => if kleb x y then x :: l else y :: insert_value x r
  end.
Fixpoint sort_values (l : list K) : list K :=
  match l with [] => [] | x :: r => insert_value x (sort_values r) end.
(** [np.percentile(l, 90)], linear interpolation *)
Definition percentile90 (l : list K) : K :=
  let s := sort_values l in
  let m := (9 * (length l - 1))%nat in
  let lo := vget s (m / 10) in
  let hi := vget s (Nat.min (m / 10 + 1) (length l - 1)) in
  lo + knat (m mod 10) / knat 10 * (hi - lo).
(** load_profile.py:121-122 = 224-225: [np.mean(np.percentile(np.abs(profile), 90, axis=0))] *)
Definition mean_percentile (m : mat K) : K :=
  sumn (nc m) (fun j => percentile90 (map kabs (mcol m j))) / knat (nc m).

(** [1e6] *)
Definition million : K := let t := knat 10 in t * t * t * t * t * t.
(** a slice of rows *)
Definition rows_slice (m : mat K) (a b : Z) : mat K :=
  let a := slice_bound (nr m) a in
  let b := slice_bound (nr m) b in
  mk (b - a) (nc m) (fun i j => get m (a + i) j).
(** load_profile.py:207-222.  Both files are cut at lines counted in the active one, of [size] lines. *)
Definition read_profile (size : nat) (file : mat K) (skip_header : list Z) (len : Z) : mat K :=
  let stop i := (Z.of_nat size - (Z.of_nat size - (len + i)))%Z in
  let all := fold_left (fun m i => vstack2 m (rows_slice file i (stop i))) skip_header (mk 0 (nc file) (fun _ _ => 0)) in
  mmap (fun x => x / million) all.

Context (rnd : K -> Z).
Context {St : Type} (randint : nat -> nat -> St -> list nat * St) (gauss : St -> K * St).

(** [round(reference / percentile)] *)
Definition households (profile : mat K) (reference : K) : res Z :=
  let share := mean_percentile profile in
  if (nr profile =? 0)%nat || (nc profile =? 0)%nat then Err ValueError
  else if keqb share 0 then Err (if keqb reference 0 then ValueError else OverflowError)
  else Ok (rnd (reference / share)).
(** load_profile.py:137-139 and alike: a negative size is a ValueError *)
Definition assign (profile : mat K) (reference : K) (s : St) : res (list K * St) :=
  size <- households profile reference ;;
  if (size <? 0)%Z then Err ValueError
  else let '(picks, s') := if (size =? 0)%Z then ([], s) else randint (nc profile) (Z.to_nat size) s in
       Ok (mkv (nr profile) (fun t => lsum (map (fun h => get profile t h) picks)), s').
Fixpoint assign_all (l : list (mat K * K)) (s : St) : res (list (list K) * St) :=
  match l with
  | [] => Ok ([], s)
  | (m, r) :: l' => '(c, s1) <- assign m r s ;; '(cs, s2) <- assign_all l' s1 ;; Ok (c :: cs, s2)
  end.
(** the k-th of the [w] matrices filled in turn *)
Definition collect (cols : list (list K)) (rows w n k : nat) : mat K :=
  mk rows n (fun t i => vget (nth (w * i + k) cols []) t).

(** load_profile.py:233-247 (= 130-144): one phase *)
Definition fill_loads (P Q : mat K) (refs : list (K * K)) (s : St) : res (mat K * mat K * St) :=
  '(cols, s') <- assign_all (flat_map (fun r => [(P, fst r); (Q, snd r)]) refs) s ;;
  let n := length refs in
  Ok (collect cols (nr P) 2 n 0, collect cols (nr Q) 2 n 1, s').
(** the nominal values of one asymmetric load: those of load_p_reference, load_p_rb, load_p_rc, load_q_reference, .. *)
Record phased := Phased { pa : K; pb : K; pc : K; qa : K; qb : K; qc : K }.
(** load_profile.py:249-279 (= 146-176): three phases *)
Definition fill_asym (P Q : mat K) (refs : list phased) (s : St) : res (list (mat K) * St) :=
  '(cols, s') <- assign_all (flat_map (fun r => [(P, pa r); (P, pb r); (P, pc r); (Q, qa r); (Q, qb r); (Q, qc r)]) refs) s ;;
  let n := length refs in
  Ok ([collect cols (nr P) 6 n 0; collect cols (nr P) 6 n 1; collect cols (nr P) 6 n 2;
       collect cols (nr Q) 6 n 3; collect cols (nr Q) 6 n 4; collect cols (nr Q) 6 n 5], s').

(** load_profile.py:183-283 *)
Definition load_profile_from_numpy (active reactive : mat K) (skip_header : list Z) (len : Z) (refs : list (K * K)) (s : St)
  : res (mat K * mat K * St) :=
  fill_loads (read_profile (nr active) active skip_header len) (read_profile (nr active) reactive skip_header len) refs s.
Definition load_asym_from_numpy (active reactive : mat K) (skip_header : list Z) (len : Z) (refs : list phased) (s : St)
  : res (list (mat K) * St) :=
  fill_asym (read_profile (nr active) active skip_header len) (read_profile (nr active) reactive skip_header len) refs s.

Fixpoint normals (n : nat) (s : St) : list K * St :=
  match n with
  | 0%nat => ([], s)
  | S n' => let '(g, s1) := gauss s in let '(l, s2) := normals n' s1 in (g :: l, s2)
  end.
(** [np.random.normal(reference, reference * load_sd, (n_samples, n_load))] *)
Definition normal_load (load_sd : K) (n_samples : nat) (reference : list K) (s : St) : res (mat K * St) :=
  if existsb (fun r => kltb (r * load_sd) 0) reference then Err ValueError
  else let n := length reference in
       let '(g, s') := normals (n_samples * n) s in
       Ok (mk n_samples n (fun t i => vget reference i + vget reference i * load_sd * vget g (t * n + i)), s').
(** load_profile.py:67-71 *)
Definition generate_gaussian_load (load_sd : K) (n_samples : nat) (refs : list (K * K)) (s : St) : res (mat K * mat K * St) :=
  '(p, s1) <- normal_load load_sd n_samples (map fst refs) s ;;
  '(q, s2) <- normal_load load_sd n_samples (map snd refs) s1 ;;
  Ok (p, q, s2).
(** load_profile.py:72-79 *)
Definition generate_gaussian_asym (load_sd : K) (n_samples : nat) (refs : list phased) (s : St) : res (list (mat K) * St) :=
  '(load_pa, s) <- normal_load load_sd n_samples (map pa refs) s ;;
  '(load_qa, s) <- normal_load load_sd n_samples (map qa refs) s ;;
  '(load_pb, s) <- normal_load load_sd n_samples (map pb refs) s ;;
  '(load_qb, s) <- normal_load load_sd n_samples (map qb refs) s ;;
  '(load_pc, s) <- normal_load load_sd n_samples (map pc refs) s ;;
  '(load_qc, s) <- normal_load load_sd n_samples (map qc refs) s ;;
  Ok ([load_pa; load_qa; load_pb; load_qb; load_pc; load_qc], s).

(** ** generate_loads *)
(** the two kinds of the tuple [load_params] *)
Inductive load_params :=
| FromProfiles (active reactive : mat K) (selected_weeks : list Z) (days : nat) (constant_load_nodes : option (list nat))
| FromStd (load_std : K) (days : nat) (constant_load_nodes : option (list nat)).
(** run.py:56, in seconds *)
Definition time_stamps (days : nat) : list Z := map (fun k => (Z.of_nat k * 60)%Z) (range (days * 24 * 60)).
(** run.py:63 *)
Definition skip_lines (selected_weeks : list Z) : list Z := map (fun w => (w * 7 * 24 * 60)%Z) selected_weeks.
(** run.py:84-89: the columns of the nodes listed *)
Definition blend (a : K) (constant_load_nodes : option (list nat)) (buses : list nat) (nominal : list K) (m : mat K) : mat K :=
  match constant_load_nodes with
  | None => m
  | Some l => mk (nr m) (nc m) (fun t i => if isin (nth i buses 0%nat) l then (1 - a) * get m t i + a * vget nominal i else get m t i)
  end.
Definition refs_of (n : net) : list (K * K) := map (fun l => (l_p l, l_q l)) (loads n).

(** run.py:29-102.  [seeded] is the state of the generator after [np.random.seed(conf.seed)],
    [saved] the content of the file of results. *)
Definition generate_loads (a : K) (seeded : St) (n : net) (params : option load_params)
  (saved : option (mat K * mat K * list Z)) (s : St)
  : res ((mat K * mat K * list Z) * option (mat K * mat K * list Z) * St) :=
  match params with
  | None => match saved with None => Err FileNotFoundError | Some r => Ok (r, saved, s) end
  | Some prm =>
    '(load_p, load_q, times, const, s') <-
      match prm with
      | FromProfiles active reactive weeks days const =>
        len <- lines_per_week days (length weeks) ;;
        '(p, q, s') <- load_profile_from_numpy active reactive (skip_lines weeks) len (refs_of n) seeded ;;
        Ok (p, q, time_stamps days, const, s')
      | FromStd load_std days const =>
        '(p, q, s') <- generate_gaussian_load load_std (length (time_stamps days)) (refs_of n) seeded ;;
        Ok (p, q, time_stamps days, const, s')
      end ;;
    let load_p := blend a const (map l_bus (loads n)) (map l_p (loads n)) load_p in
    let load_q := blend a const (map l_bus (loads n)) (map l_q (loads n)) load_q in
    let r := (load_p, load_q, times) in
    Ok (r, Some r, s')
  end.

Definition phased_of (l : asym_row) : phased :=
  Phased (a_p l 0%nat) (a_p l 1%nat) (a_p l 2%nat) (a_q l 0%nat) (a_q l 1%nat) (a_q l 2%nat).
(** run3ph.py:31-156, one run of it without the file of results.  The name [generate_gaussian_load] is not
    imported in this module. *)
Definition generate_loads_3ph (a : K) (seeded : St) (n : net) (prm : load_params)
  : res (mat K * mat K * list (mat K) * list Z * St) :=
  match prm with
  | FromProfiles active reactive weeks days const =>
    len <- lines_per_week days (length weeks) ;;
    '(load_p, load_q, s) <- load_profile_from_numpy active reactive (skip_lines weeks) len (refs_of n) seeded ;;
    '(load_asym, s) <- load_asym_from_numpy active reactive (skip_lines weeks) len (map phased_of (asyms n)) s ;;
    let mix nominal m := blend a const (map a_bus (asyms n)) nominal m in
    let part k := nth k load_asym (mk 0 0 (fun _ _ => 0)) in
    Ok (blend a const (map l_bus (loads n)) (map l_p (loads n)) load_p,
        blend a const (map l_bus (loads n)) (map l_q (loads n)) load_q,
        [mix (map (fun l => a_p l 0%nat) (asyms n)) (part 0%nat);
         mix (map (fun l => a_p l 1%nat) (asyms n)) (part 1%nat);
         mix (map (fun l => a_p l 2%nat) (asyms n)) (part 2%nat);
         mix (map (fun l => a_q l 0%nat) (asyms n)) (part 3%nat);
         mix (map (fun l => a_q l 1%nat) (asyms n)) (part 4%nat);
         mix (map (fun l => a_q l 2%nat) (asyms n)) (part 5%nat)],
        time_stamps days, s)
  | FromStd _ _ _ => Err NameError
  end.
End Loads.
