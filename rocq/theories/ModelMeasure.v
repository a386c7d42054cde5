(** Model of [add_noise_and_filter]: /repo/src/simulation/run.py:140-243 (one phase) and
    /repo/src/simulation/run3ph.py:195-319 (three phases).

    Numbers are exact; [rnd] is Python's [round] and [root] numpy's square root.  The noise function
    [noise] (add_polar_noise_to_measurement on one column) and the state [seeded] of the generator after
    [np.random.seed(conf.seed)] are parameters.  The file of results is the argument and result [saved];
    the state of the generator afterwards is not returned. *)
From Coq Require Import Bool Arith List ZArith.
From Verif Require Import BasePy BaseFld BaseOrd BaseSum BaseMat BaseLin BaseNumpy ModelNet ModelResample ModelLoads.
Import ListNotations.
Local Open Scope K_scope.

Section Measure.
Context {K : Type} {O : Ops K} {O2 : OrdOps K}.
Notation CK := (cplx K).
Context (rnd : K -> Z) (root : K -> K).
Context {St : Type} (noise : @noise_fun K St K) (seeded : St).

(** the tuple [noise_params]; [F] is the type of the safety factor *)
Record noise_params (F : Type) := NoiseParams {
  voltage_magnitude_sd : K; current_magnitude_sd : K; voltage_phase_sd : K; current_phase_sd : K;
  use_equivalent_noise : bool; pmu_safety_factor : F }.
Arguments NoiseParams {F}. Arguments voltage_magnitude_sd {F}. Arguments current_magnitude_sd {F}.
Arguments voltage_phase_sd {F}. Arguments current_phase_sd {F}. Arguments use_equivalent_noise {F}. Arguments pmu_safety_factor {F}.

(** run.py:175 *)
Definition base_ratings (factor : K) (n : net (K := K)) : list K :=
  map (fun l => factor * (l_p l * l_p l + l_q l * l_q l)) (loads n).
(** run.py:177-179, in place *)
Definition grid_ratings (n : net (K := K)) (ratings : list K) : list K :=
  fold_left (fun r i => match nth_error (loads n) i with
      | Some l => if isin (l_bus l) (grids n) then mkv (length r) (fun j => if (j =? i)%nat then lsum r else vget r j) else r
      | None => r end)
    (range (length (loads n))) ratings.

(** [np.max], [np.linspace(0, stop, num)] *)
Definition np_max (l : list K) : res K :=
  match l with [] => Err ValueError | x :: r => Ok (fold_left (fun m y => if kltb m y then y else m) r x) end.
Definition linspace (stop : K) (num : Z) : res (list K) :=
  if (num <? 0)%Z then Err ValueError
  else let n := Z.to_nat num in Ok (map (fun i => if (n =? 1)%nat then 0 else knat i * (stop / knat (n - 1))) (range n)).
(** run.py:181-182 = run3ph.py:257-258: the new times and the number of samples averaged *)
Definition sampling (times : list K) (fmeas : K) (steps : nat) : res (K * list K * nat) :=
  last <- np_max times ;;
  ts <- linspace last (rnd (last * fmeas)) ;;
  if (steps =? 0)%nat then Err ZeroDivisionError else Ok (last, ts, (length ts / steps)%nat).
(** run.py:202 = run3ph.py:278: the division is that of numpy, which returns inf or nan *)
Definition equivalent_times (last fmeas : K) (fparam : nat) : res (list K) :=
  if (fparam =? 0)%nat then Err (if keqb (last * fmeas) 0 then ValueError else OverflowError)
  else linspace last (rnd (last * fmeas / knat fparam)).

(** [np.hstack((voltage, current))] and [np.split(.., 2, axis=1)] *)
Definition side_by_side (v i : mat CK) : res (mat CK) :=
  if (nr v =? nr i)%nat then Ok (mk (nr v) (nc v + nc i) (fun t j => if (j <? nc v)%nat then get v t j else get i t (j - nc v)))
  else Err ValueError.
Definition halves (m : mat CK) : res (mat CK * mat CK) :=
  if (nc m mod 2 =? 0)%nat
  then let h := (nc m / 2)%nat in Ok (mk (nr m) h (fun t j => get m t j), mk (nr m) h (fun t j => get m t (h + j)))
  else Err ValueError.

(** run.py:199-229 = run3ph.py:275-305: returns the measurements and the last value of [fparam] *)
Definition measure {F} (prm : noise_params F) (ratings : list K) (voltage current : mat CK) (times : list K)
  (last : K) (ts : list K) (fmeas : K) (fparam : nat) : res ((mat CK * mat CK * mat CK * mat CK) * nat) :=
  '(ts, vm, im, vp, ip, fp) <-
    (if use_equivalent_noise prm then
       ts' <- equivalent_times last fmeas fparam ;;
       let d := root (knat fparam) in
       Ok (ts', voltage_magnitude_sd prm / d, current_magnitude_sd prm / d, voltage_phase_sd prm / d, current_phase_sd prm / d, 1%nat)
     else Ok (ts, voltage_magnitude_sd prm, current_magnitude_sd prm, voltage_phase_sd prm, current_phase_sd prm, fparam)) ;;
  let n := length ratings in
  let mg_stds := map (fun _ => vm * 1) (range n) ++ map (fun r => im * r) ratings in
  let phase_stds := map (fun _ => vp * 1) (range n) ++ map (fun _ => ip * 1) (range n) in
  both <- side_by_side voltage current ;;
  '(noisy, s) <- filter_and_resample_measurement (D := K) both (Some times) (Some ts) fp (Some (StdIter mg_stds)) (Some (StdIter phase_stds)) (Some noise) seeded ;;
  '(nv, ni) <- halves noisy ;;
  '(clean, _) <- filter_and_resample_measurement (D := K) both (Some times) (Some ts) fp None None None s ;;
  '(v, i) <- halves clean ;;
  Ok ((nv, ni, v, i), fp).

Definition saved_results := option (mat CK * mat CK * mat CK * mat CK).

(** run.py:140-243 *)
Definition add_noise_and_filter (n : net (K := K)) (voltage current : mat CK) (times : list K) (fmeas : K) (steps : nat)
  (prm : option (noise_params K)) (saved : saved_results)
  : res (((mat CK * mat CK * mat CK * mat CK) * list K * nat) * saved_results) :=
  let factor := match prm with Some p => pmu_safety_factor p | None => knat 4 end in
  let pmu_ratings := grid_ratings n (base_ratings factor n) in
  '(last, ts, fparam) <- sampling times fmeas steps ;;
  match prm with
  | Some p => '(m, _) <- measure p pmu_ratings voltage current times last ts fmeas fparam ;; Ok ((m, pmu_ratings, fparam), Some m)
  | None => match saved with None => Err FileNotFoundError | Some m => Ok ((m, pmu_ratings, fparam), saved) end
  end.

(** run3ph.py:231-244: one row per phase, one column per bus; a later load of the same bus replaces an earlier one *)
Definition total_loads (n : net (K := K)) : mat K :=
  mk 3 (length (buses n)) (fun ph i =>
    let b := nth i (map b_id (buses n)) 0%nat in
    let sym := fold_left (fun x l => if (l_bus l =? b)%nat then l_p l * l_p l + l_q l * l_q l else x) (loads n) 0 in
    fold_left (fun x l => if (a_bus l =? b)%nat then a_p l ph * a_p l ph + a_q l ph * a_q l ph else x) (asyms n) sym).
(** run3ph.py:246: [np.tile(factor, (1, n)) * total_loads] *)
Definition base_ratings_3ph (factor : list K) (n : net (K := K)) : res (mat K) :=
  let t := total_loads n in
  if (length factor =? 3)%nat then Ok (mk 3 (nc t) (fun ph i => vget factor ph * get t ph i))
  else if (length factor =? 1)%nat then Ok (mk 3 (nc t) (fun ph i => vget factor 0 * get t ph i))
  else Err ValueError.
(** run3ph.py:249-253: the column is the number of the load *)
Definition grid_ratings_3ph (n : net (K := K)) (ratings : mat K) : res (mat K) :=
  fold_left (fun r i => match nth_error (loads n) i with
      | Some l => if isin (l_bus l) (grids n)
                  then m <- r ;; (if (i <? nc m)%nat then Ok (mk (nr m) (nc m) (fun ph j => if (j =? i)%nat then sumn (nc m) (fun k => get m ph k) else get m ph j))
                                  else Err IndexError)
                  else r
      | None => r end)
    (range (length (loads n))) (Ok ratings).
(** run3ph.py:255: [reshape((3 * n,))], row after row *)
Definition flat (m : mat K) : list K := mkv (nr m * nc m) (fun k => get m (k / nc m) (k mod nc m)).

(** run3ph.py:195-319 *)
Definition add_noise_and_filter_3ph (n : net (K := K)) (voltage current : mat CK) (times : list K) (fmeas : K) (steps : nat)
  (prm : option (noise_params (list K))) (saved : saved_results)
  : res (((mat CK * mat CK * mat CK * mat CK) * list K * nat) * saved_results) :=
  let factor := match prm with Some p => pmu_safety_factor p | None => [knat 4; knat 4; knat 4] end in
  base <- base_ratings_3ph factor n ;;
  m <- grid_ratings_3ph n base ;;
  let pmu_ratings := flat m in
  '(last, ts, fparam) <- sampling times fmeas steps ;;
  match prm with
  | Some p => '(m, fparam) <- measure p pmu_ratings voltage current times last ts fmeas fparam ;; Ok ((m, pmu_ratings, fparam), Some m)
  | None => match saved with None => Err FileNotFoundError | Some m => Ok ((m, pmu_ratings, fparam), saved) end
  end.
End Measure.
Arguments NoiseParams {K F}. Arguments voltage_magnitude_sd {K F}. Arguments current_magnitude_sd {K F}.
Arguments voltage_phase_sd {K F}. Arguments current_phase_sd {K F}. Arguments use_equivalent_noise {K F}. Arguments pmu_safety_factor {K F}.
