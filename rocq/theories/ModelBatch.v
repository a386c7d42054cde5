(** Model of run_multiple_sims.sh: the batch script that edits conf/conf.py and conf/simulation.py with sed around each experiment.
    Texts are lists of characters; a file is a list of lines. Programs are only recorded with the files they see (they do not write them).
    Simplified: [sed -i] replaces a file in one step; echo is left out. No [set -e] (lines 1-19), so a failing program does not stop the script. *)
From Coq Require Import String.
From Coq Require Import Bool Arith List Ascii.
Import ListNotations.
Close Scope string_scope.
Local Open Scope list_scope.
Local Open Scope nat_scope.

Definition text := list ascii.
Definition txt (s : string) : text := list_ascii_of_string s.

(** basic regular expressions of letters, digits, underscore, blank, equal sign and dot: only the dot is special.
    Result: what follows the match at the beginning of the line *)
Fixpoint smatch (pat s : text) : option text :=
  match pat, s with
  | [], _ => Some s
  | a :: p, c :: s' => if Ascii.eqb a "."%char || Ascii.eqb a c then smatch p s' else None
  | _ :: _, [] => None
  end.

(** sed "s/pat/rep/g" on a line: leftmost matches that do not overlap; [skip] characters still belong to the last match *)
Fixpoint subst (pat rep : text) (skip : nat) (s : text) : text :=
  match s with
  | [] => []
  | c :: s' =>
    match skip with
    | S k => subst pat rep k s'
    | 0 => match smatch pat s with
           | Some _ => rep ++ subst pat rep (length pat - 1) s'
           | None => c :: subst pat rep 0 s'
           end
    end
  end.
Definition sed (pat rep : text) (f : list text) : list text := map (subst pat rep 0) f.

Inductive conf_file := ConfPy | SimulationPy.
Record disk := Disk { conf_py : list text; simulation_py : list text }.
Inductive step := Sed (f : conf_file) (pat rep : text) | Program (args : text).

Definition exec (d : disk) (x : step) : disk :=
  match x with
  | Sed ConfPy p r => Disk (sed p r (conf_py d)) (simulation_py d)
  | Sed SimulationPy p r => Disk (conf_py d) (sed p r (simulation_py d))
  | Program _ => d
  end.
Definition exec_all (d : disk) (l : list step) : disk := fold_left exec l d.
(** interrupted after [k] steps *)
Definition interrupted (k : nat) (d : disk) (l : list step) : disk := exec_all d (firstn k l).

(** what each program sees when it is started *)
Fixpoint experiments (d : disk) (l : list step) : list (text * disk) :=
  match l with
  | [] => []
  | x :: l' => match x with Program a => [(a, d)] | Sed _ _ _ => [] end ++ experiments (exec d x) l'
  end.

(** lines 20-45 *)
Definition noise_branch (seeds levels : list text) : list step :=
  flat_map (fun seed =>
    [Sed ConfPy (txt "seed = 131") (txt "seed = " ++ seed);                                        (* line 24 *)
     Program (txt "simulate_network.py -vqte --network ieee123center")] ++                         (* line 27 *)
    flat_map (fun i =>
      [Sed ConfPy (txt "noise_level = 1") (txt "noise_level = " ++ i);                             (* line 33 *)
       Program (txt "simulate_network.py -qtde --network ieee123center");                          (* line 35 *)
       Program (txt "identify_network.py -q --max-iterations 20 --network ieee123center --phases 012");
       Program (txt "plot_results.py -v --network ieee123center");
       Sed ConfPy (txt "noise_level = " ++ i) (txt "noise_level = 1")]) levels ++                  (* line 39 *)
    [Sed ConfPy (txt "seed = " ++ seed) (txt "seed = 131")]) seeds.                                (* line 42 *)

(** lines 46-70 *)
Definition size_branch (seeds days : list text) : list step :=
  flat_map (fun seed =>
    [Sed ConfPy (txt "seed = 131") (txt "seed = " ++ seed)] ++                                     (* line 50 *)
    flat_map (fun i =>
      [Sed SimulationPy (txt "days = 7") (txt "days = " ++ i);                                     (* line 57 *)
       Program (txt "simulate_network.py -qte --network ieee123center");                           (* line 59 *)
       Program (txt "identify_network.py -q --max-iterations 20 --network ieee123center --phases 012");
       Program (txt "plot_results.py -v --network ieee123center");
       Sed SimulationPy (txt "days = " ++ i) (txt "days = 7")]) days ++                            (* line 63 *)
    [Sed ConfPy (txt "seed = " ++ seed) (txt "seed = 131")]) seeds.                                (* line 66 *)

(** the script with its flags -n and -s (lines 4-19) *)
Definition script (n s : bool) : list step :=
  (if n then noise_branch [txt "11"] [txt "0.1"] else []) ++
  (if s then size_branch [txt "11"; txt "13"; txt "111"; txt "131"] [txt "1"; txt "2"; txt "3"; txt "5"; txt "7"; txt "10"; txt "15"; txt "21"; txt "30"; txt "45"; txt "60"] else []).
