(** C62 and C79: the batch of experiments run by run_multiple_sims.sh. *)
From Coq Require Import String.
From Coq Require Import Bool Arith List Lia Ascii.
From Verif Require Import ModelBatch SpecBatch ProofBatch ProofBatchRun ProofBatchThm.
Import ListNotations.
Close Scope string_scope. Open Scope list_scope. Open Scope nat_scope.

(** ** C62 *)
(** a batch that runs to its end leaves both files as they were, whatever the seeds, noise levels and days *)
Theorem C62_uninterrupted : forall c s seeds levels seeds2 days, clean_disk c s -> Forall number (seeds ++ levels ++ seeds2 ++ days) ->
  exec_all (disk_with original c s) (noise_branch seeds levels ++ size_branch seeds2 days) = disk_with original c s.
Proof. exact @p_uninterrupted. Qed.
(** one interrupted at any step changes nothing but the three numbers, each of which is the original or one of the batch *)
Theorem C62_interrupted : forall c s seeds levels seeds2 days k, clean_disk c s -> Forall number (seeds ++ levels ++ seeds2 ++ days) ->
  exists e, interrupted k (disk_with original c s) (noise_branch seeds levels ++ size_branch seeds2 days) = disk_with e c s /\
    among (seeds ++ seeds2) levels days e.
Proof. exact @p_interrupted. Qed.
(** the script of the repository, interrupted at any step and run again, restores the files exactly when the seed left behind is not 111
    and the days left behind are not 10, 15, 21 or 30 *)
Theorem C62_run_again : forall n z k c s e, clean_disk c s -> mentions seed_key c -> mentions days_key s ->
  interrupted k (disk_with original c s) (script n z) = disk_with e c s ->
  (exec_all (interrupted k (disk_with original c s) (script n z)) (script n z) = disk_with original c s <-> healed e).
Proof. exact @p_rerun_batch. Qed.

(** *** The files of the repository *)
Fixpoint startsb (k s : text) : bool := match k, s with [], _ => true | a :: k', b :: s' => Ascii.eqb a b && startsb k' s' | _ :: _, [] => false end.
Fixpoint occursb (k s : text) : bool := startsb k s || match s with [] => false | _ :: s' => occursb k s' end.
Lemma startsb_app : forall k b, startsb k (k ++ b) = true.
Proof. induction k as [|a k IH]; intro b; [reflexivity|]. cbn. rewrite Ascii.eqb_refl. apply IH. Qed.
Lemma occursb_no : forall k s, occursb k s = false -> ~ occurs k s.
Proof.
  intros k s H (a & b & ->). induction a as [|x a IH].
  - rewrite app_nil_l in H. destruct (k ++ b) eqn:E; cbn [occursb] in H; apply orb_false_iff in H; destruct H as [H _]; rewrite <- E, startsb_app in H; discriminate.
  - cbn [app occursb] in H. apply orb_false_iff in H. apply IH, H.
Qed.
Definition text_is (a b : text) : bool := if list_eq_dec ascii_dec a b then true else false.
Definition clean_lineb (ks : list text) (l : line) : bool :=
  match l with
  | Fixed s => forallb (fun k => negb (occursb k s)) ks
  | Setting k b a => existsb (text_is k) ks && forallb (fun k' => text_is k' k || negb (occursb k' (b ++ k))) ks &&
      forallb (fun k' => negb (occursb k' a)) ks && negb (occursb k (removelast (b ++ k))) &&
      match a with [] => true | c :: _ => negb (number_char c) end
  end.
Lemma clean_lineb_ok : forall ks l, clean_lineb ks l = true -> clean_line ks l.
Proof.
  intros ks [s|k b a] H; cbn [clean_lineb clean_line] in *.
  - intros k Hk. rewrite forallb_forall in H. specialize (H k Hk). apply negb_true_iff in H. apply occursb_no. exact H.
  - rewrite !andb_true_iff in H. destruct H as [[[[H1 H2] H3] H4] H5]. rewrite forallb_forall in H2, H3. split; [|split; [|split; [|split]]].
    + apply existsb_exists in H1. destruct H1 as (x & I & X). unfold text_is in X. destruct (list_eq_dec ascii_dec k x) as [->|]; [exact I|discriminate].
    + intros k' I N. specialize (H2 k' I). unfold text_is in H2. destruct (list_eq_dec ascii_dec k' k); [contradiction|]. apply occursb_no. apply negb_true_iff. exact H2.
    + intros k' I. apply occursb_no. apply negb_true_iff. apply H3. exact I.
    + intros x y E. destruct y as [|c y]; [reflexivity|]. exfalso. apply negb_true_iff in H4. apply occursb_no in H4. apply H4.
      exists x, (removelast (c :: y)). rewrite E. rewrite !removelast_app by (try discriminate; destruct k; discriminate). reflexivity.
    + destruct a as [|c a]; [exact I|]. apply negb_true_iff. exact H5.
Qed.
(** conf/conf.py *)
Definition repo_conf : list line := [
  Fixed (txt "from pathlib import Path"%string);
  Fixed (txt "import os"%string);
  Fixed (txt "import numpy as np"%string);
  Fixed (txt "import pandas as pd"%string);
  Fixed (txt "import pkgutil"%string);
  Fixed (txt ""%string);
  Fixed (txt "# Simulation parameters"%string);
  Setting seed_key (txt ""%string) (txt ""%string);
  Setting noise_key (txt ""%string) (txt ""%string);
  Fixed (txt ""%string);
  Fixed (txt "# Technical settings"%string);
  Fixed (txt "ROOT_DIR = Path(__file__).parent.parent.absolute()"%string);
  Fixed (txt "DATA_DIR = ROOT_DIR / ""data"""%string);
  Fixed (txt "if not os.path.isdir(DATA_DIR / ""tikz""):"%string);
  Fixed (txt "    os.makedirs(DATA_DIR / ""tikz"")"%string);
  Fixed (txt "SIM_DIR = DATA_DIR / ""simulations_output"""%string);
  Fixed (txt "if not os.path.isdir(SIM_DIR / ""plot_data""):"%string);
  Fixed (txt "    os.makedirs(SIM_DIR / ""plot_data"")"%string);
  Fixed (txt ""%string);
  Fixed (txt ""%string);
  Fixed (txt "TEST_SIM_DIR = ROOT_DIR / ""test"" / ""data"" / ""simulations_output"""%string);
  Fixed (txt ""%string);
  Fixed (txt "np.set_printoptions(threshold=np.inf, linewidth=np.inf)"%string);
  Fixed (txt "pd.set_option('display.max_rows', 500)"%string);
  Fixed (txt "pd.set_option('display.max_columns', 500)"%string);
  Fixed (txt ""%string);
  Fixed (txt "GPU_AVAILABLE = pkgutil.find_loader('cupy')"%string);
  Fixed (txt "# Use this to switch GPU if one is in use."%string);
  Fixed (txt "# If all GPUs are used you are in bad luck, wait for your turn"%string);
  Fixed (txt "if GPU_AVAILABLE:"%string);
  Fixed (txt "    import cupy"%string);
  Fixed (txt "    cupy.cuda.Device(1).use()"%string)].
(** conf/simulation.py *)
Definition repo_simulation : list line := [
  Fixed (txt "import numpy as np"%string);
  Fixed (txt "from conf.conf import noise_level"%string);
  Fixed (txt ""%string);
  Fixed (txt "# Definition of observed nodes for ieee123bus network"%string);
  Fixed (txt "list1 = [3, 16, 18, 28, 40, 47, 52]                         #"%string);
  Fixed (txt "list2 = [8, 9, 22, 36, 49, 46, 51]                          #"%string);
  Fixed (txt "list3 = [6, 12, 55, 26, 44, 50]                             #36% (20 nodes"%string);
  Fixed (txt "list4 = [1, 4, 10, 15, 17, 37]                              #47% (26"%string);
  Fixed (txt "list5 = [19, 24, 32, 39, 43, 53]                            #57% (32"%string);
  Fixed (txt "list6 = [5, 14, 15, 20, 25, 29, 31, 34, 38, 41, 45, 54]     #79%"%string);
  Fixed (txt ""%string);
  Fixed (txt "observed_nodes = list1 + list2 + list3 + list4 + list5 #+ list6"%string);
  Fixed (txt "hidden_nodes = list(set(range(1,56)) - set(np.array(observed_nodes)-1))"%string);
  Fixed (txt "#hidden_nodes = []"%string);
  Fixed (txt ""%string);
  Fixed (txt "# Assumption of constant Z loads on hidden nodes"%string);
  Fixed (txt "constant_load_hidden_nodes = True"%string);
  Fixed (txt "load_constantness = 0.84"%string);
  Fixed (txt ""%string);
  Fixed (txt "# Week during which the sample size starts"%string);
  Fixed (txt "selected_weeks = np.array([0])  # 0 is week 12 for the small dataset. Replace by 12 of using the full year data."%string);
  Fixed (txt ""%string);
  Fixed (txt "# Total sample size on which block averaging is performed"%string);
  Setting days_key (txt ""%string) (txt "*len(selected_weeks) #7*len(selected_weeks)"%string);
  Fixed (txt ""%string);
  Fixed (txt "# Number of averaged blocks"%string);
  Fixed (txt "time_steps = 24 * 60 * 7  # 15000 is max capable for GPU RTX 3090"%string);
  Fixed (txt ""%string);
  Fixed (txt "# Sensor sampling frequency"%string);
  Fixed (txt "measurement_frequency = 50 # [Hz] # 50"%string);
  Fixed (txt ""%string);
  Fixed (txt "# Safety factor for sensor dimension (compared to nominal node power)"%string);
  Fixed (txt "safety_factor = 4"%string);
  Fixed (txt ""%string);
  Fixed (txt "# Do not touch that, rather change noise_level in conf.conf"%string);
  Fixed (txt "current_magnitude_sd = 1e-4 * noise_level"%string);
  Fixed (txt "voltage_magnitude_sd = 1e-4 * noise_level"%string);
  Fixed (txt "current_phase_sd = 0.01*np.pi/180 * noise_level"%string);
  Fixed (txt "voltage_phase_sd = 0.01*np.pi/180 * noise_level"%string)].
Example repo_clean : clean_disk repo_conf repo_simulation /\ mentions seed_key repo_conf /\ mentions days_key repo_simulation.
Proof.
  assert (A : forallb (clean_lineb [seed_key; noise_key]) repo_conf && forallb (clean_lineb [days_key]) repo_simulation = true) by (vm_compute; reflexivity).
  apply andb_true_iff in A. destruct A as [A B]. rewrite forallb_forall in A, B. split; [split; apply Forall_forall; intros l I; apply clean_lineb_ok; auto|].
  split; eexists _, _; unfold repo_conf, repo_simulation; cbn [In]; repeat (first [left; reflexivity | right]).
Qed.
Example original_texts : nth 7 (conf_py (disk_with original repo_conf repo_simulation)) [] = txt "seed = 131"%string /\
  nth 23 (simulation_py (disk_with original repo_conf repo_simulation)) [] = txt "days = 7*len(selected_weeks) #7*len(selected_weeks)"%string.
Proof. split; reflexivity. Qed.
Notation repo_disk e := (disk_with e repo_conf repo_simulation).

(** interrupted during its first experiment, the batch leaves another seed *)
Theorem C62_interrupted_refuted : exists c s n z k, clean_disk c s /\ interrupted k (disk_with original c s) (script n z) <> disk_with original c s.
Proof.
  exists repo_conf, repo_simulation, true, false, 1. split; [apply repo_clean|].
  intro H. apply (f_equal (fun d => nth 7 (conf_py d) [])) in H. revert H. vm_compute. discriminate.
Qed.
(** interrupted after the 115th step and run again, it ends with the seed 1311; after the 27th step, it ends with 70 days *)
Theorem C62_run_again_refuted : exists c s n z k k', clean_disk c s /\
  exec_all (interrupted k (disk_with original c s) (script n z)) (script n z) = disk_with (Set_ (txt "1311") (txt "1") (txt "7")) c s /\
  exec_all (interrupted k' (disk_with original c s) (script n z)) (script n z) = disk_with (Set_ (txt "131") (txt "1") (txt "70")) c s.
Proof. exists repo_conf, repo_simulation, false, true, 115, 27. split; [apply repo_clean|]. split; vm_compute; reflexivity. Qed.
Example interrupted_in : interrupted 115 (repo_disk original) (script false true) = repo_disk (Set_ (txt "111") (txt "1") (txt "7")) /\
  interrupted 27 (repo_disk original) (script false true) = repo_disk (Set_ (txt "11") (txt "1") (txt "10")).
Proof. split; vm_compute; reflexivity. Qed.
(** the hypotheses of the three theorems hold for the repository *)
Example repo_run : exec_all (repo_disk original) (script true true) = repo_disk original /\
  Forall number ([txt "11"] ++ [txt "0.1"] ++ [txt "11"; txt "13"; txt "111"; txt "131"] ++ [txt "1"; txt "2"; txt "3"; txt "5"; txt "7"; txt "10"; txt "15"; txt "21"; txt "30"; txt "45"; txt "60"]).
Proof. split; [vm_compute; reflexivity|]. repeat constructor; try discriminate. Qed.
Example healed_13 : interrupted 60 (repo_disk original) (script false true) = repo_disk (Set_ (txt "13") (txt "1") (txt "1")) /\
  exec_all (interrupted 60 (repo_disk original) (script false true)) (script false true) = repo_disk original.
Proof.
  split; [vm_compute; reflexivity|]. destruct repo_clean as (C & M1 & M2).
  apply (C62_run_again false true 60 _ _ (Set_ (txt "13") (txt "1") (txt "1")) C M1 M2); [vm_compute; reflexivity|].
  split; [discriminate|]. intros [H|[H|[H|[H|[]]]]]; discriminate.
Qed.
Print Assumptions C62_uninterrupted.
Print Assumptions C62_interrupted.
Print Assumptions C62_run_again.
Print Assumptions C62_interrupted_refuted.
Print Assumptions C62_run_again_refuted.

(** ** C79 *)
(** in a batch started with the original settings, every program runs with the settings announced for it *)
Theorem C79_announced : forall c s seeds levels seeds2 days, clean_disk c s -> Forall number (seeds ++ levels ++ seeds2 ++ days) ->
  experiments (disk_with original c s) (noise_branch seeds levels ++ size_branch seeds2 days) =
  map (fun x => (fst x, disk_with (snd x) c s)) (noise_plan seeds levels ++ size_plan seeds2 days).
Proof. exact @p_announced. Qed.
(** run again after an interruption, the experiments announced for the seed 11 run with the seed 13 *)
Theorem C79_run_again_refuted : exists c s k d1 d2 l, clean_disk c s /\
  size_plan [txt "11"; txt "13"; txt "111"; txt "131"] [txt "1"; txt "2"; txt "3"; txt "5"; txt "7"; txt "10"; txt "15"; txt "21"; txt "30"; txt "45"; txt "60"]
    = (txt "simulate_network.py -qte --network ieee123center", Set_ (txt "11") (txt "1") (txt "1")) :: l /\
  nth_error (experiments (disk_with original c s) (script false true)) 0 = Some (txt "simulate_network.py -qte --network ieee123center", d1) /\
  d1 = disk_with (Set_ (txt "11") (txt "1") (txt "1")) c s /\
  nth_error (experiments (interrupted k (disk_with original c s) (script false true)) (script false true)) 0
    = Some (txt "simulate_network.py -qte --network ieee123center", d2) /\
  d2 = disk_with (Set_ (txt "13") (txt "1") (txt "1")) c s /\ d1 <> d2.
Proof.
  exists repo_conf, repo_simulation, 60, (repo_disk (Set_ (txt "11") (txt "1") (txt "1"))), (repo_disk (Set_ (txt "13") (txt "1") (txt "1"))). eexists.
  split; [apply repo_clean|]. split; [reflexivity|]. split; [vm_compute; reflexivity|]. split; [reflexivity|]. split; [vm_compute; reflexivity|].
  split; [reflexivity|]. intro H. apply (f_equal (fun d => nth 7 (conf_py d) [])) in H. revert H. vm_compute. discriminate.
Qed.
(** a batch of noise levels, interrupted, leaves its level to all experiments of a later batch of sample sizes *)
Theorem C79_noise_level_left_refuted : exists c s k, clean_disk c s /\
  experiments (interrupted k (disk_with original c s) (script true false)) (script false true) <> [] /\
  Forall (fun x => exists seed days, snd x = disk_with (Set_ seed (txt "0.1") days) c s)
    (experiments (interrupted k (disk_with original c s) (script true false)) (script false true)).
Proof.
  exists repo_conf, repo_simulation, 3. split; [apply repo_clean|].
  assert (E : experiments (interrupted 3 (repo_disk original) (script true false)) (script false true) =
    map (fun x => (fst x, repo_disk (Set_ (the_seed (snd x)) (txt "0.1") (the_days (snd x)))))
      (size_plan [txt "11"; txt "13"; txt "111"; txt "131"] [txt "1"; txt "2"; txt "3"; txt "5"; txt "7"; txt "10"; txt "15"; txt "21"; txt "30"; txt "45"; txt "60"])).
  { vm_compute. reflexivity. }
  rewrite E. split; [discriminate|]. apply Forall_forall. intros x I. apply in_map_iff in I. destruct I as (y & <- & _). eexists _, _. reflexivity.
Qed.
Print Assumptions C79_announced.
Print Assumptions C79_run_again_refuted.
Print Assumptions C79_noise_level_left_refuted.
