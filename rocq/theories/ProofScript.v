(** Proofs about the program simulate_network.py: what a successful run computes and writes. *)
From Coq Require Import String.
From Coq Require Import Bool Arith List ZArith Lia Ring Field.
From Verif Require Import BasePy BaseFld BaseOrd BaseSum BaseMat BaseLin BaseNumpy ModelErrorMetrics ModelSet ModelKron ModelNet ModelReduce
  ModelResample ModelLoads ModelMeasure ModelRun ModelScript SpecResample SpecLoads SpecMeasure SpecScript
  ProofResample ProofLoads ProofLoadsSmall ProofMeasure ProofMeasure3 ProofMeasureMain ProofMeasureApi.
Import ListNotations.
Close Scope string_scope.
Local Open Scope K_scope.

Section Script.
Context {K : Type} {O : Ops K} {F : Fld K} {O2 : OrdOps K} {OF : OrdFld K}.
Add Field Kfld : (@k_field K O F).
Notation CK := (cplx K).
Context (pinv : mat CK -> mat CK) (rnd : K -> Z) (root : K -> K) (polar : K -> K -> CK).
Context {St : Type} (randint : nat -> nat -> St -> list nat * St) (gauss : St -> K * St) (noise : @noise_fun K St K) (seeded : St).
Context (flow1 : net (K := K) -> mat K -> mat K -> res (mat K * mat K)).
Context (flow3 : net (K := K) -> mat K -> mat K -> list (mat K) -> res ((mat K * mat K) * (mat K * mat K) * (mat K * mat K))).
Context (y_bus3 : net (K := K) -> res (mat CK)).
Context (reduce3 : net (K := K) -> mat CK -> mat CK -> list nat -> bool -> res (list nat * mat CK)).
Context (seq_measurement seq_admittance : mat CK -> res (mat CK)).
Notation run := (simulate pinv rnd root polar randint gauss noise seeded flow1 flow3 y_bus3 reduce3 seq_measurement seq_admittance).
Notation nloads conf := (new_loads rnd randint gauss seeded conf).
Notation nresults := (new_results polar flow1 flow3 y_bus3).
Notation meas conf := (measurements rnd root noise seeded conf).
Notation red := (reduced pinv reduce3).
Notation rest := (remaining_data seq_measurement seq_admittance).

Definition network (o : options K) ts template := if three_phased o then make_net3 ts template else make_net template.
Definition constant_nodes (conf : settings K) (o : options K) ns := if constant_load_hidden_nodes conf then Some (hidden_list conf o ns) else None.
Definition rl (o : options K) := redo (loads_only o) (loads_only o) (network_sim_only o) (noise_only o).
Definition rs (o : options K) := redo (network_sim_only o) (loads_only o) (network_sim_only o) (noise_only o).
Definition rd (o : options K) := redo (noise_only o) (loads_only o) (network_sim_only o) (noise_only o).

Lemma meas_saved : forall conf o redo n V I times saved m p f saved', meas conf o redo n V I times saved = Ok ((m, p, f), saved') ->
  saved' = Some m /\ (redo = false -> saved = Some m) /\ (redo = true -> forall saved2, meas conf o redo n V I times saved2 = Ok ((m, p, f), Some m)) /\
  (redo = false -> forall V' I', meas conf o redo n V' I' times saved = Ok ((m, p, f), saved')).
Proof.
  intros conf o redo n V I times saved m p f saved' H. unfold measurements in *. destruct (three_phased o).
  - unfold add_noise_and_filter_3ph in *. destruct redo; cbn [noise_settings] in *.
    + destruct (base_ratings_3ph _ n) as [b|]; [|discriminate]. cbn [bind] in *. destruct (grid_ratings_3ph n b) as [g|]; [|discriminate]. cbn [bind] in *.
      destruct (sampling _ _ _ _) as [[[last new] k]|]; [|discriminate]. cbn [bind] in *. destruct (measure _ _ _ _ _ _ _ _ _ _ _ _ _) as [[m' fp]|]; [|discriminate].
      cbn [bind] in *. injection H as <- <- <- <-. split; [reflexivity|]. split; [discriminate|]. split; [reflexivity|discriminate].
    + destruct (base_ratings_3ph _ n) as [b|]; [|discriminate]. cbn [bind] in *. destruct (grid_ratings_3ph n b) as [g|]; [|discriminate]. cbn [bind] in *.
      destruct (sampling _ _ _ _) as [[[last new] k]|]; [|discriminate]. cbn [bind] in *. destruct saved as [s0|]; [|discriminate]. injection H as <- <- <- <-.
      split; [reflexivity|]. split; [reflexivity|]. split; [discriminate|reflexivity].
  - unfold add_noise_and_filter in *. destruct redo; cbn [noise_settings] in *.
    + destruct (sampling _ _ _ _) as [[[last new] k]|]; [|discriminate]. cbn [bind] in *. destruct (measure _ _ _ _ _ _ _ _ _ _ _ _ _) as [[m' fp]|]; [|discriminate].
      cbn [bind] in *. injection H as <- <- <- <-. split; [reflexivity|]. split; [discriminate|]. split; [reflexivity|discriminate].
    + destruct (sampling _ _ _ _) as [[[last new] k]|]; [|discriminate]. cbn [bind] in *. destruct saved as [s0|]; [|discriminate]. injection H as <- <- <- <-.
      split; [reflexivity|]. split; [reflexivity|]. split; [discriminate|reflexivity].
Qed.

(** what is needed for the result *)
Definition computed (conf : settings K) (o : options K) ts template (s : data_files K) n ns lp lf r m p f todel y out : Prop :=
  network o ts template = Ok (n, ns) /\ choose_loads conf o (rl o) (constant_nodes conf o ns) = Ok lp /\
  match lp with Some q => nloads conf (three_phased o) n q = Ok lf | None => f_loads s = Some lf /\ (three_phased o = true -> lf_a lf <> None) end /\
  (if rs o then nresults (three_phased o) n lf = Ok r else f_results s = Some r) /\
  meas conf o (rd o) n (fst (fst r)) (snd (fst r)) (lf_t lf) (f_filtered s) = Ok ((m, p, f), Some m) /\
  red o n (snd (fst m)) (snd m) (hidden_list conf o ns) = Ok (todel, y) /\ rest o n m p f todel y = Ok out.

Theorem run_ok : forall conf o ts template s s', run conf o ts template s = (s', Ok tt) <->
  exists n ns lp lf r m p f todel y out, computed conf o ts template s n ns lp lf r m p f todel y out /\
    s' = DataFiles (Some lf) (Some r) (Some m) (Some out).
Proof.
  intros conf o ts template s s'. unfold simulate, computed. fold (rl o) (rs o) (rd o) (network o ts template). split.
  - intro H. unfold then_ at 1, ret at 1 in H. destruct (network o ts template) as [[n ns]|e] eqn:EN; [|discriminate].
    unfold then_ at 1, ret at 1 in H. fold (constant_nodes conf o ns) in H.
    destruct (choose_loads conf o (rl o) (constant_nodes conf o ns)) as [lp|e] eqn:EC; [|discriminate].
    unfold then_ at 1 in H. destruct (loads_step rnd randint gauss seeded conf (three_phased o) n lp s) as [s1 [lf|e]] eqn:EL; [|discriminate].
    assert (L : s1 = DataFiles (Some lf) (f_results s) (f_filtered s) (f_output s) /\
      match lp with Some q => nloads conf (three_phased o) n q = Ok lf | None => f_loads s = Some lf /\ (three_phased o = true -> lf_a lf <> None) end).
    { unfold loads_step in EL. destruct lp as [q|].
      - destruct (nloads conf (three_phased o) n q) as [l|]; [|discriminate]. injection EL as <- <-. auto.
      - injection EL as <- EL. destruct s as [fl fr ff fo]. cbn [f_loads f_results f_filtered f_output] in *. destruct fl as [l|]; [|discriminate].
        destruct (three_phased o).
        + destruct (lf_a l) eqn:EA; [|discriminate]. injection EL as <-. rewrite EA. split; [reflexivity|]. split; [reflexivity|discriminate].
        + injection EL as <-. split; [reflexivity|]. split; [reflexivity|discriminate]. }
    destruct L as [-> L]. clear EL.
    unfold then_ at 1 in H. destruct (simulate_step polar flow1 flow3 y_bus3 (three_phased o) n (if rs o then Some lf else None) _) as [s2 [r|e]] eqn:ES; [|discriminate].
    assert (R : s2 = DataFiles (Some lf) (Some r) (f_filtered s) (f_output s) /\ (if rs o then nresults (three_phased o) n lf = Ok r else f_results s = Some r)).
    { unfold simulate_step in ES. destruct (rs o).
      - destruct (nresults (three_phased o) n lf) as [r'|]; [|discriminate]. injection ES as <- <-. auto.
      - cbn [f_results] in ES. destruct (f_results s) as [r'|]; [|discriminate]. injection ES as <- <-. auto. }
    destruct R as [-> R]. clear ES. destruct r as [[V I] Y]. cbn [fst snd] in *.
    unfold then_ at 1 in H. destruct (noise_step rnd root noise seeded conf o (rd o) n V I (lf_t lf) _) as [s3 [[[m p] f]|e]] eqn:EM; [|discriminate].
    assert (M : s3 = DataFiles (Some lf) (Some (V, I, Y)) (Some m) (f_output s) /\ meas conf o (rd o) n V I (lf_t lf) (f_filtered s) = Ok ((m, p, f), Some m)).
    { unfold noise_step in EM. cbn [f_filtered f_loads f_results f_output] in EM.
      destruct (meas conf o (rd o) n V I (lf_t lf) (f_filtered s)) as [[[[m' p'] f'] sv]|] eqn:E; [|discriminate]. injection EM as <- <- <- <-.
      destruct (meas_saved _ _ _ _ _ _ _ _ _ _ _ _ E) as (-> & _). auto. }
    destruct M as [-> M]. clear EM. destruct m as [[[nv ni] w] j]. cbn [fst snd] in *.
    unfold then_ at 1, ret at 1 in H. destruct (red o n w j (hidden_list conf o ns)) as [[todel y]|e] eqn:ER; [|discriminate].
    unfold then_ at 1, ret at 1 in H. destruct (rest o n (nv, ni, w, j) p f todel y) as [out|e] eqn:EO; [|discriminate].
    unfold save_output in H. cbn [f_filtered f_loads f_results f_output] in H. injection H as <-.
    exists n, ns, lp, lf, (V, I, Y), (nv, ni, w, j), p, f, todel, y, out. cbn [fst snd]. auto 10.
  - intros (n & ns & lp & lf & [[V I] Y] & [[[nv ni] w] j] & p & f & todel & y & out & (EN & EC & L & R & M & ER & EO) & ->). cbn [fst snd] in *.
    unfold then_ at 1, ret at 1. rewrite EN. unfold then_ at 1, ret at 1. fold (constant_nodes conf o ns). rewrite EC.
    unfold then_ at 1. assert (EL : loads_step rnd randint gauss seeded conf (three_phased o) n lp s = (DataFiles (Some lf) (f_results s) (f_filtered s) (f_output s), Ok lf)).
    { unfold loads_step. destruct lp as [q|]; [rewrite L; reflexivity|]. destruct L as [L A]. rewrite L. destruct s as [fl fr ff fo]. cbn [f_loads f_results f_filtered f_output] in *.
      rewrite L. destruct (three_phased o); [|reflexivity]. destruct (lf_a lf); [reflexivity|]. destruct (A eq_refl eq_refl). }
    rewrite EL. unfold then_ at 1.
    assert (ES : simulate_step polar flow1 flow3 y_bus3 (three_phased o) n (if rs o then Some lf else None) (DataFiles (Some lf) (f_results s) (f_filtered s) (f_output s)) =
      (DataFiles (Some lf) (Some (V, I, Y)) (f_filtered s) (f_output s), Ok (V, I, Y))).
    { unfold simulate_step. destruct (rs o); cbn [f_filtered f_loads f_results f_output]; rewrite R; reflexivity. }
    rewrite ES. unfold then_ at 1, noise_step. cbn [f_filtered f_loads f_results f_output]. rewrite M.
    unfold then_ at 1, ret at 1. rewrite ER. unfold then_ at 1, ret at 1. rewrite EO. reflexivity.
Qed.

(** a failed run keeps the last output *)
Theorem p_failed : forall conf o ts template s s' e, run conf o ts template s = (s', Err e) -> f_output s' = f_output s.
Proof.
  intros conf o ts template s s' e H. unfold simulate in H. fold (rl o) (rs o) (rd o) (network o ts template) in H.
  unfold then_ at 1, ret at 1 in H. destruct (network o ts template) as [[n ns]|e0]; [|injection H as <- _; auto].
  unfold then_ at 1, ret at 1 in H. destruct (choose_loads conf o (rl o) _) as [lp|e0]; [|injection H as <- _; auto].
  unfold then_ at 1 in H. destruct (loads_step rnd randint gauss seeded conf (three_phased o) n lp s) as [s1 r1] eqn:EL.
  assert (L : f_output s1 = f_output s).
  { unfold loads_step in EL. destruct lp as [q|]; [destruct (nloads conf (three_phased o) n q)|]; injection EL as <- _; auto. }
  destruct r1 as [lf|e0]; [|injection H as <- _; auto].
  unfold then_ at 1 in H. destruct (simulate_step polar flow1 flow3 y_bus3 (three_phased o) n (if rs o then Some lf else None) s1) as [s2 r2] eqn:ES.
  assert (R : f_output s2 = f_output s).
  { rewrite <- L. unfold simulate_step in ES. destruct (rs o); [destruct (nresults (three_phased o) n lf)|]; injection ES as <- _; auto. }
  destruct r2 as [[[V I] Y]|e0]; [|injection H as <- _; auto].
  unfold then_ at 1 in H. destruct (noise_step rnd root noise seeded conf o (rd o) n V I (lf_t lf) s2) as [s3 r3] eqn:EM.
  assert (M : f_output s3 = f_output s).
  { rewrite <- R. unfold noise_step in EM. destruct (meas conf o (rd o) n V I (lf_t lf) (f_filtered s2)) as [[r sv]|]; injection EM as <- _; auto. }
  destruct r3 as [[[m p] f]|e0]; [|injection H as <- _; auto]. destruct m as [[[nv ni] w] j].
  unfold then_ at 1, ret at 1 in H. destruct (red o n w j _) as [[todel y]|e0]; [|injection H as <- _; auto].
  unfold then_ at 1, ret at 1 in H. destruct (rest o n (nv, ni, w, j) p f todel y) as [out|e0]; [|injection H as <- _; auto].
  discriminate.
Qed.
End Script.
