(** Proofs about repeated runs of simulate_network.py. *)
From Coq Require Import String.
From Coq Require Import Bool Arith List ZArith Lia Ring Field.
From Verif Require Import BasePy BaseFld BaseOrd BaseSum BaseMat BaseLin BaseNumpy ModelErrorMetrics ModelSet ModelKron ModelNet ModelReduce
  ModelResample ModelLoads ModelMeasure ModelRun ModelScript SpecResample SpecLoads SpecMeasure SpecScript
  ProofResample ProofLoads ProofLoadsSmall ProofLoadsMain ProofMeasure ProofMeasure3 ProofMeasureMain ProofMeasureApi ProofScript.
Import ListNotations.
Close Scope string_scope.
Local Open Scope K_scope.

Section Scale.
Context {K : Type} {O : Ops K} {F : Fld K} {O2 : OrdOps K} {OF : OrdFld K}.
Add Field Kfld : (@k_field K O F).
Lemma replaced_scal : forall n flag (x : K) r m j, replaced n flag (fun j => x * r j) m j = x * replaced n flag r m j.
Proof.
  intros n flag x r m. induction m as [|m IH]; intro j; [reflexivity|]. rewrite !replaced_S. unfold replace. destruct (flag m); [|apply IH].
  destruct (j =? m)%nat; [|apply IH]. rewrite <- sumn_scal_l. apply sumn_ext. intros; apply IH.
Qed.
Lemma replaced_ext : forall n flag (r r' : nat -> K) m, (forall j, (j < n)%nat -> r j = r' j) -> forall j, (j < n)%nat -> replaced n flag r m j = replaced n flag r' m j.
Proof.
  intros n flag r r' m H. induction m as [|m IH]; intros j Hj; [apply H; auto|]. rewrite !replaced_S. unfold replace. destruct (flag m); [|auto].
  destruct (j =? m)%nat; [|auto]. apply sumn_ext. auto.
Qed.
Lemma ratings3_scale : forall (n : net (K := K)) (x y : K) b1 m1 b2 m2, base_ratings_3ph [x; x; x] n = Ok b1 -> grid_ratings_3ph n b1 = Ok m1 ->
  base_ratings_3ph [y; y; y] n = Ok b2 -> grid_ratings_3ph n b2 = Ok m2 ->
  length (flat m1) = length (flat m2) /\ forall k, (k < length (flat m1))%nat -> y * vget (flat m1) k = x * vget (flat m2) k.
Proof.
  intros n x y b1 m1 b2 m2 B1 G1 B2 G2. apply base_ratings_3ph_eq in B1. apply base_ratings_3ph_eq in B2.
  destruct (grid_ratings_3ph_eq n b1 m1) as [E1 _]; [subst; apply wf_mk|exact G1|]. destruct (grid_ratings_3ph_eq n b2 m2) as [E2 _]; [subst; apply wf_mk|exact G2|].
  rewrite B1, nr_mk, nc_mk in E1. rewrite B2, nr_mk, nc_mk in E2. set (N := length (buses n)) in *.
  unfold flat. rewrite E1, E2, !nr_mk, !nc_mk, !length_mkv. split; [reflexivity|]. intros k Hk. rewrite !vget_mkv by lia.
  assert (HN : (N <> 0)%nat) by (intro E; rewrite E in Hk; lia).
  assert (Hd : (k / N < 3)%nat) by (apply Nat.div_lt_upper_bound; lia). assert (Hm : (k mod N < N)%nat) by (apply Nat.mod_upper_bound; auto).
  rewrite !get_mk by auto.
  assert (P : forall z : K, phase_factor [z; z; z] (k / N) = z). { intro z. destruct (k / N)%nat as [|[|[|q]]]; [reflexivity|reflexivity|reflexivity|lia]. }
  assert (Q : forall z : K, replaced N (flagged n) (fun j => get (mk 3 N (fun ph i => phase_factor [z; z; z] ph * get (total_loads n) ph i)) (k / N) j) (length (loads n)) (k mod N)
    = z * replaced N (flagged n) (get (total_loads n) (k / N)) (length (loads n)) (k mod N)).
  { intro z. rewrite <- replaced_scal. apply replaced_ext; [|exact Hm]. intros j Hj. rewrite get_mk, P by auto. reflexivity. }
  rewrite !Q.
  ring.
Qed.
Lemma of_pos_knat : forall p, of_pos p = (knat (Pos.to_nat p) : K).
Proof.
  induction p as [q IH|q IH|]; cbn [of_pos].
  - rewrite IH, Pos2Nat.inj_xI. cbn [knat]. replace (2 * Pos.to_nat q)%nat with (Pos.to_nat q + Pos.to_nat q)%nat by lia. rewrite knat_add. ring.
  - rewrite IH, Pos2Nat.inj_xO. replace (2 * Pos.to_nat q)%nat with (Pos.to_nat q + Pos.to_nat q)%nat by lia. rewrite knat_add. ring.
  - change (Pos.to_nat 1) with 1%nat. cbn [knat]. ring.
Qed.
Lemma of_Z_knat : forall z, (0 <= z)%Z -> of_Z z = (knat (Z.to_nat z) : K).
Proof. intros [|p|p] H; [reflexivity|apply of_pos_knat|lia]. Qed.
Lemma vget_seconds : forall l k, (k < length l)%nat -> vget (seconds l) k = (of_Z (nth k l 0%Z) : K).
Proof.
  intros l k Hk. unfold vget, seconds. change (0 : K) with (of_Z 0 : K) at 1. apply map_nth.
Qed.
(** the times of generated loads *)
Lemma times_usable : forall d, (0 < d)%nat -> increasing (seconds (time_stamps d) : list K) /\ (2 <= length (seconds (time_stamps d) : list K))%nat /\ vget (seconds (time_stamps d)) 0 = (0 : K).
Proof.
  intros d Hd. assert (L : length (seconds (time_stamps d) : list K) = (1440 * d)%nat) by (unfold seconds; rewrite map_length; apply length_times).
  split; [|split].
  - intros i j Hij Hj. rewrite L in Hj. rewrite !vget_seconds by (rewrite length_times; lia). rewrite !nth_times by lia. rewrite !of_Z_knat by lia. apply knat_lt. lia.
  - rewrite L. lia.
  - rewrite vget_seconds by (rewrite length_times; lia). rewrite nth_times by lia. reflexivity.
Qed.
End Scale.

Section Rerun.
Context {K : Type} {O : Ops K} {F : Fld K} {O2 : OrdOps K} {OF : OrdFld K}.
Add Field Kfld2 : (@k_field K O F).
Notation CK := (cplx K).
Context (pinv : mat CK -> mat CK) (rnd : K -> Z) (root : K -> K) (polar : K -> K -> CK).
Context {St : Type} (randint : nat -> nat -> St -> list nat * St) (gauss : St -> K * St) (noise : @noise_fun K St K) (seeded : St).
Context (flow1 : net (K := K) -> mat K -> mat K -> res (mat K * mat K)).
Context (flow3 : net (K := K) -> mat K -> mat K -> list (mat K) -> res ((mat K * mat K) * (mat K * mat K) * (mat K * mat K))).
Context (y_bus3 : net (K := K) -> res (mat CK)).
Context (reduce3 : net (K := K) -> mat CK -> mat CK -> list nat -> bool -> res (list nat * mat CK)).
Context (seq_measurement seq_admittance : mat CK -> res (mat CK)).
Notation run := (simulate pinv rnd root polar randint gauss noise seeded flow1 flow3 y_bus3 reduce3 seq_measurement seq_admittance).
Notation comp := (computed pinv rnd root polar randint gauss noise seeded flow1 flow3 y_bus3 reduce3 seq_measurement seq_admittance).
Notation ok := (run_ok pinv rnd root polar randint gauss noise seeded flow1 flow3 y_bus3 reduce3 seq_measurement seq_admittance).
Notation nloads conf := (new_loads rnd randint gauss seeded conf).
Notation meas conf := (measurements rnd root noise seeded conf).
Notation saved_ok := (meas_saved rnd root noise seeded).
Notation rest := (remaining_data seq_measurement seq_admittance).

Lemma complete_redo : forall o : options K, complete o -> rl o = true /\ rs o = true /\ rd o = true.
Proof. intros o [(A & B & C)|(A & B & C)]; unfold rl, rs, rd; rewrite A, B, C; auto. Qed.
Lemma redo_loads : forall conf o (c : option (list nat)) lp, choose_loads (K := K) conf o true c = Ok lp -> exists q, lp = Some q.
Proof.
  intros conf o c lp H. unfold choose_loads in H. destruct (kltb 0 (gaussian_loads o)); cbn [andb] in H.
  - injection H as <-. eauto.
  - destruct (profiles o) as [[a b]|]; [injection H as <-; eauto|discriminate].
Qed.
Lemma keep_loads : forall conf o (c : option (list nat)), choose_loads (K := K) conf o false c = Ok None.
Proof. intros conf o c. unfold choose_loads. cbn [andb]. destruct (profiles o) as [[a b]|]; reflexivity. Qed.
Lemma new_loads_asym : forall conf n q lf, nloads conf true n q = Ok lf -> lf_a lf <> None.
Proof.
  intros conf n q lf H. unfold new_loads in H. destruct (generate_loads_3ph _ _ _ _ _ _) as [[[[[a b] c] d] e]|]; [|discriminate]. cbn [bind] in H. injection H as <-. discriminate.
Qed.
Lemma new_loads_times : forall conf o three n c q lf, choose_loads (K := K) conf o true c = Ok (Some q) -> nloads conf three n q = Ok lf -> lf_t lf = time_stamps (days conf).
Proof.
  intros conf o three n c q lf HC H.
  assert (Hq : match q with FromProfiles _ _ _ d _ => d = days conf | FromStd _ d _ => d = days conf end).
  { unfold choose_loads in HC. destruct (kltb 0 (gaussian_loads o)); cbn [andb] in HC; [injection HC as <-; reflexivity|].
    destruct (profiles o) as [[a b]|]; [injection HC as <-; reflexivity|discriminate]. }
  unfold new_loads in H. destruct three.
  - unfold generate_loads_3ph in H. destruct q as [a b w d c'|sd d c']; [|discriminate]. subst d.
    destruct (lines_per_week _ _); [|discriminate]. cbn [bind] in H. destruct (load_profile_from_numpy _ _ _ _ _ _ _ _) as [[[? ?] ?]|]; [|discriminate]. cbn [bind] in H.
    destruct (load_asym_from_numpy _ _ _ _ _ _ _ _) as [[? ?]|]; [|discriminate]. cbn [bind] in H. injection H as <-. reflexivity.
  - unfold generate_loads in H. destruct q as [a b w d c'|sd d c']; subst d.
    + destruct (lines_per_week _ _); [|discriminate]. cbn [bind] in H. destruct (load_profile_from_numpy _ _ _ _ _ _ _ _) as [[[? ?] ?]|]; [|discriminate]. cbn [bind] in H.
      injection H as <-. reflexivity.
    + destruct (generate_gaussian_load _ _ _ _ _) as [[[? ?] ?]|]; [|discriminate]. cbn [bind] in H. injection H as <-. reflexivity.
Qed.

(** a complete run does not read anything *)
Theorem p_complete : forall conf o ts template s s', complete o -> run conf o ts template s = (s', Ok tt) -> forall s2, run conf o ts template s2 = (s', Ok tt).
Proof.
  intros conf o ts template s s' HC H s2. destruct (complete_redo _ HC) as (A & B & D). apply ok in H. apply ok.
  destruct H as (n & ns & lp & lf & r & m & p & f & todel & y & out & (EN & EC & L & R & M & ER & EO) & ->).
  exists n, ns, lp, lf, r, m, p, f, todel, y, out. split; [|reflexivity]. unfold computed in *. rewrite A, B, D in *.
  split; [exact EN|]. split; [exact EC|]. destruct (redo_loads _ _ _ _ EC) as (q & ->). split; [exact L|]. split; [exact R|].
  split; [|split; [exact ER|exact EO]]. destruct (saved_ok _ _ _ _ _ _ _ _ _ _ _ _ M) as (_ & _ & G & _). apply G. reflexivity.
Qed.

Lemma flags_rl : forall (o : options K) p s d, rl (with_flags o p s d) = redo p p s d. Proof. reflexivity. Qed.
Lemma flags_rs : forall (o : options K) p s d, rs (with_flags o p s d) = redo s p s d. Proof. reflexivity. Qed.
Lemma flags_rd : forall (o : options K) p s d, rd (with_flags o p s d) = redo d p s d. Proof. reflexivity. Qed.

(** a run on the files of a complete run *)
Lemma again : forall conf o ts template s n ns lp lf r m p f todel y out, complete o -> comp conf o ts template s n ns lp lf r m p f todel y out ->
  forall a b d m' p' f' out',
  meas conf o (redo d a b d) n (fst (fst r)) (snd (fst r)) (lf_t lf) (Some m) = Ok ((m', p', f'), Some m') -> m' = m ->
  rest o n m' p' f' todel y = Ok out' ->
  run conf (with_flags o a b d) ts template (DataFiles (Some lf) (Some r) (Some m) (Some out)) = (DataFiles (Some lf) (Some r) (Some m) (Some out'), Ok tt).
Proof.
  intros conf o ts template s n ns lp lf r m p f todel y out HC (EN & EC & L & R & M & ER & EO) a b d m' p' f' out' HM -> HO.
  destruct (complete_redo _ HC) as (A & B & D). rewrite A in EC. rewrite B in R. destruct (redo_loads _ _ _ _ EC) as (q & ->).
  apply ok. exists n, ns, (if redo a a b d then Some q else None), lf, r, m, p', f', todel, y, out'. split; [|reflexivity].
  unfold computed. rewrite flags_rl, flags_rs, flags_rd. split; [exact EN|]. split.
  { destruct (redo a a b d); [exact EC|apply keep_loads]. }
  split. { destruct (redo a a b d); [exact L|]. split; [reflexivity|]. intro T. cbn [with_flags three_phased] in T. rewrite T in L. exact (new_loads_asym _ _ _ _ L). }
  split. { destruct (redo b a b d); [exact R|reflexivity]. }
  split; [exact HM|]. split; [exact ER|exact HO].
Qed.
Theorem p_repeat : forall conf o ts template s0 s1 p s d, complete o -> run conf o ts template s0 = (s1, Ok tt) -> d = true \/ (p = false /\ s = false) ->
  run conf (with_flags o p s d) ts template s1 = (s1, Ok tt).
Proof.
  intros conf o ts template s0 s1 a b d HC H Hd. apply ok in H. destruct H as (n & ns & lp & lf & r & m & p & f & todel & y & out & C & ->).
  assert (E : redo d a b d = true). { destruct Hd as [->|[-> ->]]; [reflexivity|destruct d; reflexivity]. }
  pose proof C as (EN & EC & L & R & M & ER & EO). destruct (complete_redo _ HC) as (_ & _ & D). rewrite D in M.
  apply (again _ _ _ _ _ _ _ _ _ _ _ _ _ _ _ _ HC C a b d m p f); [|reflexivity|exact EO]. rewrite E.
  destruct (saved_ok _ _ _ _ _ _ _ _ _ _ _ _ M) as (_ & _ & G & _). apply G. reflexivity.
Qed.

(** ** the ratings and the factor when the measurements are reloaded *)
Lemma delete_list_ok : forall (p P : list K) idx, delete_list p 0 idx = Ok P -> P = map (fun i => nth i p 0) (staying (length p) idx).
Proof. intros p P idx H. unfold delete_list in H. destruct (forallb _ idx); [|discriminate]. injection H as <-. reflexivity. Qed.
Lemma staying_lt : forall n idx i, In i (staying n idx) -> (i < n)%nat.
Proof. intros n idx i H. unfold staying in H. apply filter_In in H. apply in_range, H. Qed.
Lemma delete_rescaled : forall (x : K) p p' idx P, rescaled x p p' -> delete_list p 0 idx = Ok P -> exists P', delete_list p' 0 idx = Ok P' /\ rescaled x P P'.
Proof.
  intros x p p' idx P [HL HR] H. exists (map (fun i => nth i p' 0) (staying (length p') idx)). split.
  - unfold delete_list in *. rewrite HL. destruct (forallb _ idx); [reflexivity|discriminate].
  - apply delete_list_ok in H. subst P. rewrite HL. split; [rewrite !map_length; reflexivity|]. intros k Hk. rewrite map_length in Hk. unfold vget.
    assert (Q : forall l : list K, nth k (map (fun i => nth i l 0) (staying (length p) idx)) 0 = nth (nth k (staying (length p) idx) 0%nat) l 0).
    { intro l. rewrite (nth_indep _ _ (nth 0 l 0)) by (rewrite map_length; auto). exact (map_nth (fun i => nth i l 0) _ _ k). }
    rewrite !Q. apply (HR (nth k (staying (length p) idx) 0%nat)). apply (staying_lt _ idx). apply nth_In. exact Hk.
Qed.
Lemma rest_rescaled : forall o n m p f todel y out x p' f', rest o n m p f todel y = Ok out -> rescaled x p p' ->
  exists i v j w yy h P P', out = Simulation i v j w yy P (knat f) h /\ rest o n m p' f' todel y = Ok (Simulation i v j w yy P' (knat f') h) /\ rescaled x P P'.
Proof.
  intros o n [[[nv ni] w] j] p f todel y out x p' f' H HR. unfold remaining_data in *.
  destruct (delete_cols nv todel) as [nv'|]; [|discriminate]. cbn [bind] in *. destruct (delete_cols ni todel) as [ni'|]; [|discriminate]. cbn [bind] in *.
  destruct (delete_cols w todel) as [w'|]; [|discriminate]. cbn [bind] in *. destruct (delete_cols j todel) as [j'|]; [|discriminate]. cbn [bind] in *.
  destruct (delete_list p 0 todel) as [P|] eqn:EP; [|discriminate]. cbn [bind] in *. destruct (delete_rescaled _ _ _ _ _ HR EP) as (P' & EP' & HR'). rewrite EP'. cbn [bind].
  destruct (delete_list _ 0%Z todel) as [h|]; [|discriminate]. cbn [bind] in *. destruct (sequence o).
  - destruct (seq_measurement nv') as [nv2|]; [|discriminate]. cbn [bind] in *. destruct (seq_measurement ni') as [ni2|]; [|discriminate]. cbn [bind] in *.
    destruct (seq_measurement w') as [w2|]; [|discriminate]. cbn [bind] in *. destruct (seq_measurement j') as [j2|]; [|discriminate]. cbn [bind] in *.
    destruct (seq_admittance y) as [y2|]; [|discriminate]. cbn [bind] in *. injection H as <-.
    exists ni2, nv2, j2, w2, y2, (map (fun p => p - 1)%Z h), P, P'. auto.
  - injection H as <-. exists ni', nv', j', w', y, h, P, P'. auto.
Qed.
(** with the same length of the ratings only they and the factor change *)
Lemma rest_same : forall o n m p f todel y out p' f', rest o n m p f todel y = Ok out -> length p' = length p ->
  exists i v j w yy h P P', out = Simulation i v j w yy P (knat f) h /\ rest o n m p' f' todel y = Ok (Simulation i v j w yy P' (knat f') h).
Proof.
  intros o n [[[nv ni] w] j] p f todel y out p' f' H HL. unfold remaining_data in *.
  destruct (delete_cols nv todel) as [nv'|]; [|discriminate]. cbn [bind] in *. destruct (delete_cols ni todel) as [ni'|]; [|discriminate]. cbn [bind] in *.
  destruct (delete_cols w todel) as [w'|]; [|discriminate]. cbn [bind] in *. destruct (delete_cols j todel) as [j'|]; [|discriminate]. cbn [bind] in *.
  unfold delete_list in H at 1. unfold delete_list at 1. rewrite HL. destruct (forallb _ todel); [|discriminate]. cbn [bind] in *.
  destruct (delete_list _ 0%Z todel) as [h|]; [|discriminate]. cbn [bind] in *. destruct (sequence o).
  - destruct (seq_measurement nv') as [nv2|]; [|discriminate]. cbn [bind] in *. destruct (seq_measurement ni') as [ni2|]; [|discriminate]. cbn [bind] in *.
    destruct (seq_measurement w') as [w2|]; [|discriminate]. cbn [bind] in *. destruct (seq_measurement j') as [j2|]; [|discriminate]. cbn [bind] in *.
    destruct (seq_admittance y) as [y2|]; [|discriminate]. cbn [bind] in *. injection H as <-.
    eexists ni2, nv2, j2, w2, y2, (map (fun p => p - 1)%Z h), _, _. auto.
  - injection H as <-. eexists ni', nv', j', w', y, h, _, _. auto.
Qed.
Lemma meas_reload : forall conf o n V I times saved m p f, increasing (seconds times : list K) -> (2 <= length times)%nat ->
  meas conf o true n V I times saved = Ok ((m, p, f), Some m) ->
  let g := (samples rnd (seconds times) (measurement_frequency conf) / time_steps conf)%nat in
  f = (if three_phased o && equivalent_noise o then 1 else g)%nat /\
  exists p', (forall V' I', meas conf o false n V' I' times (Some m) = Ok ((m, p', g), Some m)) /\ rescaled (safety_factor conf) p p'.
Proof.
  intros conf o n V I times saved m p f HI HL H g.
  assert (HL2 : (2 <= length (seconds times : list K))%nat) by (unfold seconds; rewrite map_length; exact HL).
  unfold measurements in *. destruct (three_phased o) eqn:ET; cbn [andb].
  - cbn [noise_settings] in *.
    pose proof H as H0. apply run3_inv in H0. destruct H0 as ((base & mr & HB & HR & Er) & last & new & g' & HS & _ & HM).
    assert (Eg : g' = g).
    { destruct (sampling_ok _ _ _ _ _ _ _ HI HL2 HS) as (Hlast & Hts & _ & ->). unfold g, samples. rewrite <- Hlast. f_equal. apply (linspace_ok _ _ _ Hts). }
    split.
    { unfold measure in HM. cbn [use_equivalent_noise] in HM. destruct (equivalent_noise o).
      - destruct (equivalent_times _ _ _ _) as [ts'|]; [|discriminate]. cbn [bind] in HM. destruct (side_by_side V I) as [b|]; [|discriminate]. cbn [bind] in HM.
        destruct (filter_and_resample_measurement _ _ _ _ _ _ _ _) as [[? ?]|]; [|discriminate]. cbn [bind] in HM. destruct (halves _) as [[? ?]|]; [|discriminate]. cbn [bind] in HM.
        destruct (filter_and_resample_measurement _ _ _ _ _ _ _ _) as [[? ?]|]; [|discriminate]. cbn [bind] in HM. destruct (halves _) as [[? ?]|]; [|discriminate]. cbn [bind] in HM.
        injection HM as _ <-. reflexivity.
      - cbn [bind] in HM. destruct (side_by_side V I) as [b|]; [|discriminate]. cbn [bind] in HM.
        destruct (filter_and_resample_measurement _ _ _ _ _ _ _ _) as [[? ?]|]; [|discriminate]. cbn [bind] in HM. destruct (halves _) as [[? ?]|]; [|discriminate]. cbn [bind] in HM.
        destruct (filter_and_resample_measurement _ _ _ _ _ _ _ _) as [[? ?]|]; [|discriminate]. cbn [bind] in HM. destruct (halves _) as [[? ?]|]; [|discriminate]. cbn [bind] in HM.
        injection HM as _ <-. exact Eg. }
    destruct (p_reload_3ph rnd root noise seeded _ _ _ V I _ _ _ _ _ _ _ _ _ HI HL2 H) as (p' & E' & _).
    apply run3_inv in E'. destruct E' as ((base' & mr' & HB' & HR' & Er') & _).
    exists p'. split.
    + intros V' I'. destruct (p_reload_3ph rnd root noise seeded _ _ _ V' I' _ _ _ _ _ _ _ _ _ HI HL2 H) as (p2 & E2 & _). pose proof E2 as E3.
      apply run3_inv in E2. destruct E2 as ((base2 & mr2 & HB2 & HR2 & Er2) & _). rewrite HB2 in HB'. injection HB' as <-. rewrite HR2 in HR'. injection HR' as <-.
      rewrite <- Er' in Er2. subst p2. exact E3.
    + cbn [pmu_safety_factor] in HB. replace (safety_factor conf * 1) with (safety_factor conf) in HB by ring.
      subst p p'. destruct (ratings3_scale _ _ _ _ _ _ _ HB HR HB' HR') as [A B]. split; [symmetry; exact A|]. intros k Hk. symmetry. apply B. exact Hk.
  - cbn [noise_settings] in *.
    pose proof H as H0. apply run_inv in H0. destruct H0 as (Er & last & new & HS & _).
    assert (Eg : f = g).
    { destruct (sampling_ok _ _ _ _ _ _ _ HI HL2 HS) as (Hlast & Hts & _ & ->). unfold g, samples. rewrite <- Hlast. f_equal. apply (linspace_ok _ _ _ Hts). }
    split; [exact Eg|]. exists (grid_ratings n (base_ratings (knat 4) n)). split.
    + intros V' I'. unfold add_noise_and_filter. rewrite HS. cbn [bind]. rewrite Eg. reflexivity.
    + cbn [pmu_safety_factor] in Er. subst p. destruct (p_ratings (knat 4) n) as [L4 _]. destruct (p_ratings (safety_factor conf) n) as [Lx _].
      split; [rewrite L4, Lx; reflexivity|]. intros k Hk. rewrite Lx in Hk. apply ratings_scale. exact Hk.
Qed.
Lemma no_times : forall conf o n V I saved m p f, meas conf o true n V I [] saved <> Ok ((m, p, f), Some m).
Proof.
  intros conf o n V I saved m p f H. unfold measurements in H. destruct (three_phased o); cbn [noise_settings] in H.
  - apply run3_inv in H. destruct H as (_ & last & new & g & HS & _). discriminate.
  - apply run_inv in H. destruct H as (_ & last & new & HS & _). discriminate.
Qed.
Theorem p_repeat_stored : forall conf o ts template s0 s1 p s, complete o -> run conf o ts template s0 = (s1, Ok tt) -> p = true \/ s = true ->
  exists i v j w y h P P' f, let g := (samples rnd (seconds (time_stamps (days conf))) (measurement_frequency conf) / time_steps conf)%nat in
    f_output s1 = Some (Simulation i v j w y P (knat f) h) /\ f = (if three_phased o && equivalent_noise o then 1 else g)%nat /\ rescaled (safety_factor conf) P P' /\
    run conf (with_flags o p s false) ts template s1 =
      (DataFiles (f_loads s1) (f_results s1) (f_filtered s1) (Some (Simulation i v j w y P' (knat g) h)), Ok tt).
Proof.
  intros conf o ts template s0 s1 a b HC H Hf. apply ok in H. destruct H as (n & ns & lp & lf & r & m & p & f & todel & y & out & C & ->).
  assert (E : redo false a b false = false). { destruct Hf as [->| ->]; [reflexivity|destruct a; reflexivity]. }
  pose proof C as (EN & EC & L & R & M & ER & EO). destruct (complete_redo _ HC) as (A & _ & D). rewrite D in M. rewrite A in EC.
  destruct (redo_loads _ _ _ _ EC) as (q & ->). pose proof (new_loads_times _ _ _ _ _ _ _ EC L) as T.
  assert (Hd : (0 < days conf)%nat). { destruct (days conf) as [|k]; [|lia]. rewrite T in M. exfalso. exact (no_times _ _ _ _ _ _ _ _ _ M). }
  rewrite T in M. destruct (times_usable (K := K) _ Hd) as (HI & HL & _). assert (HL' : (2 <= length (time_stamps (days conf)))%nat) by (unfold seconds in HL; rewrite map_length in HL; exact HL).
  destruct (meas_reload _ _ _ _ _ _ _ _ _ _ HI HL' M) as (Ef & p' & M' & HR).
  destruct (rest_rescaled _ _ _ _ _ _ _ _ _ _ (samples rnd (seconds (time_stamps (days conf))) (measurement_frequency conf) / time_steps conf)%nat EO HR) as (i & v & j & w & yy & h & P & P' & -> & EO' & HR').
  exists i, v, j, w, yy, h, P, P', f. cbv zeta. cbn [f_output f_loads f_results f_filtered]. split; [reflexivity|]. split; [exact Ef|]. split; [exact HR'|].
  eapply (again _ _ _ _ _ _ _ _ _ _ _ _ _ _ _ _ HC C a b false m); [|reflexivity|exact EO']. rewrite E, T. apply M'.
Qed.
Theorem p_repeat_same : forall conf o ts template s0 s1 p s, complete o -> run conf o ts template s0 = (s1, Ok tt) -> p = true \/ s = true ->
  safety_factor conf = knat 4 -> three_phased o && equivalent_noise o = false -> run conf (with_flags o p s false) ts template s1 = (s1, Ok tt).
Proof.
  intros conf o ts template s0 s1 a b HC H Hf H4 HE. destruct (p_repeat_stored _ _ _ _ _ _ _ _ HC H Hf) as (i & v & j & w & y & h & P & P' & f & EO & Ef & [HL HR] & ->).
  rewrite HE in Ef. rewrite <- Ef. assert (E : P' = P).
  { apply (nth_ext _ _ 0 0); [exact HL|]. intros k Hk. rewrite HL in Hk. specialize (HR k Hk). rewrite H4 in HR. unfold vget in HR.
    assert (N : (knat 4 : K) <> 0). { apply klt_neq. change (0 : K) with (knat 0 : K). apply knat_lt. lia. }
    transitivity (knat 4 * nth k P' 0 / knat 4); [field; exact N|]. rewrite HR. field. exact N. }
  subst P'. rewrite <- EO. destruct s1; reflexivity.
Qed.

(** ** stored measurements *)
Lemma meas_length : forall conf o redo n V I times saved m p f saved', meas conf o redo n V I times saved = Ok ((m, p, f), saved') ->
  length p = (if three_phased o then 3 * length (buses n) else length (loads n))%nat.
Proof.
  intros conf o redo n V I times saved m p f saved' H. unfold measurements in H. destruct (three_phased o).
  - apply run3_inv in H. destruct H as ((base & mr & HB & HR & ->) & _). apply (p_ratings_3ph _ _ _ _ HB HR).
  - apply run_inv in H. destruct H as (-> & _). apply p_ratings.
Qed.
Theorem p_stale : forall conf1 o1 conf2 o2 ts template s0 s1 s2, run conf1 o1 ts template s0 = (s1, Ok tt) ->
  three_phased o2 = three_phased o1 -> sequence o2 = sequence o1 -> laplacian o2 = laplacian o1 -> hidden_nodes conf2 = hidden_nodes conf1 ->
  noise_only o2 = false -> loads_only o2 = true \/ network_sim_only o2 = true ->
  run conf2 o2 ts template s1 = (s2, Ok tt) -> f_filtered s2 = f_filtered s1 /\ same_measurements (f_output s1) (f_output s2).
Proof.
  intros conf1 o1 conf2 o2 ts template s0 s1 s2 H1 HT HS HP HH HN HF H2. apply ok in H1. apply ok in H2.
  destruct H1 as (n & ns & lp & lf & r & m & p & f & todel & y & out & (EN & _ & _ & _ & M & ER & EO) & ->).
  destruct H2 as (n2 & ns2 & lp2 & lf2 & r2 & m2 & p2 & f2 & todel2 & y2 & out2 & (EN2 & _ & _ & _ & M2 & ER2 & EO2) & ->).
  unfold network in EN2. rewrite HT in EN2. fold (network o1 ts template) in EN2. rewrite EN in EN2. injection EN2 as <- <-.
  assert (E : rd o2 = false). { unfold rd, redo. rewrite HN. destruct HF as [-> | ->]; [reflexivity|]. destruct (loads_only o2); reflexivity. }
  rewrite E in M2. destruct (saved_ok _ _ _ _ _ _ _ _ _ _ _ _ M2) as (_ & Em & _). specialize (Em eq_refl). cbn [f_filtered] in Em. injection Em as <-.
  assert (EH : hidden_list conf2 o2 ns = hidden_list conf1 o1 ns). { unfold hidden_list. rewrite HT, HP, HH. reflexivity. }
  rewrite EH in ER2. assert (ER' : reduced pinv reduce3 o2 n (snd (fst m)) (snd m) (hidden_list conf1 o1 ns) = reduced pinv reduce3 o1 n (snd (fst m)) (snd m) (hidden_list conf1 o1 ns)).
  { unfold reduced. rewrite HT, HS, HP. reflexivity. }
  rewrite ER' in ER2. rewrite ER in ER2. injection ER2 as <- <-. cbn [f_filtered f_output]. split; [reflexivity|].
  assert (EO' : rest o1 n m p2 f2 todel y = Ok out2). { rewrite <- EO2. unfold remaining_data. rewrite HT, HS. reflexivity. }
  assert (HL : length p2 = length p). { rewrite (meas_length _ _ _ _ _ _ _ _ _ _ _ _ M2), (meas_length _ _ _ _ _ _ _ _ _ _ _ _ M), HT. reflexivity. }
  destruct (rest_same _ _ _ _ _ _ _ _ p2 f2 EO HL) as (i & v & j & w & yy & h & P & P' & -> & E2). rewrite E2 in EO'. injection EO' as <-.
  exists i, v, j, w, yy, h, P, (knat f), P', (knat f2). auto.
Qed.

(** ** up to date files *)
Notation current conf o ts template s := (run conf (with_flags o false true true) ts template s = (s, Ok tt)).
Theorem p_current : forall conf o ts template s s', rs o = true -> rd o = true -> run conf o ts template s = (s', Ok tt) -> current conf o ts template s'.
Proof.
  intros conf o ts template s s' HS HD H. apply ok in H. apply ok. destruct H as (n & ns & lp & lf & r & m & p & f & todel & y & out & (EN & EC & L & R & M & ER & EO) & ->).
  exists n, ns, None, lf, r, m, p, f, todel, y, out. split; [|reflexivity]. unfold computed. rewrite flags_rl, flags_rs, flags_rd. cbn [redo orb andb negb].
  rewrite HS in R. rewrite HD in M. split; [exact EN|]. split; [apply keep_loads|]. split.
  { split; [reflexivity|]. intro T. cbn [with_flags three_phased] in T. destruct lp as [q|]; [rewrite T in L; exact (new_loads_asym _ _ _ _ L)|apply L; exact T]. }
  split; [exact R|]. split; [|split; [exact ER|exact EO]]. destruct (saved_ok _ _ _ _ _ _ _ _ _ _ _ _ M) as (_ & _ & G & _). apply G. reflexivity.
Qed.
Theorem p_current_noise : forall conf0 o0 conf o ts template s s', current conf0 o0 ts template s -> three_phased o = three_phased o0 ->
  run conf (with_flags o false false true) ts template s = (s', Ok tt) -> current conf o ts template s'.
Proof.
  intros conf0 o0 conf o ts template s s' H0 HT H. apply ok in H0. apply ok in H. apply ok.
  destruct H0 as (n0 & ns0 & lp0 & lf0 & r0 & m0 & p0 & f0 & todel0 & y0 & out0 & (EN0 & EC0 & L0 & R0 & _) & E0). 
  destruct H as (n & ns & lp & lf & r & m & p & f & todel & y & out & (EN & EC & L & R & M & ER & EO) & ->).
  rewrite flags_rl, flags_rs, flags_rd in *. cbn [redo orb andb negb] in *.
  unfold network in EN, EN0. cbn [with_flags three_phased] in EN, EN0. rewrite HT in EN. rewrite EN0 in EN. injection EN as <- <-.
  rewrite keep_loads in EC, EC0. injection EC as <-. injection EC0 as <-. rewrite E0 in L, R, M. cbn [f_loads f_results f_filtered] in L, R, M. destruct L as [L LA]. injection L as <-. injection R as <-.
  exists n0, ns0, None, lf0, r0, m, p, f, todel, y, out. split; [|reflexivity]. unfold computed. rewrite flags_rl, flags_rs, flags_rd. cbn [redo orb andb negb].
  split; [unfold network; cbn [with_flags three_phased]; rewrite HT; exact EN0|]. split; [apply keep_loads|]. split; [split; [reflexivity|exact LA]|].
  split. { cbn [with_flags three_phased] in *. rewrite HT. exact R0. }
  split; [|split; [exact ER|exact EO]]. destruct (saved_ok _ _ _ _ _ _ _ _ _ _ _ _ M) as (_ & _ & G & _). apply G. reflexivity.
Qed.
Theorem p_current_again : forall conf o ts template s, current conf o ts template s -> run conf (with_flags o false false true) ts template s = (s, Ok tt).
Proof.
  intros conf o ts template s H. apply ok in H. apply ok. destruct H as (n & ns & lp & lf & r & m & p & f & todel & y & out & (EN & EC & L & R & M & ER & EO) & ->).
  rewrite flags_rl, flags_rs, flags_rd in *. cbn [redo orb andb negb] in *.
  exists n, ns, lp, lf, r, m, p, f, todel, y, out. split; [|reflexivity]. unfold computed. rewrite flags_rl, flags_rs, flags_rd. cbn [redo orb andb negb]. auto 10.
Qed.
(** ** files left alone *)
Theorem p_untouched : forall conf o ts template s s', run conf o ts template s = (s', Ok tt) ->
  loads_only o = true \/ network_sim_only o = true \/ noise_only o = true ->
  (loads_only o = false -> f_loads s' = f_loads s) /\ (network_sim_only o = false -> f_results s' = f_results s) /\ (noise_only o = false -> f_filtered s' = f_filtered s).
Proof.
  intros conf o ts template s s' H HF. apply ok in H. destruct H as (n & ns & lp & lf & r & m & p & f & todel & y & out & (EN & EC & L & R & M & ER & EO) & ->).
  cbn [f_loads f_results f_filtered]. unfold rl, rs, rd, redo in *. split; [|split]; intro E; rewrite E in *; cbn [orb andb negb] in *.
  - assert (X : negb (network_sim_only o) && negb (noise_only o) = false) by (destruct HF as [HF|[HF|HF]]; rewrite ?HF in *; [discriminate|reflexivity|apply andb_false_r]).
    rewrite X in EC. rewrite keep_loads in EC. injection EC as <-. symmetry. apply L.
  - assert (X : negb (loads_only o) && true && negb (noise_only o) = false) by (destruct HF as [HF|[HF|HF]]; rewrite ?HF in *; [reflexivity|discriminate|destruct (loads_only o); reflexivity]).
    rewrite X in R. symmetry. exact R.
  - assert (X : negb (loads_only o) && negb (network_sim_only o) && true = false) by (destruct HF as [HF|[HF|HF]]; rewrite ?HF in *; [reflexivity|destruct (loads_only o); reflexivity|discriminate]).
    rewrite X in M. destruct (saved_ok _ _ _ _ _ _ _ _ _ _ _ _ M) as (_ & G & _). symmetry. apply G. reflexivity.
Qed.
End Rerun.
