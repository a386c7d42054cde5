(** C53, C54, C55 and C67: simulated measurements. *)
From Coq Require Import String Bool Arith List Lia ZArith QArith Qcanon.
From Verif Require Import BasePy BaseFld BaseOrd BaseSum BaseMat BaseLin BaseEx BaseRound ModelNet ModelResample ModelMeasure
  SpecResample SpecLoads SpecMeasure ProofMeasure ProofMeasure3 ProofMeasureMain ProofMeasureApi ProofMeasureRows.
Import ListNotations.
Close Scope Qc_scope. Close Scope Q_scope. Close Scope string_scope. Open Scope list_scope. Open Scope nat_scope.

Section Theorems.
Context {K : Type} {O : Ops K} {F : Fld K} {O2 : OrdOps K} {OF : OrdFld K}.
Notation CK := (cplx K).
Local Open Scope K_scope.

(** ** C53: ratings.  The factor is that of the settings, or 4 when the measurements are reloaded. *)
Theorem C53_ratings : forall St rnd root (noise : @noise_fun K St K) seeded n V I times fmeas steps prm saved m ratings fp saved',
  add_noise_and_filter rnd root noise seeded n V I times fmeas steps prm saved = Ok ((m, ratings, fp), saved') ->
  let factor := match prm with Some p => pmu_safety_factor p | None => knat 4 end in
  length ratings = length (loads n) /\ forall i l, nth_error (loads n) i = Some l ->
    (~ at_substation n i -> vget ratings i = factor * (l_p l * l_p l + l_q l * l_q l)) /\
    (at_substation n i -> vget ratings i = sumn i (vget ratings) +
       lsum (map (fun l => factor * (l_p l * l_p l + l_q l * l_q l)) (skipn i (loads n)))).
Proof. intros St rnd root noise seeded n V I times fmeas steps prm saved m ratings fp saved' H factor. apply run_inv in H. destruct H as [-> _]. apply p_ratings. Qed.
(** a single substation without own load gets the sum of the other ratings *)
Theorem C53_one_substation : forall St rnd root (noise : @noise_fun K St K) seeded n V I times fmeas steps prm saved m ratings fp saved' i l,
  add_noise_and_filter rnd root noise seeded n V I times fmeas steps prm saved = Ok ((m, ratings, fp), saved') ->
  nth_error (loads n) i = Some l -> at_substation n i -> (forall j, at_substation n j -> j = i) -> l_p l = 0 -> l_q l = 0 ->
  vget ratings i = sumn (length (loads n)) (fun j => if (j =? i)%nat then 0 else vget ratings j).
Proof. intros St rnd root noise seeded n V I times fmeas steps prm saved m ratings fp saved' i l H. apply run_inv in H. destruct H as [-> _]. apply p_one_substation. Qed.
(** the rating is the factor times the apparent power only for apparent powers 0 and 1 *)
Theorem C53_apparent_power_iff : forall St rnd root (noise : @noise_fun K St K) seeded n V I times fmeas steps prm saved m ratings fp saved' i l s,
  add_noise_and_filter rnd root noise seeded n V I times fmeas steps prm saved = Ok ((m, ratings, fp), saved') ->
  let factor := match prm with Some p => pmu_safety_factor p | None => knat 4 end in
  factor <> 0 -> nth_error (loads n) i = Some l -> ~ at_substation n i -> apparent (l_p l) (l_q l) s ->
  (vget ratings i = factor * s <-> s = 0 \/ s = 1).
Proof.
  intros St rnd root noise seeded n V I times fmeas steps prm saved m ratings fp saved' i l s H factor Hf E Hs Ha.
  destruct (C53_ratings _ _ _ _ _ _ _ _ _ _ _ _ _ _ _ _ _ H) as [_ R]. rewrite (proj1 (R i l E) Hs). apply p_apparent_iff; auto.
Qed.

(** ** C54: three-phase ratings.  Entry [ph * N + i] belongs to phase [ph] of bus number [i]. *)
Theorem C54_ratings : forall St rnd root (noise : @noise_fun K St K) seeded n V I times fmeas steps prm saved m ratings fp saved',
  add_noise_and_filter_3ph rnd root noise seeded n V I times fmeas steps prm saved = Ok ((m, ratings, fp), saved') ->
  let N := length (buses n) in
  let factor := match prm with Some p => pmu_safety_factor p | None => [knat 4; knat 4; knat 4] end in
  length ratings = (3 * N)%nat /\ (forall i, at_substation n i -> (i < N)%nat) /\
  exists sq : nat -> nat -> K,
    (forall ph i b, (ph < 3)%nat -> nth_error (map b_id (buses n)) i = Some b -> exists p q, counted n b ph p q /\ sq ph i = p * p + q * q) /\
    forall ph i, (ph < 3)%nat -> (i < N)%nat ->
      (~ at_substation n i -> vget ratings (ph * N + i) = phase_factor factor ph * sq ph i) /\
      (at_substation n i -> vget ratings (ph * N + i) =
         sumn i (fun j => vget ratings (ph * N + j)) + sumn (N - i) (fun j => phase_factor factor ph * sq ph (i + j)%nat)).
Proof.
  intros St rnd root noise seeded n V I times fmeas steps prm saved m ratings fp saved' H N factor. apply run3_inv in H.
  destruct H as [(base & mr & HB & HR & ->) _]. exact (p_ratings_3ph _ _ _ _ HB HR).
Qed.
Theorem C54_counted_unique : forall (n : net (K := K)) b ph p q p' q', counted n b ph p q -> counted n b ph p' q' -> p = p' /\ q = q'.
Proof. exact p_counted_unique. Qed.
(** the measured columns are ordered by bus, then phase: the orders agree for one bus only *)
Theorem C54_orders_agree_iff : forall N, (forall b ph, (b < N)%nat -> (ph < 3)%nat -> ((3 * b + ph) / N = ph /\ (3 * b + ph) mod N = b)%nat) <-> (N <= 1)%nat.
Proof. exact p_layout. Qed.

(** ** C55: the averaging factor.  [measured_with .. g ..] says that the variance of the noise is divided by [g]. *)
Theorem C55_one_phase : forall St rnd root (noise : @noise_fun K St K) seeded n V I times fmeas steps prm saved m ratings fp saved',
  usable times V I (length (loads n)) -> keeps_length noise ->
  (use_equivalent_noise prm = true -> root (knat fp) * root (knat fp) = knat fp) ->
  add_noise_and_filter rnd root noise seeded n V I times fmeas steps (Some prm) saved = Ok ((m, ratings, fp), saved') ->
  saved' = Some m /\ (0 < fp)%nat /\ fp = (samples rnd times fmeas / steps)%nat /\
  measured_with noise seeded prm V I times fp ratings m.
Proof. intros St rnd root noise seeded. exact (p_one_phase rnd root noise seeded). Qed.
(** three phases: the factor is the same, but 1 is returned in equivalent mode *)
Theorem C55_three_phases : forall St rnd root (noise : @noise_fun K St K) seeded n V I times fmeas steps prm saved m ratings fp saved',
  let g := (samples rnd times fmeas / steps)%nat in
  usable times V I (3 * length (buses n)) -> keeps_length noise ->
  (use_equivalent_noise prm = true -> root (knat g) * root (knat g) = knat g) ->
  add_noise_and_filter_3ph rnd root noise seeded n V I times fmeas steps (Some prm) saved = Ok ((m, ratings, fp), saved') ->
  saved' = Some m /\ (0 < g)%nat /\ fp = (if use_equivalent_noise prm then 1 else g)%nat /\
  measured_with noise seeded prm V I times g ratings m.
Proof. intros St rnd root noise seeded. exact (p_three_phases rnd root noise seeded). Qed.
(** reloading after a run with the same times, frequency and steps *)
Theorem C55_reload_one_phase : forall St rnd root (noise : @noise_fun K St K) seeded n V I V' I' times fmeas steps prm saved m ratings fp saved',
  add_noise_and_filter rnd root noise seeded n V I times fmeas steps (Some prm) saved = Ok ((m, ratings, fp), saved') ->
  exists ratings', add_noise_and_filter rnd root noise seeded n V' I' times fmeas steps None saved' = Ok ((m, ratings', fp), saved') /\
    forall i, (i < length (loads n))%nat -> pmu_safety_factor prm * vget ratings' i = knat 4 * vget ratings i.
Proof. intros St rnd root noise seeded. exact (p_reload rnd root noise seeded). Qed.
Theorem C55_reload_three_phases : forall St rnd root (noise : @noise_fun K St K) seeded n V I V' I' times fmeas steps prm saved m ratings fp saved',
  let g := (samples rnd times fmeas / steps)%nat in increasing times -> (2 <= length times)%nat ->
  add_noise_and_filter_3ph rnd root noise seeded n V I times fmeas steps (Some prm) saved = Ok ((m, ratings, fp), saved') ->
  exists ratings', add_noise_and_filter_3ph rnd root noise seeded n V' I' times fmeas steps None saved' = Ok ((m, ratings', g), saved') /\
    (pmu_safety_factor prm = [knat 4; knat 4; knat 4] -> ratings' = ratings).
Proof. intros St rnd root noise seeded. exact (p_reload_3ph rnd root noise seeded). Qed.

(** ** C67: the number of time steps *)
Theorem C67_rows : forall St rnd root (noise : @noise_fun K St K) seeded n V I times fmeas steps prm saved nv ni v i ratings fp saved',
  rounds rnd -> usable times V I (length (loads n)) -> keeps_length noise ->
  add_noise_and_filter rnd root noise seeded n V I times fmeas steps (Some prm) saved = Ok (((nv, ni, v, i), ratings, fp), saved') ->
  exists rows, shape nv rows (length (loads n)) /\ shape ni rows (length (loads n)) /\
    shape v rows (length (loads n)) /\ shape i rows (length (loads n)) /\
    row_bounds (use_equivalent_noise prm) (samples rnd times fmeas) steps fp rows.
Proof. intros St rnd root noise seeded. exact (p_rows rnd root noise seeded). Qed.
Theorem C67_rows_three_phases : forall St rnd root (noise : @noise_fun K St K) seeded n V I times fmeas steps prm saved nv ni v i ratings fp saved',
  rounds rnd -> usable times V I (3 * length (buses n)) -> keeps_length noise ->
  add_noise_and_filter_3ph rnd root noise seeded n V I times fmeas steps (Some prm) saved = Ok (((nv, ni, v, i), ratings, fp), saved') ->
  exists rows, shape nv rows (3 * length (buses n)) /\ shape ni rows (3 * length (buses n)) /\
    shape v rows (3 * length (buses n)) /\ shape i rows (3 * length (buses n)) /\
    row_bounds (use_equivalent_noise prm) (samples rnd times fmeas) steps (samples rnd times fmeas / steps) rows.
Proof. intros St rnd root noise seeded. exact (p_rows_3ph rnd root noise seeded). Qed.
(** with at least one sample per time step the measurement succeeds *)
Theorem C67_succeeds : forall St rnd root (noise : @noise_fun K St K) seeded n V I times fmeas steps prm saved, rounds rnd -> never_fails noise ->
  usable times V I (length (loads n)) -> (0 < steps)%nat -> (steps <= samples rnd times fmeas)%nat ->
  exists r, add_noise_and_filter rnd root noise seeded n V I times fmeas steps (Some prm) saved = Ok r.
Proof. intros St rnd root noise seeded. exact (p_succeeds rnd root noise seeded). Qed.
End Theorems.
Print Assumptions C53_ratings.
Print Assumptions C53_one_substation.
Print Assumptions C53_apparent_power_iff.
Print Assumptions C54_ratings.
Print Assumptions C54_counted_unique.
Print Assumptions C54_orders_agree_iff.
Print Assumptions C55_one_phase.
Print Assumptions C55_three_phases.
Print Assumptions C55_reload_one_phase.
Print Assumptions C55_reload_three_phases.
Print Assumptions C67_rows.
Print Assumptions C67_rows_three_phases.
Print Assumptions C67_succeeds.

(** ** Concrete cases *)
(** "noise" that adds the deviations; the state counts the columns *)
Definition adds (v : list (cplx Qc)) (a b : Qc) (s : nat) : res (list (cplx Qc) * nat) := Ok (map (fun z => kadd z (Cx a b)) v, S s).
Lemma adds_keeps : keeps_length adds.
Proof. intros v a b s v' s' H. injection H as <- <-. apply map_length. Qed.
Lemma adds_works : never_fails adds.
Proof. intros v a b s. eexists. eexists. reflexivity. Qed.
(** the root of 4 *)
Definition root4 (x : Qc) : Qc := zq 2.
Definition bus_of (i : nat) : bus_row := Bus i EmptyString (zq 20).
Definition load_of (b : nat) (p q : Z) : load_row := Load b b (zq p) (zq q) (zq 0) (zq 0).
Definition asym_of (b : nat) (p q : nat -> Z) : asym_row := Asym b b (fun k => zq (p k)) (fun k => zq (q k)).
Definition net_of (k : nat) ls als gs : net := Net (map bus_of (range k)) ls als gs [] (zq 1) [].
Definition three_times : list Qc := [zq 0; zq 1; zq 2].
Definition data (k : nat) : mat (cplx Qc) := mk 3 k (fun t j => Cx (zq (Z.of_nat (t * t + j))) (zq (Z.of_nat j))).
Lemma three_times_increasing : increasing three_times.
Proof.
  intros i j Hij Hj. destruct i as [|[|i]], j as [|[|[|j]]]; cbn in Hj; try lia; vm_compute; reflexivity.
Qed.
Lemma data_usable : forall k, usable three_times (data k) (data k) k.
Proof. intro k. split; [exact three_times_increasing|]. split; [cbn; lia|]. split; [reflexivity|]. unfold data. rewrite nr_mk, nc_mk. auto. Qed.
Definition prm_of {P} (e : bool) (f : P) : noise_params P := NoiseParams (zq 1) (zq 2) (zq 3) (zq 4) e f.
Notation run1 := (add_noise_and_filter roundq root4 adds 0).
Notation run3 := (add_noise_and_filter_3ph roundq root4 adds 0).
Definition out_of {A} (d : A) (r : res A) : A := match r with Ok x => x | Err _ => d end.
Definition nothing : ((mat (cplx Qc) * mat (cplx Qc) * mat (cplx Qc) * mat (cplx Qc)) * list Qc * nat) * @saved_results Qc :=
  let e := mk 0 0 (fun _ _ => Cx (zq 0) (zq 0)) in (((e, e, e, e), [], 0), None).
Definition okb {A} (r : res A) : bool := match r with Ok _ => true | Err _ => false end.
Lemma okb_ok : forall A (d : A) r, okb r = true -> r = Ok (out_of d r).
Proof. intros A d [x|e] H; [reflexivity|discriminate]. Qed.

(** a substation without load after two loads *)
Definition n53 := net_of 3 [load_of 0 3 4; load_of 1 1 0; load_of 2 0 0] [] [2].
Notation run53 e := (run1 n53 (data 3) (data 3) three_times (zq 4) 2 (Some (prm_of e (zq 2))) None).
Lemma run53_ok : forall e, exists m saved, run53 e = Ok ((m, [zq 50; zq 2; zq 52], 4), saved) /\ saved = Some m.
Proof.
  intro e. destruct (run53 e) as [[[[m r] fp] saved]|x] eqn:E.
  - exists m, saved. pose proof E as E2. apply run_inv in E2. destruct E2 as (-> & last & ts & HS & -> & _).
    assert (A : grid_ratings n53 (base_ratings (zq 2) n53) = [zq 50; zq 2; zq 52]) by (apply veqb_eq; vm_compute; reflexivity).
    cbn [prm_of pmu_safety_factor]. rewrite A. split; [|reflexivity]. do 3 f_equal.
    destruct (sampling_ok _ _ _ _ _ _ _ three_times_increasing ltac:(cbn; lia) HS) as (-> & Hts & _ & ->).
    destruct (linspace_ok _ _ _ Hts) as (_ & -> & _). vm_compute. reflexivity.
  - exfalso. destruct e; vm_compute in E; discriminate.
Qed.

Example C53_ex : exists m saved, run53 false = Ok ((m, [zq 50; zq 2; zq 52], 4), saved) /\ at_substation n53 2 /\
  (forall j, at_substation n53 j -> j = 2) /\ ~ at_substation n53 0 /\ apparent (zq 3) (zq 4) (zq 5) /\ zq 2 <> zq 0.
Proof.
  destruct (run53_ok false) as (m & saved & E & _). exists m, saved. split; [exact E|].
  assert (U : forall j, at_substation n53 j -> j = 2).
  { intros j A. apply flagged_spec in A. destruct j as [|[|[|j]]]; [vm_compute in A; discriminate|vm_compute in A; discriminate|reflexivity|].
    destruct j; vm_compute in A; discriminate. }
  split; [eexists; split; [reflexivity|left; reflexivity]|]. split; [exact U|]. split; [intro A; apply U in A; discriminate|].
  split; [split; [vm_compute; reflexivity|apply keqb_eq; vm_compute; reflexivity]|]. apply keqb_neq. vm_compute. reflexivity.
Qed.
(** the rating of a load of 3 MW and 4 Mvar is not the factor times 5 MVA *)
Theorem C53_apparent_power_refuted : exists n V I times fmeas steps prm m ratings fp saved' i l s,
  usable times V I (length (loads n)) /\
  run1 n V I times fmeas steps (Some prm) None = Ok ((m, ratings, fp), saved') /\
  nth_error (loads n) i = Some l /\ ~ at_substation n i /\ apparent (l_p l) (l_q l) s /\
  vget ratings i <> (pmu_safety_factor prm * s)%K.
Proof.
  destruct C53_ex as (m & saved & E & _ & _ & N & A & _).
  exists n53, (data 3), (data 3), three_times, (zq 4), 2, (prm_of false (zq 2)), m, [zq 50; zq 2; zq 52], 4, saved, 0, (load_of 0 3 4), (zq 5).
  split; [exact (data_usable 3)|]. split; [exact E|]. split; [reflexivity|]. split; [exact N|]. split; [exact A|].
  apply keqb_neq. vm_compute. reflexivity.
Qed.
(** two substations without load: the later one counts the earlier one *)
Definition n53b := net_of 3 [load_of 0 0 0; load_of 1 1 0; load_of 2 0 0] [] [0; 2].
Theorem C53_two_substations_refuted : exists n V I times fmeas steps prm m ratings fp saved' i j,
  usable times V I (length (loads n)) /\
  run1 n V I times fmeas steps (Some prm) None = Ok ((m, ratings, fp), saved') /\
  i <> j /\ at_substation n i /\ at_substation n j /\ (forall k l, nth_error (loads n) k = Some l -> at_substation n k -> l_p l = k0 /\ l_q l = k0) /\
  vget ratings i <> vget ratings j /\
  vget ratings i <> sumn (length (loads n)) (fun k => if k =? i then k0 else vget ratings k).
Proof.
  set (r := run1 n53b (data 3) (data 3) three_times (zq 4) 2 (Some (prm_of false (zq 2))) None).
  assert (E : r = Ok (out_of nothing r)) by (apply okb_ok; vm_compute; reflexivity).
  destruct (out_of nothing r) as [[[m ratings] fp] saved]. unfold r in E. clear r.
  assert (R : ratings = [zq 2; zq 2; zq 4]).
  { apply run_inv in E. destruct E as [-> _]. apply veqb_eq. vm_compute. reflexivity. }
  exists n53b, (data 3), (data 3), three_times, (zq 4), 2, (prm_of false (zq 2)), m, ratings, fp, saved, 0, 2.
  split; [exact (data_usable 3)|]. split; [exact E|]. split; [lia|].
  split; [eexists; split; [reflexivity|left; reflexivity]|]. split; [eexists; split; [reflexivity|right; left; reflexivity]|].
  split.
  { intros k l El A. apply flagged_spec in A. destruct k as [|[|[|k]]].
    - change (Some (load_of 0 0 0) = Some l) in El. injection El as <-. split; reflexivity.
    - vm_compute in A. discriminate.
    - change (Some (load_of 2 0 0) = Some l) in El. injection El as <-. split; reflexivity.
    - destruct k; vm_compute in A; discriminate. }
  rewrite R. split; apply keqb_neq; vm_compute; reflexivity.
Qed.
(** a substation with a load of its own counts it *)
Definition n53c := net_of 2 [load_of 0 1 0; load_of 1 1 1] [] [1].
Theorem C53_loaded_substation_refuted : exists n V I times fmeas steps prm m ratings fp saved' i,
  usable times V I (length (loads n)) /\
  run1 n V I times fmeas steps (Some prm) None = Ok ((m, ratings, fp), saved') /\
  at_substation n i /\ (forall j, at_substation n j -> j = i) /\
  vget ratings i <> sumn (length (loads n)) (fun k => if k =? i then k0 else vget ratings k).
Proof.
  set (r := run1 n53c (data 2) (data 2) three_times (zq 4) 2 (Some (prm_of false (zq 2))) None).
  assert (E : r = Ok (out_of nothing r)) by (apply okb_ok; vm_compute; reflexivity).
  destruct (out_of nothing r) as [[[m ratings] fp] saved]. unfold r in E. clear r.
  assert (R : ratings = [zq 2; zq 6]).
  { apply run_inv in E. destruct E as [-> _]. apply veqb_eq. vm_compute. reflexivity. }
  exists n53c, (data 2), (data 2), three_times, (zq 4), 2, (prm_of false (zq 2)), m, ratings, fp, saved, 1.
  split; [exact (data_usable 2)|]. split; [exact E|].
  split; [eexists; split; [reflexivity|left; reflexivity]|]. split.
  { intros j A. apply flagged_spec in A. destruct j as [|[|j]]; [vm_compute in A; discriminate|reflexivity|]. destruct j; vm_compute in A; discriminate. }
  rewrite R. apply keqb_neq. vm_compute. reflexivity.
Qed.
Print Assumptions C53_apparent_power_refuted.
Print Assumptions C53_two_substations_refuted.
Print Assumptions C53_loaded_substation_refuted.

(** ** C54 *)
(** two buses with different loads on each phase: column 3 (bus 1, phase 0) uses the rating of phase 1 of bus 1 *)
Definition fs : list Qc := [zq 1; zq 1; zq 1].
Definition n54 := net_of 2 [] [asym_of 0 (fun k => Z.of_nat k) (fun _ => 0%Z); asym_of 1 (fun k => 3 + Z.of_nat k)%Z (fun _ => 0%Z)] [].
Notation run54 e := (run3 n54 (data 6) (data 6) three_times (zq 4) 2 (Some (prm_of e fs)) None).
Lemma ratings3 : forall n V I times fmeas steps prm saved m ratings fp saved' r, run3 n V I times fmeas steps prm saved = Ok ((m, ratings, fp), saved') ->
  (b <- base_ratings_3ph (match prm with Some p => pmu_safety_factor p | None => [knat 4; knat 4; knat 4] end) n ;; x <- grid_ratings_3ph n b ;; Ok (flat x)) = Ok r ->
  ratings = r.
Proof.
  intros n V I times fmeas steps prm saved m ratings fp saved' r H. apply run3_inv in H. destruct H as [(base & mr & HB & HR & ->) _].
  rewrite HB. cbn [bind]. rewrite HR. cbn [bind]. intro E. injection E as <-. reflexivity.
Qed.
Definition res_veqb (a : res (list Qc)) (b : list Qc) : bool := match a with Ok x => veqb x b | Err _ => false end.
Lemma res_veqb_eq : forall a b, res_veqb a b = true -> a = Ok b.
Proof. intros [x|e] b H; [apply veqb_eq in H; subst; reflexivity|discriminate]. Qed.
Lemma u54 : usable three_times (data 6) (data 6) (3 * length (buses n54)).
Proof. exact (data_usable 6). Qed.
Lemma samples4 : samples roundq three_times (zq 4) / 2 = 4.
Proof. vm_compute. reflexivity. Qed.
Lemma root_samples : (root4 (knat (samples roundq three_times (zq 4) / 2)) * root4 (knat (samples roundq three_times (zq 4) / 2)) = knat (samples roundq three_times (zq 4) / 2))%K.
Proof. apply keqb_eq. vm_compute. reflexivity. Qed.
Lemma run54_ok : forall e, exists m saved, run54 e = Ok ((m, [zq 0; zq 9; zq 1; zq 16; zq 4; zq 25], if e then 1 else 4), saved) /\
  saved = Some m /\ measured_with adds 0 (prm_of e fs) (data 6) (data 6) three_times 4 [zq 0; zq 9; zq 1; zq 16; zq 4; zq 25] m.
Proof.
  intro e. assert (E : run54 e = Ok (out_of nothing (run54 e))) by (apply okb_ok; destruct e; vm_compute; reflexivity).
  destruct (out_of nothing (run54 e)) as [[[m ratings] fp] saved]. exists m, saved.
  assert (R := ratings3 _ _ _ _ _ _ _ _ _ _ _ _ [zq 0; zq 9; zq 1; zq 16; zq 4; zq 25] E ltac:(apply res_veqb_eq; vm_compute; reflexivity)). subst ratings.
  destruct (C55_three_phases nat roundq root4 adds 0 n54 (data 6) (data 6) three_times (zq 4) 2 (prm_of e fs) None m _ fp saved u54 adds_keeps (fun _ => root_samples) E) as (-> & _ & Efp & M).
  rewrite samples4 in Efp, M. cbn [use_equivalent_noise prm_of] in Efp. rewrite <- Efp. split; [exact E|]. split; [reflexivity|exact M].
Qed.
Lemma n54_counted : forall b ph, b < 2 -> counted n54 b ph (zq (3 * Z.of_nat b + Z.of_nat ph)) (zq 0).
Proof.
  intros b ph Hb. destruct b as [|[|b]]; [| |lia]; left.
  - exists (asym_of 0 (fun k => Z.of_nat k) (fun _ => 0%Z)). split; [|split; reflexivity].
    exists [], [asym_of 1 (fun k => 3 + Z.of_nat k)%Z (fun _ => 0%Z)]. split; [reflexivity|]. split; [reflexivity|]. intros y [<-|[]]. discriminate.
  - exists (asym_of 1 (fun k => 3 + Z.of_nat k)%Z (fun _ => 0%Z)). split; [|split; reflexivity].
    exists [asym_of 0 (fun k => Z.of_nat k) (fun _ => 0%Z)], []. split; [reflexivity|]. split; [reflexivity|]. intros y [].
Qed.
Example C54_ex : exists m saved, run54 false = Ok ((m, [zq 0; zq 9; zq 1; zq 16; zq 4; zq 25], 4), saved) /\
  measured_with adds 0 (prm_of false fs) (data 6) (data 6) three_times 4 [zq 0; zq 9; zq 1; zq 16; zq 4; zq 25] m /\
  (forall i, ~ at_substation n54 i) /\ (forall b ph, b < 2 -> counted n54 b ph (zq (3 * Z.of_nat b + Z.of_nat ph)) (zq 0)).
Proof.
  destruct (run54_ok false) as (m & saved & E & _ & M). exists m, saved. split; [exact E|]. split; [exact M|]. split; [|exact n54_counted].
  intros i (l & El & _). destruct i; discriminate.
Qed.
(** current column 3 b + ph (bus b, phase ph) is disturbed with a rating that is not that of its node and phase *)
Theorem C54_own_phase_refuted : exists n V I times fmeas steps prm nv ni v i ratings fp saved' b ph p q new f scale,
  usable times V I (3 * length (buses n)) /\ (forall i, ~ at_substation n i) /\
  run3 n V I times fmeas steps (Some prm) None = Ok (((nv, ni, v, i), ratings, fp), saved') /\
  measured adds 0 V I times new f (fun _ => (voltage_magnitude_sd prm / scale)%K) (fun c => (current_magnitude_sd prm / scale * vget ratings c)%K)
      (fun _ => (voltage_phase_sd prm / scale)%K) (fun _ => (current_phase_sd prm / scale)%K) (nv, ni, v, i) /\
  nth_error (map b_id (buses n)) b = Some b /\ ph < 3 /\ counted n b ph p q /\
  vget ratings (3 * b + ph) <> (phase_factor (pmu_safety_factor prm) ph * (p * p + q * q))%K.
Proof.
  destruct C54_ex as (m & saved & E & (new & f & scale & _ & _ & _ & _ & M) & N & C). destruct m as [[[nv ni] v] i].
  exists n54, (data 6), (data 6), three_times, (zq 4), 2, (prm_of false fs), nv, ni, v, i, [zq 0; zq 9; zq 1; zq 16; zq 4; zq 25], 4, saved, 1, 0, (zq 3), (zq 0), new, f, scale.
  split; [exact (data_usable 6)|]. split; [exact N|]. split; [exact E|]. split; [exact M|]. split; [reflexivity|]. split; [lia|]. split; [exact (C 1 0 ltac:(lia))|].
  apply keqb_neq. vm_compute. reflexivity.
Qed.
(** the substation's own entries are found by the number of its load, not of its bus *)
Definition n54b := net_of 2 [load_of 1 0 0] [asym_of 0 (fun _ => 2%Z) (fun _ => 0%Z)] [1].
Theorem C54_substation_entry_refuted : exists n V I times fmeas steps prm m ratings fp saved' b,
  usable times V I (3 * length (buses n)) /\
  run3 n V I times fmeas steps (Some prm) None = Ok ((m, ratings, fp), saved') /\
  nth_error (map b_id (buses n)) b = Some b /\ grids n = [b] /\ (exists i, at_substation n i) /\
  forall ph, ph < 3 -> vget ratings (ph * length (buses n) + b) <> sumn (length (buses n)) (fun j => if j =? b then k0 else vget ratings (ph * length (buses n) + j)).
Proof.
  set (r := run3 n54b (data 6) (data 6) three_times (zq 4) 2 (Some (prm_of false fs)) None).
  assert (E : r = Ok (out_of nothing r)) by (apply okb_ok; vm_compute; reflexivity).
  destruct (out_of nothing r) as [[[m ratings] fp] saved]. unfold r in E. clear r.
  assert (R := ratings3 _ _ _ _ _ _ _ _ _ _ _ _ [zq 4; zq 0; zq 4; zq 0; zq 4; zq 0] E ltac:(apply res_veqb_eq; vm_compute; reflexivity)).
  exists n54b, (data 6), (data 6), three_times, (zq 4), 2, (prm_of false fs), m, ratings, fp, saved, 1.
  split; [exact (data_usable 6)|]. split; [exact E|]. split; [reflexivity|]. split; [reflexivity|].
  split; [exists 0; eexists; split; [reflexivity|left; reflexivity]|].
  intros ph Hp. rewrite R. destruct ph as [|[|[|ph]]]; [..|lia]; apply keqb_neq; vm_compute; reflexivity.
Qed.
(** of two loads of a bus only the last one counts *)
Definition n54c := net_of 1 [] [Asym 0 0 (fun _ => zq 3) (fun _ => zq 0); Asym 1 0 (fun _ => zq 1) (fun _ => zq 0)] [].
Theorem C54_two_loads_refuted : exists n V I times fmeas steps prm m ratings fp saved',
  usable times V I (3 * length (buses n)) /\
  run3 n V I times fmeas steps (Some prm) None = Ok ((m, ratings, fp), saved') /\
  map b_id (buses n) = [0] /\ (forall a, In a (asyms n) -> a_bus a = 0 /\ forall ph, a_q a ph = k0) /\ loads n = [] /\
  forall ph, ph < 3 -> let p := lsum (map (fun a => a_p a ph) (asyms n)) in
    vget ratings ph <> (phase_factor (pmu_safety_factor prm) ph * (p * p))%K.
Proof.
  set (r := run3 n54c (data 3) (data 3) three_times (zq 4) 2 (Some (prm_of false fs)) None).
  assert (E : r = Ok (out_of nothing r)) by (apply okb_ok; vm_compute; reflexivity).
  destruct (out_of nothing r) as [[[m ratings] fp] saved]. unfold r in E. clear r.
  assert (R := ratings3 _ _ _ _ _ _ _ _ _ _ _ _ [zq 1; zq 1; zq 1] E ltac:(apply res_veqb_eq; vm_compute; reflexivity)).
  exists n54c, (data 3), (data 3), three_times, (zq 4), 2, (prm_of false fs), m, ratings, fp, saved.
  split; [exact (data_usable 3)|]. split; [exact E|]. split; [reflexivity|].
  split; [intros a [<-|[<-|[]]]; split; reflexivity|]. split; [reflexivity|].
  intros ph Hp. rewrite R. destruct ph as [|[|[|ph]]]; [..|lia]; apply keqb_neq; vm_compute; reflexivity.
Qed.
Print Assumptions C54_own_phase_refuted.
Print Assumptions C54_substation_entry_refuted.
Print Assumptions C54_two_loads_refuted.

(** ** C55 *)
Example C55_ex : forall e, exists m ratings saved, run53 e = Ok ((m, ratings, 4), saved) /\
  usable three_times (data 3) (data 3) (length (loads n53)) /\ keeps_length adds /\ (root4 (knat 4) * root4 (knat 4) = knat 4)%K.
Proof.
  intro e. destruct (run53_ok e) as (m & saved & E & _). eexists _, _, _. split; [exact E|]. split; [exact (data_usable 3)|].
  split; [exact adds_keeps|]. apply keqb_eq. vm_compute. reflexivity.
Qed.
(** three phases in equivalent mode: 1 is returned although the variance is divided by 4, and reloading returns 4 *)
Theorem C55_three_phases_refuted : exists n V I times fmeas steps prm m ratings fp saved' ratings' fp',
  usable times V I (3 * length (buses n)) /\
  run3 n V I times fmeas steps (Some prm) None = Ok ((m, ratings, fp), saved') /\
  measured_with adds 0 prm V I times fp' ratings m /\
  run3 n V I times fmeas steps None saved' = Ok ((m, ratings', fp'), saved') /\ fp <> fp'.
Proof.
  destruct (run54_ok true) as (m & saved & E & _ & M).
  destruct (C55_reload_three_phases nat roundq root4 adds 0 n54 (data 6) (data 6) (data 6) (data 6) three_times (zq 4) 2 (prm_of true fs) None m _ 1 saved three_times_increasing ltac:(cbn; lia) E) as (r' & E' & _).
  rewrite samples4 in E'.
  exists n54, (data 6), (data 6), three_times, (zq 4), 2, (prm_of true fs), m, [zq 0; zq 9; zq 1; zq 16; zq 4; zq 25], 1, saved, r', 4.
  split; [exact (data_usable 6)|]. split; [exact E|]. split; [exact M|]. split; [exact E'|discriminate].
Qed.
(** reloading with another number of steps gives another factor for the same measurements *)
Theorem C55_changed_steps_refuted : exists n V I times fmeas steps steps' prm m ratings fp fp' ratings' saved',
  usable times V I (length (loads n)) /\
  run1 n V I times fmeas steps (Some prm) None = Ok ((m, ratings, fp), saved') /\
  run1 n V I times fmeas steps' None saved' = Ok ((m, ratings', fp'), saved') /\ fp <> fp'.
Proof.
  destruct (run53_ok false) as (m & saved & E & ->).
  exists n53, (data 3), (data 3), three_times, (zq 4), 2, 4, (prm_of false (zq 2)), m, [zq 50; zq 2; zq 52], 4, 2,
    (grid_ratings n53 (base_ratings (knat 4) n53)), (Some m).
  split; [exact (data_usable 3)|]. split; [exact E|]. split; [|discriminate].
  assert (S : exists ts, sampling roundq three_times (zq 4) 4 = Ok (zq 2, ts, 2)).
  { destruct (sampling roundq three_times (zq 4) 4) as [[[a ts] f]|] eqn:ES; [|vm_compute in ES; discriminate].
    destruct (sampling_ok _ _ _ _ _ _ _ three_times_increasing ltac:(cbn; lia) ES) as (-> & Hts & _ & ->).
    destruct (linspace_ok _ _ _ Hts) as (_ & L & _). exists ts. rewrite L. f_equal. }
  destruct S as (ts & S). unfold add_noise_and_filter. rewrite S. reflexivity.
Qed.
(** reloading gives other ratings unless the factor was 4 *)
Theorem C55_reloaded_ratings_refuted : exists n V I times fmeas steps prm m ratings fp ratings' saved',
  usable times V I (length (loads n)) /\
  run1 n V I times fmeas steps (Some prm) None = Ok ((m, ratings, fp), saved') /\
  run1 n V I times fmeas steps None saved' = Ok ((m, ratings', fp), saved') /\ ratings' <> ratings.
Proof.
  destruct (run53_ok false) as (m & saved & E & Es).
  destruct (C55_reload_one_phase _ _ _ _ _ _ _ _ (data 3) (data 3) _ _ _ _ _ _ _ _ _ E) as (r' & E' & R).
  exists n53, (data 3), (data 3), three_times, (zq 4), 2, (prm_of false (zq 2)), m, [zq 50; zq 2; zq 52], 4, r', saved.
  split; [exact (data_usable 3)|]. split; [exact E|]. split; [exact E'|]. intros ->. specialize (R 0 ltac:(cbn; lia)).
  revert R. apply keqb_neq. vm_compute. reflexivity.
Qed.
Print Assumptions C55_three_phases_refuted.
Print Assumptions C55_changed_steps_refuted.
Print Assumptions C55_reloaded_ratings_refuted.

(** ** C67 *)
(** one week, a value per minute, 50 measurements per second and 10080 steps as in conf/simulation.py *)
Definition week_times : list Qc := mkv (Z.to_nat 10080) (fun i => zq (60 * Z.of_nat i)).
Definition week_data : mat (cplx Qc) := mk (Z.to_nat 10080) 3 (fun _ j => Cx (zq (Z.of_nat j)) (zq 1)).
Lemma week_len : length week_times = Z.to_nat 10080.
Proof. apply length_mkv. Qed.
Lemma zq_lt : forall a b, (a < b)%Z -> zq a <! zq b.
Proof.
  intros a b H. apply klt_spec. intro L. apply Qc_leb_le in L. unfold Qcle, zq in L. cbn [this Q2Qc] in L. rewrite !Qred_correct in L.
  unfold Qle, inject_Z in L. cbn [Qnum Qden] in L. lia.
Qed.
Lemma week_usable : usable week_times week_data week_data 3.
Proof.
  unfold usable. rewrite week_len. split; [|split; [|split; [|split; [|split; [|split]]]]].
  - intros i j Hij Hj. rewrite week_len in Hj. unfold week_times. rewrite !vget_mkv by lia. apply zq_lt. lia.
  - lia.
  - unfold week_times. rewrite vget_mkv by lia. reflexivity.
  - apply nr_mk.
  - apply nr_mk.
  - apply nc_mk.
  - apply nc_mk.
Qed.
Lemma week_samples : samples roundq week_times (zq 50) = Z.to_nat 30237000.
Proof.
  unfold samples. rewrite week_len. unfold week_times. rewrite vget_mkv by lia. apply (f_equal Z.to_nat).
  replace (60 * Z.of_nat (Z.to_nat 10080 - 1))%Z with 604740%Z by lia. vm_compute. reflexivity.
Qed.
Lemma week_div : Z.to_nat 30237000 / Z.to_nat 10080 = Z.to_nat 2999.
Proof. rewrite <- Z2Nat.inj_div by lia. f_equal. Qed.
Lemma week_mod : Z.to_nat 30237000 mod Z.to_nat 10080 = Z.to_nat 7080.
Proof. rewrite <- Z2Nat.inj_mod by lia. f_equal. Qed.
Theorem C67_requested_steps_refuted : forall equivalent, exists n V I times fmeas steps prm nv ni v i ratings fp saved',
  steps = Z.to_nat 10080 /\ fmeas = zq 50 /\ use_equivalent_noise prm = equivalent /\
  usable times V I (length (loads n)) /\
  run1 n V I times fmeas steps (Some prm) None = Ok (((nv, ni, v, i), ratings, fp), saved') /\
  fp = Z.to_nat 2999 /\ nr nv = Z.to_nat 10082 /\ nr v = nr nv /\ nr nv <> steps.
Proof.
  intro e.
  destruct (C67_succeeds nat roundq root4 adds 0 n53 week_data week_data week_times (zq 50) (Z.to_nat 10080) (prm_of e (zq 4)) None
    roundq_rounds adds_works week_usable ltac:(lia) ltac:(rewrite week_samples; lia)) as ([[[[[[nv ni] v] i] ratings] fp] saved] & E).
  destruct (C67_rows nat roundq root4 adds 0 n53 week_data week_data week_times (zq 50) (Z.to_nat 10080) (prm_of e (zq 4)) None nv ni v i ratings fp saved roundq_rounds week_usable adds_keeps E) as (rows & (_ & R1 & _) & _ & (_ & R3 & _) & _ & B).
  assert (Efp : fp = Z.to_nat 2999).
  { pose proof E as E2. apply run_inv in E2. destruct E2 as (_ & last & ts & HS & _). destruct week_usable as (Hi & HL & _).
    destruct (sampling_ok _ _ _ _ _ _ _ Hi HL HS) as (-> & Hts & _ & ->). destruct (linspace_ok _ _ _ Hts) as (_ & -> & _).
    fold (samples roundq week_times (zq 50)). rewrite week_samples. apply week_div. }
  rewrite week_samples, Efp in B. unfold row_bounds in B. cbn [use_equivalent_noise prm_of] in B.
  assert (Er : rows = Z.to_nat 10082).
  { destruct B as [B1 B2]. destruct e.
    - destruct B2 as [B2 B3]. lia.
    - rewrite B2, week_mod. rewrite <- Z2Nat.inj_div by lia. rewrite <- Z2Nat.inj_add by (try apply Z.div_pos; lia). f_equal. }
  exists n53, week_data, week_data, week_times, (zq 50), (Z.to_nat 10080), (prm_of e (zq 4)), nv, ni, v, i, ratings, fp, saved.
  split; [reflexivity|]. split; [reflexivity|]. split; [reflexivity|]. split; [exact week_usable|]. split; [exact E|]. split; [exact Efp|].
  rewrite R1, R3, Er. split; [reflexivity|]. split; [reflexivity|]. lia.
Qed.
Print Assumptions C67_requested_steps_refuted.
Example C67_ex : forall e, rounds roundq /\ never_fails adds /\ keeps_length adds /\ usable three_times (data 3) (data 3) (length (loads n53)) /\
  2 <= samples roundq three_times (zq 4) /\ exists m ratings saved, run53 e = Ok ((m, ratings, 4), saved).
Proof.
  intro e. destruct (run53_ok e) as (m & saved & E & _). split; [exact roundq_rounds|]. split; [exact adds_works|]. split; [exact adds_keeps|].
  split; [exact (data_usable 3)|]. split; [vm_compute; lia|]. eauto.
Qed.
