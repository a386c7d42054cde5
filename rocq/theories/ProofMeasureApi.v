(** Proofs about [add_noise_and_filter]. *)
From Coq Require Import Bool Arith List ZArith Lia Ring Field.
From Verif Require Import BasePy BaseFld BaseOrd BaseSum BaseMat BaseLin BaseNumpy ModelNet ModelResample ModelLoads ModelMeasure
  SpecResample SpecLoads SpecMeasure ProofResample ProofLoads ProofLoadsSmall ProofMeasure ProofMeasure3 ProofMeasureMain.
Import ListNotations.
Local Open Scope K_scope.

Section Api.
Context {K : Type} {O : Ops K} {F : Fld K} {O2 : OrdOps K} {OF : OrdFld K}.
Add Field Kfld : (@k_field K O F).
Notation CK := (cplx K).
Context (rnd : K -> Z) (root : K -> K).
Context {St : Type} (noise : @noise_fun K St K) (seeded : St).
Notation run := (add_noise_and_filter rnd root noise seeded).
Notation run3 := (add_noise_and_filter_3ph rnd root noise seeded).

Lemma run_inv : forall n V I times fmeas steps prm saved m ratings fp saved',
  run n V I times fmeas steps prm saved = Ok ((m, ratings, fp), saved') ->
  ratings = grid_ratings n (base_ratings (match prm with Some p => pmu_safety_factor p | None => knat 4 end) n) /\
  exists last ts, sampling rnd times fmeas steps = Ok (last, ts, fp) /\
    match prm with
    | Some p => saved' = Some m /\ exists f, measure rnd root noise seeded p ratings V I times last ts fmeas fp = Ok (m, f)
    | None => saved = Some m /\ saved' = saved
    end.
Proof.
  intros n V I times fmeas steps prm saved m ratings fp saved' H. unfold add_noise_and_filter in H. cbv zeta in H.
  apply bind_ok in H. destruct H as ([[last ts] fp0] & HS & H). destruct prm as [p|].
  - apply bind_ok in H. destruct H as ([m0 f] & HM & H). injection H as <- <- <- <-. split; [reflexivity|].
    exists last, ts. split; [exact HS|]. split; [reflexivity|]. exists f. exact HM.
  - destruct saved as [m0|]; [|discriminate]. injection H as <- <- <- <-. split; [reflexivity|]. exists last, ts. auto.
Qed.
Lemma run3_inv : forall n V I times fmeas steps prm saved m ratings fp saved',
  run3 n V I times fmeas steps prm saved = Ok ((m, ratings, fp), saved') ->
  (exists base mr, base_ratings_3ph (match prm with Some p => pmu_safety_factor p | None => [knat 4; knat 4; knat 4] end) n = Ok base /\
     grid_ratings_3ph n base = Ok mr /\ ratings = flat mr) /\
  exists last ts g, sampling rnd times fmeas steps = Ok (last, ts, g) /\
    match prm with
    | Some p => saved' = Some m /\ measure rnd root noise seeded p ratings V I times last ts fmeas g = Ok (m, fp)
    | None => saved = Some m /\ saved' = saved /\ fp = g
    end.
Proof.
  intros n V I times fmeas steps prm saved m ratings fp saved' H. unfold add_noise_and_filter_3ph in H. cbv zeta in H.
  apply bind_ok in H. destruct H as (base & HB & H). apply bind_ok in H. destruct H as (mr & HR & H).
  apply bind_ok in H. destruct H as ([[last ts] g] & HS & H). destruct prm as [p|].
  - apply bind_ok in H. destruct H as ([m0 f] & HM & H). injection H as <- <- <- <-.
    split; [exists base, mr; auto|]. exists last, ts, g. auto.
  - destruct saved as [m0|]; [|discriminate]. injection H as <- <- <- <-. split; [exists base, mr; auto|]. exists last, ts, g. auto.
Qed.

Lemma measure_with : forall P (prm : @noise_params K P) ratings V I times fmeas steps last ts g m f,
  usable times V I (length ratings) -> keeps_length noise ->
  sampling rnd times fmeas steps = Ok (last, ts, g) ->
  (use_equivalent_noise prm = true -> root (knat g) * root (knat g) = knat g) ->
  measure rnd root noise seeded prm ratings V I times last ts fmeas g = Ok (m, f) ->
  (0 < g)%nat /\ g = (samples rnd times fmeas / steps)%nat /\ f = (if use_equivalent_noise prm then 1 else g)%nat /\
  measured_with noise seeded prm V I times g ratings m.
Proof.
  intros P prm ratings V I times fmeas steps last ts g m f (Hi & HL & H0 & HV & HI & HnV & HnI) Hlen HS Hroot HM.
  destruct (sampling_ok _ _ _ _ _ _ _ Hi HL HS) as (Hlast & Hts & Hsteps & Hg).
  destruct (p_measure rnd root noise seeded P prm ratings V I times last ts fmeas g m f Hi HL H0 Hlast Hts HV HI HnV HnI Hlen HM) as (new & scale & Hf & Hu & Hsp & HR).
  assert (Lts : length ts = samples rnd times fmeas) by (unfold samples; rewrite <- Hlast; apply (linspace_ok _ _ _ Hts)).
  rewrite Lts in Hg. unfold used in Hu.
  assert (Hg0 : (0 < g)%nat /\ f = (if use_equivalent_noise prm then 1 else g)%nat /\ knat f * (scale * scale) = knat g /\
    (if use_equivalent_noise prm then f = 1%nat else scale = 1)).
  { destruct (use_equivalent_noise prm).
    - destruct Hu as (A & _ & -> & ->). split; [lia|]. split; [reflexivity|]. split; [|reflexivity]. rewrite Hroot by auto. cbn [knat]. ring.
    - destruct Hu as (_ & <- & ->). split; [auto|]. split; [reflexivity|]. split; [ring|reflexivity]. }
  destruct Hg0 as (G1 & G2 & G3 & G4). split; [exact G1|]. split; [exact Hg|]. split; [exact G2|].
  exists new, f, scale. rewrite <- Hlast. repeat (split; [assumption|]). assumption.
Qed.

Theorem p_one_phase : forall n V I times fmeas steps prm saved m ratings fp saved',
  usable times V I (length (loads n)) -> keeps_length noise ->
  (use_equivalent_noise prm = true -> root (knat fp) * root (knat fp) = knat fp) ->
  run n V I times fmeas steps (Some prm) saved = Ok ((m, ratings, fp), saved') ->
  saved' = Some m /\ (0 < fp)%nat /\ fp = (samples rnd times fmeas / steps)%nat /\ measured_with noise seeded prm V I times fp ratings m.
Proof.
  intros n V I times fmeas steps prm saved m ratings fp saved' HU Hlen Hroot H.
  apply run_inv in H. destruct H as (Er & last & ts & HS & Hs & f & HM).
  assert (Lr : length ratings = length (loads n)) by (subst ratings; apply p_ratings).
  rewrite <- Lr in HU. destruct (measure_with _ _ _ _ _ _ _ _ _ _ _ _ _ HU Hlen HS Hroot HM) as (A & B & _ & D). auto.
Qed.
Theorem p_three_phases : forall n V I times fmeas steps prm saved m ratings fp saved', let g := (samples rnd times fmeas / steps)%nat in
  usable times V I (3 * length (buses n)) -> keeps_length noise ->
  (use_equivalent_noise prm = true -> root (knat g) * root (knat g) = knat g) ->
  run3 n V I times fmeas steps (Some prm) saved = Ok ((m, ratings, fp), saved') ->
  saved' = Some m /\ (0 < g)%nat /\ fp = (if use_equivalent_noise prm then 1 else g)%nat /\ measured_with noise seeded prm V I times g ratings m.
Proof.
  intros n V I times fmeas steps prm saved m ratings fp saved' g HU Hlen Hroot H.
  apply run3_inv in H. destruct H as ((base & mr & HB & HR & Er) & last & ts & g' & HS & Hs & HM).
  assert (Lr : length ratings = (3 * length (buses n))%nat) by (subst ratings; apply (p_ratings_3ph _ _ _ _ HB HR)).
  rewrite <- Lr in HU.
  assert (Eg : g' = g).
  { destruct HU as (Hi & HL & _). destruct (sampling_ok _ _ _ _ _ _ _ Hi HL HS) as (Hlast & Hts & _ & ->).
    unfold g, samples. rewrite <- Hlast. f_equal. apply (linspace_ok _ _ _ Hts). }
  rewrite Eg in *. destruct (measure_with _ _ _ _ _ _ _ _ _ _ _ _ _ HU Hlen HS Hroot HM) as (A & _ & C & D). auto.
Qed.

(** ** Reloading *)
Lemma ratings_scale : forall n (a b : K) i, (i < length (loads n))%nat ->
  a * vget (grid_ratings n (base_ratings b n)) i = b * vget (grid_ratings n (base_ratings a n)) i.
Proof.
  intros n a b i. pattern i. apply (well_founded_induction lt_wf). clear i. intros i IH Hi.
  destruct (nth_error (loads n) i) as [l|] eqn:E; [|apply nth_error_None in E; lia].
  destruct (p_ratings a n) as [_ Ha]. destruct (p_ratings b n) as [_ Hb].
  destruct (flagged n i) eqn:Ef.
  - apply flagged_spec in Ef. rewrite (proj2 (Ha i l E) Ef), (proj2 (Hb i l E) Ef).
    assert (S1 : a * sumn i (vget (grid_ratings n (base_ratings b n))) = b * sumn i (vget (grid_ratings n (base_ratings a n)))).
    { rewrite <- !sumn_scal_l. apply sumn_ext. intros j Hj. apply IH; lia. }
    assert (S2 : forall ls : list (@load_row K), a * lsum (map (fun l => b * (l_p l * l_p l + l_q l * l_q l)) ls) = b * lsum (map (fun l => a * (l_p l * l_p l + l_q l * l_q l)) ls)).
    { induction ls as [|a0 ls IHls]; cbn [map lsum]; [ring|]. transitivity (a * (b * (l_p a0 * l_p a0 + l_q a0 * l_q a0)) + a * lsum (map (fun l => b * (l_p l * l_p l + l_q l * l_q l)) ls)); [ring|]. rewrite IHls. ring. }
    transitivity (a * sumn i (vget (grid_ratings n (base_ratings b n))) + a * lsum (map (fun l => b * (l_p l * l_p l + l_q l * l_q l)) (skipn i (loads n)))); [ring|].
    rewrite S1, S2. ring.
  - assert (N : ~ at_substation n i) by (intro A; apply flagged_spec in A; congruence).
    rewrite (proj1 (Ha i l E) N), (proj1 (Hb i l E) N). ring.
Qed.
Theorem p_reload : forall n V I V' I' times fmeas steps prm saved m ratings fp saved',
  run n V I times fmeas steps (Some prm) saved = Ok ((m, ratings, fp), saved') ->
  exists ratings', run n V' I' times fmeas steps None saved' = Ok ((m, ratings', fp), saved') /\
    forall i, (i < length (loads n))%nat -> pmu_safety_factor prm * vget ratings' i = knat 4 * vget ratings i.
Proof.
  intros n V I V' I' times fmeas steps prm saved m ratings fp saved' H.
  apply run_inv in H. destruct H as (Er & last & ts & HS & -> & _).
  exists (grid_ratings n (base_ratings (knat 4) n)). split; [unfold add_noise_and_filter; rewrite HS; reflexivity|].
  intros i Hi. rewrite Er. apply ratings_scale. auto.
Qed.
Theorem p_reload_3ph : forall n V I V' I' times fmeas steps prm saved m ratings fp saved', let g := (samples rnd times fmeas / steps)%nat in
  increasing times -> (2 <= length times)%nat ->
  run3 n V I times fmeas steps (Some prm) saved = Ok ((m, ratings, fp), saved') ->
  exists ratings', run3 n V' I' times fmeas steps None saved' = Ok ((m, ratings', g), saved') /\
    (pmu_safety_factor prm = [knat 4; knat 4; knat 4] -> ratings' = ratings).
Proof.
  intros n V I V' I' times fmeas steps prm saved m ratings fp saved' g Hi HL H.
  apply run3_inv in H. destruct H as ((base & mr & HB & HR & Er) & last & ts & g' & HS & -> & _).
  assert (Eg : g' = g).
  { destruct (sampling_ok _ _ _ _ _ _ _ Hi HL HS) as (Hlast & Hts & _ & ->).
    unfold g, samples. rewrite <- Hlast. f_equal. apply (linspace_ok _ _ _ Hts). }
  unfold add_noise_and_filter_3ph.
  destruct (base_ratings_3ph [knat 4; knat 4; knat 4] n) as [b4|] eqn:E4; [|discriminate]. cbn [bind].
  assert (G : exists m4, grid_ratings_3ph n b4 = Ok m4).
  { apply base_ratings_3ph_eq in HB. apply base_ratings_3ph_eq in E4.
    apply grid_ratings_3ph_ok. rewrite E4, nc_mk.
    destruct (grid_ratings_3ph_eq n base mr) as [_ G]; [subst; apply wf_mk|exact HR|]. rewrite HB, nc_mk in G. exact G. }
  destruct G as (m4 & G). rewrite G. cbn [bind]. rewrite HS. cbn [bind]. rewrite Eg. exists (flat m4). split; [reflexivity|].
  intro Ef. rewrite Ef, E4 in HB. injection HB as <-. rewrite G in HR. injection HR as <-. auto.
Qed.
End Api.
