(** Proofs about the number of rows of simulated measurements, and when [add_noise_and_filter] succeeds. *)
From Coq Require Import Bool Arith List ZArith Lia Ring Field.
From Verif Require Import BasePy BaseFld BaseOrd BaseSum BaseMat BaseLin BaseNumpy ModelNet ModelResample ModelLoads ModelMeasure
  SpecResample SpecLoads SpecMeasure ProofResample ProofLoads ProofLoadsSmall ProofMeasure ProofMeasure3 ProofMeasureMain ProofMeasureApi.
Import ListNotations.
Local Open Scope K_scope.

Lemma rows_exact : forall S steps, (0 < steps)%nat -> (0 < S / steps)%nat -> (S / (S / steps) = steps + S mod steps / (S / steps))%nat.
Proof.
  intros S steps Hs Hg. set (g := (S / steps)%nat) in *. rewrite (Nat.div_mod S steps) at 1 by lia. fold g.
  rewrite Nat.add_comm, Nat.div_add by lia. lia.
Qed.

Section Rows.
Context {K : Type} {O : Ops K} {F : Fld K} {O2 : OrdOps K} {OF : OrdFld K}.
Add Field Kfld : (@k_field K O F).
Notation CK := (cplx K).
Context (rnd : K -> Z) (root : K -> K).
Context {St : Type} (noise : @noise_fun K St K) (seeded : St).
Notation run := (add_noise_and_filter rnd root noise seeded).
Notation run3 := (add_noise_and_filter_3ph rnd root noise seeded).

Lemma knat_le_inv : forall a b, (knat a : K) <=! knat b -> (a <= b)%nat.
Proof. intros a b H. destruct (le_lt_dec a b); [auto|]. apply (knat_lt (K := K)) in l. apply klt_spec in l. contradiction. Qed.
Lemma nearest_nat : forall (x : K) n, nearest x (Z.of_nat n) -> knat 2 * (x - knat n) <=! 1 /\ knat 2 * (knat n - x) <=! 1.
Proof.
  intros x n [H _]. rewrite ofZ_nat in H.
  assert (P : 0 <! (knat 2 : K)) by (apply knat_pos; lia).
  unfold kabs in H. destruct (kle_dec 0 (x - knat n)) as [L|L].
  - unfold kle in L. rewrite L in H. split; [exact H|]. apply kle_trans with 0; [|apply kle_01].
    apply kle_sub. replace (0 - knat 2 * (knat n - x)) with (knat 2 * (x - knat n)) by ring. apply kle_mul; [apply klt_le|]; auto.
  - assert (L' := L). apply klt_spec in L'. unfold kle in L'. destruct (kleb 0 (x - knat n)); [congruence|].
    replace (- (x - knat n)) with (knat n - x) in H by ring. split; [|exact H]. apply kle_trans with 0; [|apply kle_01].
    apply kle_sub. replace (0 - knat 2 * (x - knat n)) with (knat 2 * (0 - (x - knat n))) by ring.
    apply kle_mul; [apply klt_le; auto|]. apply kle_sub. replace (0 - (x - knat n) - 0) with (0 - (x - knat n)) by ring. apply (proj1 (kle_sub _ _)). apply klt_le. auto.
Qed.

Lemma rows_equivalent : forall (x : K) S g z, (0 < g)%nat -> nearest x (Z.of_nat S) -> nearest (x / knat g) (Z.of_nat z) ->
  (2 * S <= 2 * (z * g) + g + 1)%nat /\ (2 * (z * g) <= 2 * S + g + 1)%nat.
Proof.
  intros x S g z Hg HS Hz. destruct (nearest_nat _ _ HS) as [A B]. destruct (nearest_nat _ _ Hz) as [C D].
  assert (P : 0 <! (knat g : K)) by (apply knat_pos; auto). assert (N := klt_neq _ P).
  apply (kle_mul_l (knat g)) in C; [|apply klt_le; auto]. apply (kle_mul_l (knat g)) in D; [|apply klt_le; auto].
  replace (knat g * (knat 2 * (x / knat g - knat z))) with (knat 2 * (x - knat z * knat g)) in C by (field; auto).
  replace (knat g * (knat 2 * (knat z - x / knat g))) with (knat 2 * (knat z * knat g - x)) in D by (field; auto).
  pose proof (kle_add2 _ _ _ _ B C) as E1. pose proof (kle_add2 _ _ _ _ A D) as E2.
  assert (T : (1 : K) = knat 1) by (cbn [knat]; ring).
  split; apply knat_le_inv.
  - apply (kle_add _ _ (knat 2 * (knat z * knat g))) in E1.
    rewrite !knat_add, !knat_mul.
    replace (knat 2 * (knat S - x) + knat 2 * (x - knat z * knat g) + knat 2 * (knat z * knat g)) with (knat 2 * knat S : K) in E1 by ring.
    rewrite <- T. replace (knat 2 * (knat z * knat g) + knat g + 1) with (1 + knat g * 1 + knat 2 * (knat z * knat g)) by ring. exact E1.
  - apply (kle_add _ _ (knat 2 * knat S)) in E2. rewrite !knat_add, !knat_mul.
    replace (knat 2 * (x - knat S) + knat 2 * (knat z * knat g - x) + knat 2 * knat S) with (knat 2 * (knat z * knat g) : K) in E2 by ring.
    rewrite <- T. replace (knat 2 * knat S + knat g + 1) with (1 + knat g * 1 + knat 2 * knat S) by ring. exact E2.
Qed.

Lemma measure_rows : forall P (prm : @noise_params K P) ratings V I times fmeas steps last ts g r f,
  rounds rnd -> usable times V I (length ratings) -> keeps_length noise ->
  sampling rnd times fmeas steps = Ok (last, ts, g) ->
  measure rnd root noise seeded prm ratings V I times last ts fmeas g = Ok (r, f) ->
  let '(nv, ni, v, i) := r in exists rows, shape nv rows (length ratings) /\ shape ni rows (length ratings) /\
    shape v rows (length ratings) /\ shape i rows (length ratings) /\
    row_bounds (use_equivalent_noise prm) (samples rnd times fmeas) steps g rows.
Proof.
  intros P prm ratings V I times fmeas steps last ts g r f Hrnd (Hi & HL & H0 & HV & HI & HnV & HnI) Hlen HS HM.
  destruct (sampling_ok _ _ _ _ _ _ _ Hi HL HS) as (Hlast & Hts & Hsteps & Hg).
  destruct (p_measure rnd root noise seeded P prm ratings V I times last ts fmeas g r f Hi HL H0 Hlast Hts HV HI HnV HnI Hlen HM) as (new & scale & Hf & Hu & Hsp & HR).
  destruct (linspace_ok _ _ _ Hts) as (Hpos & Lts & _).
  destruct r as [[[nv ni] v] i]. cbn [measured] in HR. rewrite HnV in HR. destruct HR as (S1 & S2 & [S3 _] & [S4 _] & _).
  rewrite HnV in S3. rewrite HnI in S4. exists (length new / f)%nat. repeat (split; [assumption|]).
  assert (Es : samples rnd times fmeas = length ts) by (unfold samples; rewrite <- Hlast; auto).
  rewrite Es. set (S := length ts) in *. unfold used in Hu. unfold row_bounds. destruct (use_equivalent_noise prm).
  - destruct Hu as (Hg0 & Hnew & -> & _). destruct (linspace_ok _ _ _ Hnew) as (Hz & Lnew & _).
    rewrite Nat.div_1_r, Lnew. set (z := Z.to_nat (rnd (last * fmeas / knat g))) in *.
    assert (N1 : nearest (last * fmeas) (Z.of_nat S)) by (rewrite Lts, Z2Nat.id by lia; apply Hrnd).
    assert (N2 : nearest (last * fmeas / knat g) (Z.of_nat z)) by (unfold z; rewrite Z2Nat.id by lia; apply Hrnd).
    assert (Hg1 : (0 < g)%nat) by lia. destruct (rows_equivalent _ _ _ _ Hg1 N1 N2) as [A B].
    pose proof (Nat.div_mod S steps ltac:(lia)) as DM. rewrite <- Hg in DM.
    assert (Hzs : (steps <= z)%nat).
    { destruct (Nat.eq_dec g 1) as [E1|E1].
      - assert (z = S).
        { unfold z. rewrite Lts. f_equal. f_equal. rewrite E1. cbn [knat]. replace (0 + 1 : K) with (1 : K) by ring. try (replace (1 + 0 : K) with (1 : K) by ring). apply kdiv1. }
        nia.
      - destruct (le_lt_dec steps z); [auto|]. exfalso. pose proof (Nat.mul_le_mono_r (z + 1) steps g ltac:(lia)). nia. }
    split; [exact Hzs|]. auto.
  - destruct Hu as (-> & -> & _). fold S. rewrite Hg. rewrite rows_exact by lia. split; [lia|reflexivity].
Qed.

Theorem p_rows : forall n V I times fmeas steps prm saved nv ni v i ratings fp saved',
  rounds rnd -> usable times V I (length (loads n)) -> keeps_length noise ->
  run n V I times fmeas steps (Some prm) saved = Ok (((nv, ni, v, i), ratings, fp), saved') ->
  exists rows, shape nv rows (length (loads n)) /\ shape ni rows (length (loads n)) /\
    shape v rows (length (loads n)) /\ shape i rows (length (loads n)) /\
    row_bounds (use_equivalent_noise prm) (samples rnd times fmeas) steps fp rows.
Proof.
  intros n V I times fmeas steps prm saved nv ni v i ratings fp saved' Hr HU Hlen H.
  apply run_inv in H. destruct H as (Er & last & ts & HS & _ & f & HM).
  assert (Lr : length ratings = length (loads n)) by (subst ratings; apply p_ratings).
  rewrite <- Lr in HU |- *. exact (measure_rows _ _ _ _ _ _ _ _ _ _ _ _ _ Hr HU Hlen HS HM).
Qed.
Theorem p_rows_3ph : forall n V I times fmeas steps prm saved nv ni v i ratings fp saved',
  rounds rnd -> usable times V I (3 * length (buses n)) -> keeps_length noise ->
  run3 n V I times fmeas steps (Some prm) saved = Ok (((nv, ni, v, i), ratings, fp), saved') ->
  exists rows, shape nv rows (3 * length (buses n)) /\ shape ni rows (3 * length (buses n)) /\
    shape v rows (3 * length (buses n)) /\ shape i rows (3 * length (buses n)) /\
    row_bounds (use_equivalent_noise prm) (samples rnd times fmeas) steps (samples rnd times fmeas / steps) rows.
Proof.
  intros n V I times fmeas steps prm saved nv ni v i ratings fp saved' Hr HU Hlen H.
  apply run3_inv in H. destruct H as ((base & mr & HB & HR & Er) & last & ts & g' & HS & Hs & HM).
  assert (Lr : length ratings = (3 * length (buses n))%nat) by (subst ratings; apply (p_ratings_3ph _ _ _ _ HB HR)).
  rewrite <- Lr in HU |- *.
  assert (Eg : g' = (samples rnd times fmeas / steps)%nat).
  { destruct HU as (Hi & HL & _). destruct (sampling_ok _ _ _ _ _ _ _ Hi HL HS) as (Hlast & Hts & _ & ->).
    unfold samples. rewrite <- Hlast. f_equal. apply (linspace_ok _ _ _ Hts). }
  rewrite <- Eg. exact (measure_rows _ _ _ _ _ _ _ _ _ _ _ _ _ Hr HU Hlen HS HM).
Qed.

(** ** Success *)
Lemma columns_total : forall M old new steps f sm sp m p n, never_fails noise -> given n sm m -> given n sp p -> increasing old -> (2 <= length old)%nat ->
  nr M = length old -> within old new -> forall cols s, (forall c, In c cols -> (c < n)%nat) ->
  exists r s', resample_columns M old new steps f (Some noise) (Some sm) (Some sp) cols s = Ok (r, s').
Proof.
  intros M old new steps f sm sp m p n Hn Hm Hp Hi HL HM Hw. induction cols as [|c cols IH]; intros s Hc.
  - exists [], s. reflexivity.
  - cbn [resample_columns]. rewrite interp1d_ok; [|auto|auto|unfold mcol; rewrite length_mkv; auto|auto]. cbn [bind].
    cbn [add_noise]. rewrite (std_given _ _ _ _ Hm) by (apply Hc; left; auto). rewrite (std_given _ _ _ _ Hp) by (apply Hc; left; auto). cbn [bind].
    destruct (Hn (map (interp_at old (mcol M c)) new) (m c) (p c) s) as (w & s' & ->). cbn [bind].
    destruct (IH s') as (r & s2 & E); [intros; apply Hc; right; auto|]. rewrite E. cbn [bind]. eauto.
Qed.
Lemma halves_total : forall (m : mat CK) n, nc m = (n + n)%nat -> exists a b, halves m = Ok (a, b).
Proof.
  intros m n E. unfold halves. rewrite E. replace (n + n)%nat with (n * 2)%nat by lia. rewrite Nat.mod_mul by lia. cbn. eauto.
Qed.
Lemma measure_total : forall P (prm : @noise_params K P) ratings V I times fmeas last ts g,
  rounds rnd -> never_fails noise -> usable times V I (length ratings) -> last = vget times (length times - 1) ->
  linspace last (rnd (last * fmeas)) = Ok ts -> (0 < g)%nat -> 0 <=! last * fmeas ->
  exists r f, measure rnd root noise seeded prm ratings V I times last ts fmeas g = Ok (r, f).
Proof.
  intros P prm ratings V I times fmeas last ts g Hrnd Hn (Hi & HL & H0 & HV & HI & HnV & HnI) Hlast Hts Hg Hpos.
  unfold measure.
  match goal with |- exists _ _, bind ?e _ = _ => assert (G : exists new vm im vp ip f, e = Ok (new, vm, im, vp, ip, f)
    /\ (0 < f)%nat /\ exists z, linspace last z = Ok new) end.
  { destruct (use_equivalent_noise prm).
    - unfold equivalent_times. destruct (Nat.eqb_spec g 0); [lia|].
      destruct (linspace last (rnd (last * fmeas / knat g))) as [new|] eqn:E.
      + cbn [bind]. do 6 eexists. split; [reflexivity|]. split; [lia|eauto].
      + exfalso. unfold linspace in E. destruct (Z.ltb_spec (rnd (last * fmeas / knat g)) 0); [|discriminate].
        pose proof (nearest_nonneg _ _ (Hrnd (last * fmeas / knat g)) (kle_div _ _ Hpos (knat_pos _ Hg))). lia.
    - do 6 eexists. split; [reflexivity|]. split; [auto|eauto]. }
  destruct G as (new & vm & im & vp & ip & f & E & Hf & z & Hz). rewrite E. cbn [bind]. clear E.
  destruct (linspace_ok _ _ _ Hz) as (_ & _ & _ & Hb).
  assert (Hw : within times new).
  { intros w Hw. rewrite H0, <- Hlast. apply Hb; auto. rewrite Hlast. apply klt_le. apply last_pos; auto. }
  unfold side_by_side. rewrite HV, HI, Nat.eqb_refl. cbn [bind]. set (both := mk _ _ _).
  set (n := length ratings) in *.
  assert (Hnb : nc both = (n + n)%nat) by (unfold both; rewrite nc_mk; lia).
  assert (Hrb : nr both = length times) by (unfold both; apply nr_mk).
  destruct (given_voltage_then_current vm vp n ratings im ip eq_refl) as [Gm Gp].
  unfold filter_and_resample_measurement at 1. destruct (Nat.eqb_spec f 0); [lia|].
  destruct (columns_total both times new (length new / f) f _ _ _ _ _ Hn Gm Gp Hi HL Hrb Hw (range (nc both)) seeded) as (r & s' & ->).
  { intros c Hc. apply in_range in Hc. lia. }
  cbn [bind]. set (noisy := mk _ (nc both) _). destruct (halves_total noisy n) as (nv & ni & ->); [unfold noisy; rewrite nc_mk; auto|]. cbn [bind].
  destruct (p_resample (D := K) both times new f None None None s') as (clean & -> & [[_ [_ Cc]] _]); [left; reflexivity|auto..].
  cbn [bind]. destruct (halves_total clean n) as (v & i & ->); [lia|]. cbn [bind]. eauto.
Qed.

Lemma sampling_total : forall times fmeas steps, rounds rnd -> increasing times -> (2 <= length times)%nat -> (0 < steps)%nat -> (steps <= samples rnd times fmeas)%nat ->
  exists ts, let last := vget times (length times - 1) in sampling rnd times fmeas steps = Ok (last, ts, (samples rnd times fmeas / steps)%nat) /\
    linspace last (rnd (last * fmeas)) = Ok ts /\ 0 <=! last * fmeas /\ (0 < samples rnd times fmeas / steps)%nat.
Proof.
  intros times fmeas steps Hrnd Hi HL Hs HS. unfold sampling. rewrite np_max_increasing by auto. cbn [bind]. cbv zeta.
  set (last := vget times (length times - 1)) in *.
  assert (Hz : (0 < rnd (last * fmeas)%K)%Z) by (unfold samples in HS; fold last in HS; lia).
  destruct (linspace last (rnd (last * fmeas))) as [ts|] eqn:E.
  - exists ts. cbn [bind]. destruct (Nat.eqb_spec steps 0); [lia|]. destruct (linspace_ok _ _ _ E) as (_ & L & _).
    replace (length ts) with (samples rnd times fmeas) by (unfold samples; fold last; auto). split; [reflexivity|]. split; [reflexivity|]. split.
    + destruct (kle_dec 0 (last * fmeas)) as [A|A]; [exact A|exfalso].
      destruct (nearest_nat (last * fmeas) (Z.to_nat (rnd (last * fmeas)))) as [_ B]; [rewrite Z2Nat.id by lia; apply Hrnd|].
      assert (C : (knat 1 : K) <=! knat (Z.to_nat (rnd (last * fmeas)))) by (apply knat_le; lia).
      assert (T : (1 : K) = knat 1) by (cbn [knat]; ring). rewrite <- T in C.
      (* 2 <= 2 S <= 1 + 2 x < 1 *)
      apply (kle_mul_l (knat 2)) in C; [|apply knat_nonneg].
      apply (kle_add _ _ (knat 2 * (last * fmeas))) in B.
      replace (knat 2 * (knat (Z.to_nat (rnd (last * fmeas))) - last * fmeas) + knat 2 * (last * fmeas)) with (knat 2 * knat (Z.to_nat (rnd (last * fmeas))) : K) in B by ring.
      pose proof (kle_trans _ _ _ C B) as D.
      assert (N : knat 2 * (last * fmeas) <=! 0).
      { apply kle_sub. replace (0 - knat 2 * (last * fmeas)) with (knat 2 * (0 - last * fmeas)) by ring. apply kle_mul; [apply knat_nonneg|]. apply (proj1 (kle_sub _ _)). apply klt_le. auto. }
      apply (kle_add _ _ 1) in N. replace (knat 2 * (last * fmeas) + 1) with (1 + knat 2 * (last * fmeas)) in N by ring.
      pose proof (kle_trans _ _ _ D N) as Q. cbn [knat] in Q. apply (proj1 (kle_sub _ _)) in Q.
      pose proof klt_01 as Z1. apply klt_spec in Z1. apply Z1. apply kle_sub.
      match type of Q with _ <=! ?q => replace (0 - 1 : K) with q by ring end. exact Q.
    + apply Nat.div_str_pos. lia.
  - exfalso. unfold linspace in E. destruct (Z.ltb_spec (rnd (last * fmeas)) 0); [lia|discriminate].
Qed.

Theorem p_succeeds : forall n V I times fmeas steps prm saved, rounds rnd -> never_fails noise ->
  usable times V I (length (loads n)) -> (0 < steps)%nat -> (steps <= samples rnd times fmeas)%nat ->
  exists r, run n V I times fmeas steps (Some prm) saved = Ok r.
Proof.
  intros n V I times fmeas steps prm saved Hrnd Hn HU Hs HS. pose proof HU as (Hi & HL & _).
  destruct (sampling_total times fmeas steps Hrnd Hi HL Hs HS) as (ts & E & Hts & Hp & Hg).
  unfold add_noise_and_filter. rewrite E. cbn [bind].
  set (ratings := grid_ratings n _). assert (Lr : length ratings = length (loads n)) by apply p_ratings.
  rewrite <- Lr in HU. destruct (measure_total _ prm ratings V I times fmeas _ ts _ Hrnd Hn HU eq_refl Hts Hg Hp) as (r & f & ->). cbn [bind]. eauto.
Qed.
End Rows.
