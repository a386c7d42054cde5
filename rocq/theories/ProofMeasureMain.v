(** Proofs about simulated measurements: sampling, noise levels, averaging factor, number of rows. *)
From Coq Require Import Bool Arith List ZArith Lia Ring Field.
From Verif Require Import BasePy BaseFld BaseOrd BaseSum BaseMat BaseLin BaseNumpy ModelNet ModelResample ModelLoads ModelMeasure
  SpecResample SpecLoads SpecMeasure ProofResample ProofLoads ProofLoadsSmall ProofMeasure ProofMeasure3.
Import ListNotations.
Local Open Scope K_scope.

Section Sampling.
Context {K : Type} {O : Ops K} {F : Fld K} {O2 : OrdOps K} {OF : OrdFld K}.
Add Field Kfld : (@k_field K O F).
Notation CK := (cplx K).

Lemma np_max_snoc : forall (l : list K) x, l <> [] -> (forall y, In y l -> y <! x) -> np_max (l ++ [x]) = Ok x.
Proof.
  intros [|a l] x H Hx; [congruence|]. cbn [app np_max]. rewrite fold_left_app. cbn [fold_left].
  assert (G : forall m l, m <! x -> (forall y, In y l -> y <! x) -> fold_left (fun m y => if kltb m y then y else m) l m <! x).
  { clear. intros m l. revert m. induction l; intros m Hm Hl; cbn [fold_left]; [auto|]. apply IHl; [|intros; apply Hl; right; auto].
    destruct (kltb m a); [apply Hl; left|]; auto. }
  assert (Q : fold_left (fun m y => if kltb m y then y else m) l a <! x) by (apply G; [apply Hx; left; auto|intros; apply Hx; right; auto]).
  unfold klt in Q. rewrite Q. reflexivity.
Qed.
Lemma np_max_increasing : forall times : list K, increasing times -> (2 <= length times)%nat -> np_max times = Ok (vget times (length times - 1)).
Proof.
  intros times Hi HL. destruct (exists_last (l := times)) as (l & x & E); [intros ->; cbn in HL; lia|]. subst times.
  rewrite app_length in *. cbn [length] in *. replace (length l + 1 - 1)%nat with (length l) by lia.
  assert (V : vget (l ++ [x]) (length l) = x) by (unfold vget; rewrite app_nth2, Nat.sub_diag by lia; reflexivity).
  rewrite V. apply np_max_snoc; [intros ->; cbn in HL; lia|]. intros y Hy. apply In_nth with (d := 0) in Hy. destruct Hy as (j & Hj & <-).
  rewrite <- V. replace (nth j l 0) with (vget (l ++ [x]) j) by (unfold vget; apply app_nth1; auto). apply Hi; [auto|rewrite app_length; cbn; lia].
Qed.

Lemma linspace_ok : forall (stop : K) z ts, linspace stop z = Ok ts -> (0 <= z)%Z /\ length ts = Z.to_nat z /\ equally_spaced stop ts /\
  (0 <=! stop -> forall v, In v ts -> 0 <=! v /\ v <=! stop).
Proof.
  intros stop z ts H. unfold linspace in H. destruct (Z.ltb_spec z 0); [discriminate|]. injection H as <-. set (n := Z.to_nat z).
  split; [lia|]. rewrite map_length, length_range. split; [reflexivity|]. 
  assert (V : forall k, (k < n)%nat -> vget (map (fun i => if (n =? 1)%nat then 0 else knat i * (stop / knat (n - 1))) (range n)) k
      = if (n =? 1)%nat then 0 else knat k * (stop / knat (n - 1))).
  { intros k Hk. change (map ?f (range n)) with (mkv n f). rewrite vget_mkv by auto. reflexivity. }
  assert (P : (n <> 1)%nat -> (0 < n)%nat -> 0 <! (knat (n - 1) : K)) by (intros; apply knat_pos; lia).
  split; [split|].
  - rewrite map_length, length_range. intros k Hk. rewrite V by auto. destruct (Nat.eqb_spec n 1) as [E|E].
    + rewrite E. assert (k = 0)%nat by lia. subst k. cbn [knat]. ring.
    + specialize (P E ltac:(lia)). apply klt_neq in P. field. auto.
  - intro Hn. assert (0 < n)%nat by (destruct n; [cbn in Hn; congruence|lia]). rewrite V by auto. destruct (n =? 1)%nat; [reflexivity|cbn [knat]; ring].
  - intros Hs v Hv. apply in_map_iff in Hv. destruct Hv as (k & <- & Hk). apply in_range in Hk. destruct (Nat.eqb_spec n 1) as [E|E].
    + split; [apply kle_refl|auto].
    + specialize (P E ltac:(lia)). split.
      * apply kle_mul; [apply knat_nonneg|apply kle_div; auto].
      * assert (Q : knat k * (stop / knat (n - 1)) <=! knat (n - 1) * (stop / knat (n - 1))).
        { assert (D : knat k <=! (knat (n - 1) : K)) by (apply knat_le; lia).
          apply (kle_mul_l (stop / knat (n - 1))) in D; [|apply kle_div; auto].
          replace (knat k * (stop / knat (n - 1))) with (stop / knat (n - 1) * knat k) by ring.
          replace (knat (n - 1) * (stop / knat (n - 1))) with (stop / knat (n - 1) * knat (n - 1)) by ring. exact D. }
        replace (knat (n - 1) * (stop / knat (n - 1))) with stop in Q by (field; apply klt_neq; auto). exact Q.
Qed.

Lemma last_pos : forall times : list K, increasing times -> (2 <= length times)%nat -> vget times 0 = 0 -> 0 <! vget times (length times - 1).
Proof. intros times Hi HL H0. rewrite <- H0. apply Hi; lia. Qed.

Context (rnd : K -> Z) (root : K -> K).
Lemma sampling_ok : forall times fmeas steps last ts fp, increasing times -> (2 <= length times)%nat ->
  sampling rnd times fmeas steps = Ok (last, ts, fp) ->
  last = vget times (length times - 1) /\ linspace last (rnd (last * fmeas)) = Ok ts /\ (0 < steps)%nat /\ fp = (length ts / steps)%nat.
Proof.
  intros times fmeas steps last ts fp Hi HL H. unfold sampling in H. rewrite np_max_increasing in H by auto. cbn [bind] in H.
  apply bind_ok in H. destruct H as (ts' & H1 & H2). destruct (Nat.eqb_spec steps 0); [discriminate|]. injection H2 as <- <- <-.
  split; [reflexivity|]. split; [exact H1|]. split; [lia|reflexivity].
Qed.

Context {St : Type} (noise : @noise_fun K St K) (seeded : St).

(** the times and settings used by a measurement *)
Definition used {P} (prm : @noise_params K P) (last fmeas : K) (ts : list K) (fparam : nat) (new : list K) (f : nat) (scale : K) : Prop :=
  if use_equivalent_noise prm then fparam <> 0%nat /\ linspace last (rnd (last * fmeas / knat fparam)) = Ok new /\ f = 1%nat /\ scale = root (knat fparam)
  else new = ts /\ f = fparam /\ scale = 1.

Lemma kdiv1 : forall x : K, x / 1 = x.
Proof. intro x. field. apply k1_neq0. Qed.
Lemma interpolated_ext : forall (M N : mat CK) old new i j x, nr M = length old ->
  (forall r, (r < length old)%nat -> get M r i = get N r j) -> interpolated M old new i x -> interpolated N old new j x.
Proof.
  intros M N old new i j x HM E [L H]. split; [exact L|]. intros k Hk. destruct (H k Hk) as [A B].
  split; [eapply interpolates_ext; [|exact A]|eapply interpolates_ext; [|exact B]]; intros r Hr; cbn; rewrite E; auto.
Qed.
Lemma averages_part : forall (M N : mat CK) old new f out (g : nat -> nat) out', averages M old new f out ->
  (forall i, (i < nc N)%nat -> (g i < nc M)%nat) -> (forall r i, (r < length old)%nat -> (i < nc N)%nat -> get M r (g i) = get N r i) ->
  shape out' (length new / f) (nc N) -> (forall t i, (t < length new / f)%nat -> (i < nc N)%nat -> get out' t i = get out t (g i)) ->
  averages N old new f out'.
Proof.
  intros M N old new f out g out' [_ H] Hg E S Eo. split; [exact S|]. intros t i Ht Hi.
  destruct (H t (g i) Ht (Hg i Hi)) as (a & b & A & B). exists a, b. rewrite Eo by auto. split; [|exact B].
  intros k Hk. destruct (A k Hk) as [A1 A2].
  split; [eapply interpolates_ext; [|exact A1]|eapply interpolates_ext; [|exact A2]]; intros r Hr; cbn; rewrite E; auto.
Qed.

Lemma given_voltage_then_current : forall (a b : K) n ratings (im ip : K), length ratings = n ->
  given (n + n) (StdIter (map (fun _ => a * 1) (range n) ++ map (fun r => im * r) ratings)) (fun c => if (c <? n)%nat then a else im * vget ratings (c - n)) /\
  given (n + n) (StdIter (map (fun _ => b * 1) (range n) ++ map (fun _ => ip * 1) (range n))) (fun c => if (c <? n)%nat then b else ip).
Proof.
  intros a b n ratings im ip HL. split; cbn [given]; intros c Hc; destruct (Nat.ltb_spec c n).
  - rewrite nth_error_app1 by (rewrite map_length, length_range; auto).
    rewrite nth_error_map, (nth_error_nth' _ 0%nat) by (rewrite length_range; auto). cbn. f_equal. ring.
  - rewrite nth_error_app2; rewrite map_length, length_range; [|auto].
    rewrite nth_error_map, (nth_error_nth' _ 0) by lia. reflexivity.
  - rewrite nth_error_app1 by (rewrite map_length, length_range; auto).
    rewrite nth_error_map, (nth_error_nth' _ 0%nat) by (rewrite length_range; auto). cbn. f_equal. ring.
  - rewrite nth_error_app2; rewrite map_length, length_range; [|auto].
    rewrite nth_error_map, (nth_error_nth' _ 0%nat) by (rewrite length_range; lia). cbn. f_equal. ring.
Qed.

Lemma halves_ok : forall (m : mat CK) n a b, nc m = (n + n)%nat -> halves m = Ok (a, b) ->
  shape a (nr m) n /\ shape b (nr m) n /\
  (forall t c, (t < nr m)%nat -> (c < n)%nat -> get a t c = get m t c /\ get b t c = get m t (n + c)).
Proof.
  intros m n a b E H. unfold halves in H. rewrite E in H. destruct (Nat.eqb_spec ((n + n) mod 2) 0); [|discriminate]. cbv zeta in H.
  replace ((n + n) / 2)%nat with n in H by (replace (n + n)%nat with (n * 2)%nat by lia; rewrite Nat.div_mul; lia).
  injection H as <- <-. split; [apply shape_mk|]. split; [apply shape_mk|]. intros t c Ht Hc. rewrite !get_mk by auto. auto.
Qed.

Theorem p_measure : forall P (prm : @noise_params K P) ratings V I times last ts fmeas fparam r f,
  increasing times -> (2 <= length times)%nat -> vget times 0 = 0 -> last = vget times (length times - 1) ->
  linspace last (rnd (last * fmeas)) = Ok ts ->
  nr V = length times -> nr I = length times -> nc V = length ratings -> nc I = length ratings ->
  (forall v a b s v' s', noise v a b s = Ok (v', s') -> length v' = length v) ->
  measure rnd root noise seeded prm ratings V I times last ts fmeas fparam = Ok (r, f) ->
  exists new scale, (0 < f)%nat /\ used prm last fmeas ts fparam new f scale /\ equally_spaced last new /\
    measured noise seeded V I times new f
      (fun _ => voltage_magnitude_sd prm / scale) (fun c => current_magnitude_sd prm / scale * vget ratings c)
      (fun _ => voltage_phase_sd prm / scale) (fun _ => current_phase_sd prm / scale) r.
Proof.
  intros P prm ratings V I times last ts fmeas fparam r f Hi HL H0 Hlast Hts HV HI HnV HnI Hlen H.
  unfold measure in H. apply bind_ok in H. destruct H as ([[[[[new vm] im] vp] ip] fp] & HU & H).
  assert (G : exists scale, used prm last fmeas ts fparam new fp scale /\ (exists z, linspace last z = Ok new) /\
    vm = voltage_magnitude_sd prm / scale /\ im = current_magnitude_sd prm / scale /\
    vp = voltage_phase_sd prm / scale /\ ip = current_phase_sd prm / scale).
  { unfold used. destruct (use_equivalent_noise prm).
    - apply bind_ok in HU. destruct HU as (ts' & H1 & H2). unfold equivalent_times in H1.
      destruct (Nat.eqb_spec fparam 0); [discriminate|]. injection H2 as <- <- <- <- <- <-.
      exists (root (knat fparam)). split; [repeat split; auto|]. split; [eexists; exact H1|]. repeat split.
    - injection HU as <- <- <- <- <- <-. exists 1. rewrite !kdiv1. split; [auto|]. split; [eexists; exact Hts|]. repeat split. }
  destruct G as (scale & Hu & (z & Hz) & -> & -> & -> & ->). clear HU.
  destruct (linspace_ok _ _ _ Hz) as (_ & _ & Hsp & Hbound).
  assert (Hlast0 : 0 <! last) by (subst last; apply last_pos; auto).
  assert (Hw : within times new).
  { intros v Hv. rewrite H0, <- Hlast. apply Hbound; auto. apply klt_le. auto. }
  cbv zeta in H. apply bind_ok in H. destruct H as (both & HB & H).
  unfold side_by_side in HB. rewrite HV, HI, Nat.eqb_refl in HB. rewrite HnV, HnI in HB. injection HB as HB.
  set (n := length ratings) in *.
  apply bind_ok in H. destruct H as ([noisy s] & HN & H). apply bind_ok in H. destruct H as ([nv ni] & HH & H).
  apply bind_ok in H. destruct H as ([clean s2] & HC & H). apply bind_ok in H. destruct H as ([v i] & HH2 & H).
  injection H as <- <-.
  assert (Hf : (0 < fp)%nat).
  { destruct fp; [|lia]. unfold filter_and_resample_measurement in HN. discriminate. }
  assert (Hnb : nc both = (n + n)%nat) by (rewrite <- HB; apply nc_mk).
  assert (Hrb : nr both = length times) by (rewrite <- HB; apply nr_mk).
  assert (GV : forall t c, (t < length times)%nat -> (c < n)%nat -> get both t c = get V t c).
  { intros t c Ht Hc. rewrite <- HB, get_mk by lia. destruct (Nat.ltb_spec c n); [reflexivity|lia]. }
  assert (GI : forall t c, (t < length times)%nat -> (c < n)%nat -> get both t (n + c) = get I t c).
  { intros t c Ht Hc. rewrite <- HB, get_mk by lia. destruct (Nat.ltb_spec (n + c) n); [lia|]. f_equal. lia. }
  destruct (given_voltage_then_current (voltage_magnitude_sd prm / scale) (voltage_phase_sd prm / scale) n ratings
    (current_magnitude_sd prm / scale) (current_phase_sd prm / scale) eq_refl) as [Gm Gp].
  rewrite <- Hnb in Gm, Gp.
  destruct (p_resample_noisy _ _ _ _ _ _ _ _ _ _ _ _ Gm Gp Hi HL Hrb Hw Hf Hlen HN) as (Sn & st & X & W & S0 & _ & HX).
  destruct (p_resample (D := K) both times new fp None None None s) as (clean' & HC' & Av); [left; reflexivity|auto..].
  rewrite HC in HC'. injection HC' as <- _.
  rewrite Hnb in Sn, HX. destruct Sn as (_ & Rn & Cn). pose proof (proj1 Av) as (_ & Rc & Cc).
  rewrite Hnb in Cc. destruct (halves_ok _ _ _ _ Cn HH) as (Sa & Sb & Gn). destruct (halves_ok _ _ _ _ Cc HH2) as (Sc & Sd & Gc).
  rewrite Rn in Sa, Sb, Gn. rewrite Rc in Sc, Sd, Gc.
  exists new, scale. split; [exact Hf|]. split; [exact Hu|]. split; [exact Hsp|]. cbn [measured].
  rewrite HnV. split; [exact Sa|]. split; [exact Sb|]. split; [|split].
  - apply (averages_part both V times new fp clean (fun i => i)); auto; rewrite ?HnV; auto; intros; try lia. apply Gc; auto.
  - apply (averages_part both I times new fp clean (fun i => n + i)%nat); auto; rewrite ?HnI; auto; intros; try lia. apply Gc; auto.
  - exists st. split; [exact S0|]. intros c Hc. split.
    + destruct (HX c ltac:(lia)) as (A & B & D). destruct (Nat.ltb_spec c n); [|lia]. exists (X c), (W c).
      split; [eapply interpolated_ext; [exact Hrb| |exact A]; intros; apply GV; auto|]. split; [exact B|].
      intros t Ht. rewrite (proj1 (Gn t c Ht Hc)). apply D. auto.
    + destruct (HX (n + c)%nat ltac:(lia)) as (A & B & D). destruct (Nat.ltb_spec (n + c) n); [lia|].
      replace (n + c - n)%nat with c in B by lia. exists (X (n + c)%nat), (W (n + c)%nat).
      split; [eapply interpolated_ext; [exact Hrb| |exact A]; intros; apply GI; auto|]. split; [exact B|].
      intros t Ht. rewrite (proj2 (Gn t c Ht Hc)). apply D. auto.
Qed.
End Sampling.
