(** C121: the units of load profiles. *)
From Coq Require Import Bool Arith List Lia ZArith QArith Qcanon.
From Verif Require Import BasePy BaseFld BaseOrd BaseSum BaseMat BaseLin BaseNumpy BaseEx BaseRound ModelNet ModelLoads ModelCsv SpecLoads SpecCsv ProofLoads ProofCsv ProofScale PropLoads PropCsv.
Import ListNotations.
Close Scope Qc_scope. Close Scope Q_scope. Close Scope string_scope. Open Scope list_scope. Open Scope nat_scope.

From Coq Require Import Ring.
Section C121.
Context {K : Type} {O : Ops K} {F : Fld K} {O2 : OrdOps K} {OF : OrdFld K}.
Add Ring KringC121 : (F_R (@k_field K O F)).
Context (rnd : K -> Z) {St : Type} (randint : nat -> nat -> St -> list nat * St).
(** the same result in other units of the active and of the reactive powers *)
Definition in_units (k1 k2 : K) (r : res (mat K * mat K * St)) : res (mat K * mat K * St) :=
  match r with Ok (P, Q, s') => Ok (mscal k1 P, mscal k2 Q, s') | Err e => Err e end.
Definition in_units_3ph (k1 k2 : K) (r : res (list (mat K) * St)) : res (list (mat K) * St) :=
  match r with Ok (l, s') => Ok (map (mscal k1) (firstn 3 l) ++ map (mscal k2) (skipn 3 l), s') | Err e => Err e end.
(** Other units of a file and of the nominal values give the same households, hence the same loads in these units, and the same state of the generator; errors stay the same. *)
Theorem C121_units : forall k1 k2 (active reactive : mat K), (0 <! k1)%K -> (0 <! k2)%K -> wf active -> wf reactive ->
  let scaled refs := map (fun r => (k1 * fst r, k2 * snd r)%K) refs in
  (forall hs len refs s, load_profile_from_numpy rnd randint (mscal k1 active) (mscal k2 reactive) hs len (scaled refs) s = in_units k1 k2 (load_profile_from_numpy rnd randint active reactive hs len refs s)) /\
  (forall hs fs refs s, load_profile_from_csv rnd randint (mscal k1 active) (mscal k2 reactive) hs fs (scaled refs) s = in_units k1 k2 (load_profile_from_csv rnd randint active reactive hs fs refs s)).
Proof.
  intros k1 k2 active reactive H1 H2 WA WR scaled.
  assert (FS : forall P Q refs s, wf P -> wf Q -> fill_loads rnd randint (mscal k1 P) (mscal k2 Q) (scaled refs) s = in_units k1 k2 (fill_loads rnd randint P Q refs s)).
  { intros P Q refs s WP WQ. unfold scaled. rewrite (fill_scal rnd randint k1 k2 P Q refs s H1 H2 WP WQ). destruct (fill_loads rnd randint P Q refs s) as [[[A B] s']|]; reflexivity. }
  split.
  - intros hs len refs s. unfold load_profile_from_numpy. cbn [nr mscal mk]. rewrite !profile_scal by assumption. apply FS; apply profile_wf.
  - intros hs fs refs s. unfold load_profile_from_csv. rewrite csv_scal by assumption. destruct (csv_profiles active reactive hs fs) as [[p q]|e] eqn:E; [|reflexivity]. cbn [bind]. destruct (csv_wf _ _ _ _ _ _ E) as [WP WQ]. apply FS; assumption.
Qed.
Theorem C121_units_3ph : forall k1 k2 (active reactive : mat K), (0 <! k1)%K -> (0 <! k2)%K -> wf active -> wf reactive ->
  let scaled refs := map (fun r => Phased (k1 * pa r)%K (k1 * pb r)%K (k1 * pc r)%K (k2 * qa r)%K (k2 * qb r)%K (k2 * qc r)%K) refs in
  (forall hs len refs s, load_asym_from_numpy rnd randint (mscal k1 active) (mscal k2 reactive) hs len (scaled refs) s = in_units_3ph k1 k2 (load_asym_from_numpy rnd randint active reactive hs len refs s)) /\
  (forall hs fs refs s, load_asym_from_csv rnd randint (mscal k1 active) (mscal k2 reactive) hs fs (scaled refs) s = in_units_3ph k1 k2 (load_asym_from_csv rnd randint active reactive hs fs refs s)).
Proof.
  intros k1 k2 active reactive H1 H2 WA WR scaled.
  assert (FS : forall P Q refs s, wf P -> wf Q -> fill_asym rnd randint (mscal k1 P) (mscal k2 Q) (scaled refs) s = in_units_3ph k1 k2 (fill_asym rnd randint P Q refs s)).
  { intros P Q refs s WP WQ. unfold scaled. pose proof (asym_scal rnd randint k1 k2 P Q refs s H1 H2 WP WQ) as E. unfold phased_scal in E. rewrite E. destruct (fill_asym rnd randint P Q refs s) as [[l s']|]; reflexivity. }
  split.
  - intros hs len refs s. unfold load_asym_from_numpy. cbn [nr mscal mk]. rewrite !profile_scal by assumption. apply FS; apply profile_wf.
  - intros hs fs refs s. unfold load_asym_from_csv. rewrite csv_scal by assumption. destruct (csv_profiles active reactive hs fs) as [[p q]|e] eqn:E; [|reflexivity]. cbn [bind]. destruct (csv_wf _ _ _ _ _ _ E) as [WP WQ]. apply FS; assumption.
Qed.
(** The same for random loads around the nominal values. *)
Theorem C121_random_loads : forall (gauss : St -> K * St) k1 k2 sd n, (0 <! k1)%K -> (0 <! k2)%K ->
  (forall refs s, generate_gaussian_load gauss sd n (map (fun r => (k1 * fst r, k2 * snd r)%K) refs) s = in_units k1 k2 (generate_gaussian_load gauss sd n refs s)) /\
  (forall refs s, generate_gaussian_asym gauss sd n (map (fun r => Phased (k1 * pa r)%K (k1 * pb r)%K (k1 * pc r)%K (k2 * qa r)%K (k2 * qb r)%K (k2 * qc r)%K) refs) s =
    match generate_gaussian_asym gauss sd n refs s with
    | Ok ([Pa; Qa; Pb; Qb; Pc; Qc], s') => Ok ([mscal k1 Pa; mscal k2 Qa; mscal k1 Pb; mscal k2 Qb; mscal k1 Pc; mscal k2 Qc], s')
    | r => r
    end).
Proof.
  intros gauss k1 k2 sd n H1 H2.
  assert (MM : forall (A : Type) (k : K) (f : A -> A) (g : A -> K) l, (forall a, g (f a) = (k * g a)%K) -> map g (map f l) = map (kmul k) (map g l)) by (intros A k f g l E; rewrite !map_map; apply map_ext; exact E).
  split; intros refs s.
  - unfold generate_gaussian_load. rewrite (MM _ k1 _ fst refs), (MM _ k2 _ snd refs) by reflexivity. rewrite (normal_scal gauss k1 sd n _ s H1). destruct (normal_load gauss sd n (map fst refs) s) as [[p s1]|]; [|reflexivity]. cbn [bind].
    rewrite (normal_scal gauss k2 sd n _ s1 H2). destruct (normal_load gauss sd n (map snd refs) s1) as [[q s2]|]; reflexivity.
  - unfold generate_gaussian_asym. rewrite (MM _ k1 _ pa refs), (MM _ k2 _ qa refs), (MM _ k1 _ pb refs), (MM _ k2 _ qb refs), (MM _ k1 _ pc refs), (MM _ k2 _ qc refs) by reflexivity.
    rewrite (normal_scal gauss k1 sd n (map pa refs) s H1). destruct (normal_load gauss sd n (map pa refs) s) as [[m1 s1]|]; [|reflexivity]. cbn [bind].
    rewrite (normal_scal gauss k2 sd n (map qa refs) s1 H2). destruct (normal_load gauss sd n (map qa refs) s1) as [[m2 s2]|]; [|reflexivity]. cbn [bind].
    rewrite (normal_scal gauss k1 sd n (map pb refs) s2 H1). destruct (normal_load gauss sd n (map pb refs) s2) as [[m3 s3]|]; [|reflexivity]. cbn [bind].
    rewrite (normal_scal gauss k2 sd n (map qb refs) s3 H2). destruct (normal_load gauss sd n (map qb refs) s3) as [[m4 s4]|]; [|reflexivity]. cbn [bind].
    rewrite (normal_scal gauss k1 sd n (map pc refs) s4 H1). destruct (normal_load gauss sd n (map pc refs) s4) as [[m5 s5]|]; [|reflexivity]. cbn [bind].
    rewrite (normal_scal gauss k2 sd n (map qc refs) s5 H2). destruct (normal_load gauss sd n (map qc refs) s5) as [[m6 s6]|]; reflexivity.
Qed.
(** The whole generation of loads of the simulation program, with the constant loads mixed in. *)
Definition params_in_units (k1 k2 : K) (prm : load_params) : load_params :=
  match prm with
  | FromProfiles active reactive weeks days const => FromProfiles (mscal k1 active) (mscal k2 reactive) weeks days const
  | FromStd sd days const => FromStd sd days const
  end.
Definition tables_ok (prm : load_params (K := K)) : Prop := match prm with FromProfiles active reactive _ _ _ => wf active /\ wf reactive | FromStd _ _ _ => True end.
Lemma blend_scal : forall k a const b nominal (m : mat K), blend a const b (map (kmul k) nominal) (mscal k m) = mscal k (blend a const b nominal m).
Proof.
  intros k a [l|] b nominal m; [|reflexivity]. unfold blend. cbn [nr nc mscal mk]. apply mk_scal. intros t i Ht Hi. rewrite get_mscal by assumption. rewrite vget_scal. destruct (isin (nth i b 0) l); [|reflexivity].
  ring.
Qed.
Theorem C121_generate_loads : forall (gauss : St -> K * St) k1 k2 a seeded n n' prm saved s, (0 <! k1)%K -> (0 <! k2)%K -> tables_ok prm ->
  loads n' = map (fun l => Load (l_id l) (l_bus l) (k1 * l_p l)%K (k2 * l_q l)%K (l_z l) (l_i l)) (loads n) ->
  generate_loads rnd randint gauss a seeded n' (Some (params_in_units k1 k2 prm)) saved s =
  match generate_loads rnd randint gauss a seeded n (Some prm) saved s with
  | Ok ((P, Q, times), _, s') => Ok ((mscal k1 P, mscal k2 Q, times), Some (mscal k1 P, mscal k2 Q, times), s')
  | Err e => Err e
  end.
Proof.
  intros gauss k1 k2 a seeded n n' prm saved s H1 H2 T E. unfold generate_loads. rewrite E. rewrite !map_map. cbn [l_bus l_p l_q].
  replace (refs_of n') with (map (fun r => (k1 * fst r, k2 * snd r)%K) (refs_of n)) by (unfold refs_of; rewrite E, !map_map; reflexivity).
  replace (map (fun x => (k1 * l_p x)%K) (loads n)) with (map (kmul k1) (map l_p (loads n))) by (rewrite map_map; reflexivity).
  replace (map (fun x => (k2 * l_q x)%K) (loads n)) with (map (kmul k2) (map l_q (loads n))) by (rewrite map_map; reflexivity).
  destruct prm as [active reactive weeks days const|sd days const]; cbn [params_in_units tables_ok] in *.
  - destruct (lines_per_week days (length weeks)) as [len|e]; [|reflexivity]. cbn [bind]. destruct T as [WA WR].
    rewrite (proj1 (C121_units k1 k2 active reactive H1 H2 WA WR)). destruct (load_profile_from_numpy rnd randint active reactive (skip_lines weeks) len (refs_of n) seeded) as [[[P Q] s']|e]; [|reflexivity]. cbn [bind in_units]. rewrite !blend_scal. reflexivity.
  - rewrite (proj1 (C121_random_loads gauss k1 k2 sd _ H1 H2)). destruct (generate_gaussian_load gauss sd (length (time_stamps days)) (refs_of n) seeded) as [[[P Q] s']|e]; [|reflexivity]. cbn [bind in_units]. rewrite !blend_scal. reflexivity.
Qed.
Theorem C121_generate_loads_3ph : forall k1 k2 a seeded n n' prm, (0 <! k1)%K -> (0 <! k2)%K -> tables_ok prm ->
  loads n' = map (fun l => Load (l_id l) (l_bus l) (k1 * l_p l)%K (k2 * l_q l)%K (l_z l) (l_i l)) (loads n) ->
  asyms n' = map (fun l => Asym (a_id l) (a_bus l) (fun p => k1 * a_p l p)%K (fun p => k2 * a_q l p)%K) (asyms n) ->
  generate_loads_3ph rnd randint a seeded n' (params_in_units k1 k2 prm) =
  match generate_loads_3ph rnd randint a seeded n prm with
  | Ok (P, Q, l, times, s') => Ok (mscal k1 P, mscal k2 Q, map (mscal k1) (firstn 3 l) ++ map (mscal k2) (skipn 3 l), times, s')
  | Err e => Err e
  end.
Proof.
  intros k1 k2 a seeded n n' prm H1 H2 T E EA. destruct prm as [active reactive weeks days const|sd days const]; [|reflexivity]. unfold generate_loads_3ph. cbn [params_in_units tables_ok] in *. rewrite E, EA. rewrite !map_map. cbn [l_bus l_p l_q a_bus a_p a_q].
  replace (refs_of n') with (map (fun r => (k1 * fst r, k2 * snd r)%K) (refs_of n)) by (unfold refs_of; rewrite E, !map_map; reflexivity).
  assert (MM : forall (A : Type) (k : K) (g : A -> K) l, map (fun x => (k * g x)%K) l = map (kmul k) (map g l)) by (intros; rewrite map_map; reflexivity).
  rewrite (MM _ k1 l_p), (MM _ k2 l_q), (MM _ k1 (fun l => a_p l 0)), (MM _ k1 (fun l => a_p l 1)), (MM _ k1 (fun l => a_p l 2)), (MM _ k2 (fun l => a_q l 0)), (MM _ k2 (fun l => a_q l 1)), (MM _ k2 (fun l => a_q l 2)).
  destruct (lines_per_week days (length weeks)) as [len|e]; [|reflexivity]. cbn [bind]. destruct T as [WA WR].
  rewrite (proj1 (C121_units k1 k2 active reactive H1 H2 WA WR)). destruct (load_profile_from_numpy rnd randint active reactive (skip_lines weeks) len (refs_of n) seeded) as [[[P Q] s']|e]; [|reflexivity]. cbn [bind in_units].
  pose proof (proj1 (C121_units_3ph k1 k2 active reactive H1 H2 WA WR) (skip_lines weeks) len (map phased_of (asyms n)) s') as A. cbv zeta in A. rewrite map_map in A.
  replace (map (fun x : asym_row => phased_of (Asym (a_id x) (a_bus x) (fun p => k1 * a_p x p)%K (fun p => k2 * a_q x p)%K)) (asyms n)) with
    (map (fun x => Phased (k1 * pa (phased_of x))%K (k1 * pb (phased_of x))%K (k1 * pc (phased_of x))%K (k2 * qa (phased_of x))%K (k2 * qb (phased_of x))%K (k2 * qc (phased_of x))%K) (asyms n)) by reflexivity.
  rewrite A. clear A. destruct (load_asym_from_numpy rnd randint active reactive (skip_lines weeks) len (map phased_of (asyms n)) s') as [[l s'']|e] eqn:EL; [|reflexivity]. cbn [bind in_units_3ph].
  unfold load_asym_from_numpy in EL. destruct (fill_asym_inv rnd randint _ _ _ _ _ _ EL) as [HL _].
  destruct l as [|m1 [|m2 [|m3 [|m4 [|m5 [|m6 [|? ?]]]]]]]; try discriminate HL. cbn [firstn skipn map app nth]. rewrite !blend_scal. reflexivity.
Qed.
End C121.
Print Assumptions C121_units.
Print Assumptions C121_units_3ph.
Print Assumptions C121_random_loads.
Print Assumptions C121_generate_loads.
Print Assumptions C121_generate_loads_3ph.

(** ** Examples *)
(** six lines of three households in units of two and of a third *)
Example C121_ex : (0 <! zq 2)%K /\ (0 <! qq 1 3)%K /\ wf (csv_file 6) /\
  exists P Q s', load_profile_from_csv roundq draw (mscal (zq 2) (csv_file 6)) (mscal (qq 1 3) (csv_file 6)) [0; 3]%Z [4; 1]%Z [(zq 18, qq 5 3); (zq 0, zq 4)] 0 = Ok (P, Q, s') /\ get P 0 0 <> 0%K /\ get Q 0 0 <> 0%K.
Proof.
  split; [vm_compute; reflexivity|]. split; [vm_compute; reflexivity|]. split; [apply wf_mk|].
  set (r := load_profile_from_csv roundq draw _ _ _ _ _ 0).
  assert (T : match r with Ok (P, Q, _) => keqb (get P 0 0) 0%K = false /\ keqb (get Q 0 0) 0%K = false | _ => False end) by (vm_compute; split; reflexivity).
  destruct r as [[[P Q] s']|]; [|contradiction]. exists P, Q, s'. split; [reflexivity|]. destruct T as [T1 T2].
  split; intro Z; [rewrite Z in T1; rewrite keqb_refl in T1; discriminate T1|rewrite Z in T2; rewrite keqb_refl in T2; discriminate T2].
Qed.
Definition step_noise (s : nat) : Qc * nat := (zq (Z.of_nat s - 1), S s).
Example C121_random_ex : (0 <! zq 2)%K /\ match generate_gaussian_load step_noise (qq 1 10) 2 [(zq 9, zq 5); (zq 0, zq 4)] 0 with Ok (P, Q, s) => keqb (get P 0 0) (get P 1 0) = false /\ s = 8 | Err _ => False end.
Proof. split; [vm_compute; reflexivity|]. vm_compute. split; reflexivity. Qed.
(** the network of one load in other units, one day of random loads, half of them constant *)
Definition one_load_units : net (K := Qc) := Net [] [Load 0 1 (zq 2 * zq 7)%K (qq 1 3 * zq 4)%K (zq 0) (zq 0)] [] [] [] (zq 1) [].
Example C121_generate_ex : loads one_load_units = map (fun l => Load (l_id l) (l_bus l) (zq 2 * l_p l)%K (qq 1 3 * l_q l)%K (l_z l) (l_i l)) (loads one_load) /\ tables_ok (FromStd (qq 1 10) 1 (Some [1])) /\
  match generate_loads roundq draw step_noise (qq 1 2) 0 one_load (Some (FromStd (qq 1 10) 1 (Some [1]))) None 0 with Ok ((P, Q, times), _, s) => keqb (get P 0 0) (get P 1 0) = false /\ nr P = length times | Err _ => False end.
Proof. split; [reflexivity|]. split; [exact I|]. vm_compute. split; reflexivity. Qed.
(** the network with three phases of C50_ex *)
Definition c50_units : net (K := Qc) := with_asyms (with_loads c50_n (map (fun l => Load (l_id l) (l_bus l) (zq 2 * l_p l)%K (qq 1 3 * l_q l)%K (l_z l) (l_i l)) (loads c50_n)))
  (map (fun l => Asym (a_id l) (a_bus l) (fun p => zq 2 * a_p l p)%K (fun p => qq 1 3 * a_q l p)%K) (asyms c50_n)).
Example C121_generate_3ph_ex : asyms c50_n <> [] /\ tables_ok (FromProfiles (flat_file (Z.to_nat 1440)) (flat_file (Z.to_nat 1440)) [0]%Z 1 (Some [2])) /\
  loads c50_units = map (fun l => Load (l_id l) (l_bus l) (zq 2 * l_p l)%K (qq 1 3 * l_q l)%K (l_z l) (l_i l)) (loads c50_n) /\
  asyms c50_units = map (fun l => Asym (a_id l) (a_bus l) (fun p => zq 2 * a_p l p)%K (fun p => qq 1 3 * a_q l p)%K) (asyms c50_n).
Proof. split; [discriminate|]. split; [split; apply wf_mk|]. split; reflexivity. Qed.
(** Other units of the file alone do not give the loads in these units: fewer households are drawn instead. *)
Theorem C121_file_alone_refuted : exists (active reactive : mat Qc) k refs P Q s1 P' Q' s2, (0 <! k)%K /\ wf active /\ wf reactive /\
  load_profile_from_numpy roundq draw active reactive [0]%Z 2 refs 0 = Ok (P, Q, s1) /\ load_profile_from_numpy roundq draw (mscal k active) reactive [0]%Z 2 refs 0 = Ok (P', Q', s2) /\
  get P' 0 0 <> (k * get P 0 0)%K /\ s1 <> s2.
Proof.
  assert (W : forall (r r' : res (mat Qc * mat Qc * nat)), (match r, r' with Ok (P, _, s1), Ok (P', _, s2) => keqb (get P' 0 0) (zq 4 * get P 0 0)%K = false /\ Nat.eqb s1 s2 = false | _, _ => False end) ->
    exists P Q s1 P' Q' s2, r = Ok (P, Q, s1) /\ r' = Ok (P', Q', s2) /\ get P' 0 0 <> (zq 4 * get P 0 0)%K /\ s1 <> s2).
  { intros [[[P Q] s1]|] [[[P' Q'] s2]|] T; try contradiction. destruct T as [T1 T2]. exists P, Q, s1, P', Q', s2. split; [reflexivity|]. split; [reflexivity|].
    split; [intro Z; rewrite Z, keqb_refl in T1; discriminate T1|intro Z; rewrite Z, Nat.eqb_refl in T2; discriminate T2]. }
  set (r := load_profile_from_numpy roundq draw (csv_file 6) (csv_file 6) [0]%Z 2 [(zq 9, zq 5)] 0). set (r' := load_profile_from_numpy roundq draw (mscal (zq 4) (csv_file 6)) (csv_file 6) [0]%Z 2 [(zq 9, zq 5)] 0).
  assert (T : match r, r' with Ok (P, _, s1), Ok (P', _, s2) => keqb (get P' 0 0) (zq 4 * get P 0 0)%K = false /\ Nat.eqb s1 s2 = false | _, _ => False end) by (vm_compute; split; reflexivity).
  destruct (W r r' T) as (P & Q & s1 & P' & Q' & s2 & H). exists (csv_file 6), (csv_file 6), (zq 4), [(zq 9, zq 5)], P, Q, s1, P', Q', s2. split; [vm_compute; reflexivity|]. split; [apply wf_mk|]. split; [apply wf_mk|exact H].
Qed.
Print Assumptions C121_file_alone_refuted.
