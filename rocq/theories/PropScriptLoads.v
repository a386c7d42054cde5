(** C107: the loads saved by the simulation program. *)
From Coq Require Import String.
From Coq Require Import Bool Arith List Lia ZArith QArith Qcanon.
From Verif Require Import BasePy BaseFld BaseOrd BaseSum BaseMat BaseLin BaseNumpy BaseEx BaseRound ModelNet ModelReduce ModelResample ModelLoads ModelMeasure ModelRun ModelScript
  SpecNet SpecLoads SpecMeasure SpecScript SpecScriptData SpecScriptLoads ProofScript ProofLoadsFloat ProofLoadsMain PropKron PropNet PropMeasure PropLoads PropScript PropScriptData.
Import ListNotations.
Close Scope Qc_scope. Close Scope Q_scope. Close Scope string_scope. Open Scope list_scope. Open Scope nat_scope.

(** ** tables of a network that could be built *)
Section Tables.
Context {K : Type} {O : Ops K}.

Definition known (n : net (K := K)) : list nat := map b_id (buses n).
Lemma has_bus_known : forall n i, has_bus n i = false -> ~ In i (known n).
Proof.
  intros n i H HI. unfold known in HI. apply in_map_iff in HI. destruct HI as (b & E & HB). unfold has_bus in H.
  assert (T : existsb (fun b => b_id b =? i) (buses n) = true) by (apply existsb_exists; exists b; split; [exact HB|apply Nat.eqb_eq; exact E]). congruence.
Qed.
Lemma NoDup_snoc : forall (l : list nat) x, NoDup l -> ~ In x l -> NoDup (l ++ [x]).
Proof.
  induction l as [|y l IH]; intros x H N; cbn [app]; [constructor; [intros []|constructor]|]. inversion H as [|? ? H1 H2]. subst. constructor.
  - rewrite in_app_iff. intros [A|[A|[]]]; [exact (H1 A)|]. apply N. left. auto.
  - apply IH; [exact H2|]. intro A. apply N. right. exact A.
Qed.
Lemma pp_bus : forall n kv nm i n', pp_create_bus n kv nm i = Ok n' -> ~ In i (known n) /\ known n' = known n ++ [i] /\ loads n' = loads n /\ asyms n' = asyms n.
Proof.
  intros n kv nm i n' H. unfold pp_create_bus in H. destruct (has_bus n i) eqn:E; [discriminate|]. injection H as <-. split; [apply has_bus_known; exact E|].
  unfold known. cbn. rewrite map_app. auto.
Qed.
Lemma pp_load : forall n i p q z c k n', pp_create_load n i p q z c k = Ok n' -> known n' = known n /\ map seen_load (loads n') = map seen_load (loads n) ++ [(i, p, q)] /\ asyms n' = asyms n.
Proof.
  intros n i p q z c k n' H. unfold pp_create_load in H. destruct (negb (has_bus n i)); [discriminate|]. destruct (existsb _ (loads n)); [discriminate|]. injection H as <-.
  cbn. rewrite map_app. auto.
Qed.
Lemma pp_asym : forall n i p q k n', pp_create_asymmetric_load n i p q k = Ok n' ->
  known n' = known n /\ loads n' = loads n /\ map seen_asym (asyms n') = map seen_asym (asyms n) ++ [(i, (p 0, p 1, p 2), (q 0, q 1, q 2))].
Proof.
  intros n i p q k n' H. unfold pp_create_asymmetric_load in H. destruct (negb (has_bus n i)); [discriminate|]. destruct (existsb _ (asyms n)); [discriminate|]. injection H as <-.
  cbn. rewrite map_app. auto.
Qed.
Lemma pp_grid : forall (n : net (K := K)) i n', pp_create_ext_grid n i = Ok n' -> known n' = known n /\ loads n' = loads n /\ asyms n' = asyms n.
Proof. intros n i n' H. unfold pp_create_ext_grid in H. destruct (negb (has_bus n i)); [discriminate|]. injection H as <-. auto. Qed.

Lemma bus_tables : forall ns n n', create_buses n ns = Ok n' -> NoDup (known n) ->
  NoDup (known n') /\ known n' = known n ++ map bd_id ns /\ map seen_load (loads n') = map seen_load (loads n) ++ map wanted_load (filter has_load ns).
Proof.
  induction ns as [|b ns IH]; intros n n' H N.
  - injection H as <-. cbn. rewrite !app_nil_r. auto.
  - unfold create_buses in H. cbn [for_each] in H. apply bind_ok in H. destruct H as (m & H1 & H). fold (create_buses m ns) in H.
    apply bind_ok in H1. destruct H1 as (p & Ep & H1). apply bind_ok in H1. destruct H1 as (q & Eq & H1). unfold create_bus in H1.
    apply bind_ok in H1. destruct H1 as (m0 & EB & H1). apply pp_bus in EB. destruct EB as (NI & B1 & B2 & _).
    assert (S : known m = known n ++ [bd_id b] /\ map seen_load (loads m) = map seen_load (loads n) ++ (if has_load b then [wanted_load b] else [])).
    { unfold has_load, wanted_load. change TYPE_LOAD with 1 in H1. change TYPE_PCC with 3 in H1.
      destruct (bd_p b) as [p'|] eqn:P; [|discriminate]. injection Ep as ->. destruct (bd_q b) as [q'|] eqn:Q; [|discriminate]. injection Eq as ->.
      destruct (bd_type b =? 1) eqn:T1; cbn [orb].
      - apply pp_load in H1. destruct H1 as (K1 & K2 & _). rewrite K1, K2, B1, B2. auto.
      - destruct (bd_type b =? 3) eqn:T3.
        + apply bind_ok in H1. destruct H1 as (m1 & EL & EG). apply pp_load in EL. apply pp_grid in EG. destruct EL as (K1 & K2 & _), EG as (G1 & G2 & _).
          rewrite G1, G2, K1, K2, B1, B2. auto.
        + injection H1 as <-. rewrite B1, B2, app_nil_r. auto. }
    destruct S as [S1 S2]. destruct (IH _ _ H) as (I1 & I2 & I3).
    + rewrite S1. apply NoDup_snoc; assumption.
    + split; [exact I1|]. split; [rewrite I2, S1, <- app_assoc; reflexivity|]. rewrite I3, S2, <- app_assoc. cbn [filter]. destruct (has_load b); reflexivity.
Qed.
Lemma bus_tables3 : forall ns n n', create_buses3 n ns = Ok n' -> NoDup (known n) ->
  NoDup (known n') /\ known n' = known n ++ map bd_id ns /\ map seen_load (loads n') = map seen_load (loads n) ++ map wanted_load (filter has_load3 ns) /\
  map seen_asym (asyms n') = map seen_asym (asyms n) ++ map wanted_asym (filter is_asym ns) /\ (forall b, In b ns -> is_asym b = true -> both three b).
Proof.
  induction ns as [|b ns IH]; intros n n' H N.
  - injection H as <-. cbn. rewrite !app_nil_r. repeat split; auto; intros; contradiction.
  - unfold create_buses3 in H. cbn [for_each] in H. apply bind_ok in H. destruct H as (m & H1 & H). fold (create_buses3 m ns) in H. unfold create_bus3 in H1.
    apply bind_ok in H1. destruct H1 as (m0 & EB & H1). apply pp_bus in EB. destruct EB as (NI & B1 & B2 & B3).
    assert (S : known m = known n ++ [bd_id b] /\ map seen_load (loads m) = map seen_load (loads n) ++ (if has_load3 b then [wanted_load b] else []) /\
      map seen_asym (asyms m) = map seen_asym (asyms n) ++ (if is_asym b then [wanted_asym b] else []) /\ (is_asym b = true -> both three b)).
    { unfold has_load3, is_asym, wanted_load, wanted_asym. change TYPE_LOAD with 1 in H1. change TYPE_PCC with 3 in H1.
      destruct (Nat.eqb_spec (bd_type b) 1) as [T1|T1]; [rewrite T1; cbn [Nat.eqb]|destruct (Nat.eqb_spec (bd_type b) 3) as [T3|T3]].
      - destruct (bd_p b) as [p'|p1 p2 p3] eqn:P, (bd_q b) as [q'|q1 q2 q3] eqn:Q; try discriminate.
        + apply pp_load in H1. destruct H1 as (K1 & K2 & K3). rewrite K1, K2, K3, B1, B2, B3. cbn [orb]. rewrite ?app_nil_r. repeat split; discriminate.
        + apply pp_asym in H1. destruct H1 as (K1 & K2 & K3). rewrite K1, K2, K3, B1, B2, B3. cbn [orb]. rewrite ?app_nil_r. split; [auto|]. split; [auto|]. split; [auto|]. intros _. split; [rewrite P|rewrite Q]; repeat eexists.
      - destruct (bd_p b) as [p'|p1 p2 p3]; [|discriminate].
        apply bind_ok in H1. destruct H1 as (m1 & EL & EG). apply pp_load in EL. apply pp_grid in EG. destruct EL as (K1 & K2 & K3), EG as (G1 & G2 & G3).
        rewrite G1, G2, G3, K1, K2, K3, B1, B2, B3. cbn [orb]. rewrite ?app_nil_r. repeat split; discriminate.
      - injection H1 as <-. rewrite B1, B2, B3. destruct (bd_p b); cbn [orb]; rewrite ?app_nil_r; repeat split; discriminate. }
    destruct S as (S1 & S2 & S3 & S4). destruct (IH _ _ H) as (I1 & I2 & I3 & I4 & I5).
    + rewrite S1. apply NoDup_snoc; assumption.
    + split; [exact I1|]. split; [rewrite I2, S1, <- app_assoc; reflexivity|]. rewrite I3, S2, I4, S3, <- !app_assoc. cbn [filter].
      split; [destruct (has_load3 b); reflexivity|]. split; [destruct (is_asym b); reflexivity|].
      intros x [<-|Hx]; auto.
Qed.
Lemma line_keeps : forall (n : net (K := K)) f t len r x n', pp_create_line_from_parameters n f t len r x = Ok n' -> known n' = known n /\ loads n' = loads n /\ asyms n' = asyms n.
Proof. intros n f t len r x n' H. unfold pp_create_line_from_parameters in H. destruct (negb _); [discriminate|]. injection H as <-. auto. Qed.
Lemma each_keeps : forall (body : net (K := K) -> line_data (K := K) -> res net), (forall n l n', body n l = Ok n' -> known n' = known n /\ loads n' = loads n /\ asyms n' = asyms n) ->
  forall ls n n', for_each ls n body = Ok n' -> known n' = known n /\ loads n' = loads n /\ asyms n' = asyms n.
Proof.
  intros body B. induction ls as [|l ls IH]; intros n n' H; [injection H as <-; auto|]. cbn [for_each] in H. apply bind_ok in H. destruct H as (m & H1 & H).
  destruct (B _ _ _ H1) as (A1 & A2 & A3). destruct (IH _ _ H) as (I1 & I2 & I3). rewrite I1, I2, I3. auto.
Qed.
Lemma tables : forall ns ls n, NetData (Some ns) (Some ls) None = Ok n -> NoDup (map bd_id ns) /\ map seen_load (loads n) = map wanted_load (filter has_load ns).
Proof.
  intros ns ls n H. unfold NetData in H. apply bind_ok in H. destruct H as (m & HB & H). apply bind_ok in H. destruct H as ([m' ls'] & HL & H). injection H as <-.
  unfold create_lines in HL. apply bind_ok in HL. destruct HL as (m2 & HL & E). injection E as <- <-. cbn [fst].
  destruct (bus_tables _ _ _ HB (NoDup_nil _)) as (A1 & A2 & A3). cbn in A2, A3. rewrite A2 in A1. split; [exact A1|]. rewrite <- A3. f_equal.
  refine (proj1 (proj2 (each_keeps _ _ ls m m2 HL))). intros x l x' E. cbv beta in E. destruct (0 <? ld_status (oriented l))%Z; [|injection E as <-; auto].
  apply bind_ok in E. destruct E as (? & _ & E). apply bind_ok in E. destruct E as (? & _ & E). apply bind_ok in E. destruct E as (? & _ & E). apply bind_ok in E. destruct E as (? & _ & E).
  apply line_keeps in E. exact E.
Qed.
Lemma tables3 : forall ts ns ls n, NetData3P ts (Some ns) (Some ls) None = Ok n ->
  NoDup (map bd_id ns) /\ map seen_load (loads n) = map wanted_load (filter has_load3 ns) /\ map seen_asym (asyms n) = map wanted_asym (filter is_asym ns) /\ (forall b, In b ns -> is_asym b = true -> both three b).
Proof.
  intros ts ns ls n H. unfold NetData3P in H. apply bind_ok in H. destruct H as (m & HB & HL). unfold create_lines3 in HL.
  destruct (bus_tables3 _ _ _ HB (NoDup_nil _)) as (A1 & A2 & A3 & A4 & A5). cbn in A2, A3, A4. rewrite A2 in A1. split; [exact A1|]. rewrite <- A3, <- A4.
  assert (E : known n = known m /\ loads n = loads m /\ asyms n = asyms m); [|destruct E as (_ & -> & ->); auto].
  refine (each_keeps _ _ ls m n HL). intros x l x' E. cbv beta in E. destruct (0 <? ld_status l)%Z; [|injection E as <-; auto]. unfold create_line3 in E.
  destruct (if ld_end l <? ld_start l then (ld_end l, ld_start l) else (ld_start l, ld_end l)) as [f t].
  apply bind_ok in E. destruct E as (? & _ & E). apply bind_ok in E. destruct E as (? & _ & E). unfold pp_create_line in E. destruct (negb _); [discriminate|].
  destruct (ld_type l) as [s|]; [|discriminate]. destruct (find _ (types x)); [|discriminate]. apply line_keeps in E. exact E.
Qed.
End Tables.

Section Loads.
Context {K : Type} {O : Ops K} {F : Fld K} {O2 : OrdOps K} {OF : OrdFld K}.
Add Field Kfld : (@k_field K O F).
Notation CK := (cplx K).
Context (pinv : mat CK -> mat CK) (rnd : K -> Z) (root : K -> K) (polar : K -> K -> CK).
Context {St : Type} (randint : nat -> nat -> St -> list nat * St) (gauss : St -> K * St) (noise : @noise_fun K St K) (seeded : St).
Context (flow1 : net (K := K) -> mat K -> mat K -> res (mat K * mat K)).
Context (flow3 : net (K := K) -> mat K -> mat K -> list (mat K) -> res ((mat K * mat K) * (mat K * mat K) * (mat K * mat K))).
Context (y_bus3 : net (K := K) -> res (mat CK)).
Context (reduce3 : net (K := K) -> mat CK -> mat CK -> list nat -> bool -> res (list nat * mat CK)).
Context (seq_measurement seq_admittance : mat CK -> res (mat CK)).
Notation run := (simulate pinv rnd root polar randint gauss noise seeded flow1 flow3 y_bus3 reduce3 seq_measurement seq_admittance).
Notation nloads conf := (new_loads rnd randint gauss seeded conf).

(** *** what a run does to the loads file *)
Lemma recomputes_rl : forall o : options K, recomputes_loads o -> rl o = true.
Proof. intros o [H|(H1 & H2 & H3)]; unfold rl, redo; [rewrite H|rewrite H1, H2, H3]; reflexivity. Qed.
Lemma no_network : forall conf o ts template s s' r e, run conf o ts template s = (s', r) -> network o ts template = Err e -> r = Err e /\ s' = s.
Proof.
  intros conf o ts template s s' r e H E. unfold simulate in H. fold (network o ts template) in H. unfold then_ at 1, ret at 1 in H. rewrite E in H. injection H as <- <-. auto.
Qed.
Lemma after_loads : forall conf o ts template s s' r n ns q, run conf o ts template s = (s', r) -> network o ts template = Ok (n, ns) ->
  choose_loads conf o (rl o) (constant_nodes conf o ns) = Ok (Some q) ->
  match nloads conf (three_phased o) n q with Ok lf => f_loads s' = Some lf | Err e => r = Err e /\ s' = s end.
Proof.
  intros conf o ts template s s' r n ns q H EN EC. unfold simulate in H. fold (rl o) (rs o) (rd o) (network o ts template) in H.
  unfold then_ at 1, ret at 1 in H. rewrite EN in H. fold (constant_nodes conf o ns) in H. unfold then_ at 1, ret at 1 in H. rewrite EC in H.
  unfold then_ at 1, loads_step in H. destruct (nloads conf (three_phased o) n q) as [lf|e]; [|injection H as <- <-; auto].
  unfold then_ at 1 in H. destruct (simulate_step polar flow1 flow3 y_bus3 (three_phased o) n (if rs o then Some lf else None) _) as [s2 r2] eqn:ES.
  assert (R : f_loads s2 = Some lf).
  { unfold simulate_step in ES. destruct (rs o); [destruct (new_results _ _ _ _ _ n lf)|]; injection ES as <- _; reflexivity. }
  destruct r2 as [[[V I] Y]|e0]; [|injection H as <- _; auto].
  unfold then_ at 1 in H. destruct (noise_step rnd root noise seeded conf o (rd o) n V I (lf_t lf) s2) as [s3 r3] eqn:EM.
  assert (M : f_loads s3 = Some lf).
  { rewrite <- R. unfold noise_step in EM. destruct (measurements _ _ _ _ conf o (rd o) n V I (lf_t lf) (f_filtered s2)) as [[x sv]|]; injection EM as <- _; reflexivity. }
  destruct r3 as [[[m p] f]|e0]; [|injection H as <- _; auto]. destruct m as [[[nv ni] w] j].
  unfold then_ at 1, ret at 1 in H. destruct (ModelScript.reduced _ _ o n w j _) as [[todel y]|e0]; [|injection H as <- _; auto].
  unfold then_ at 1, ret at 1 in H. destruct (remaining_data _ _ o n (nv, ni, w, j) p f todel y) as [out|e0]; [|injection H as <- _; auto].
  unfold save_output in H. injection H as <- _. exact M.
Qed.
Lemma chosen_gaussian : forall conf (o : options K) c, recomputes_loads o -> (0 <! gaussian_loads o)%K -> choose_loads conf o (rl o) c = Ok (Some (FromStd (gaussian_loads o) (days conf) c)).
Proof. intros conf o c R G. rewrite (recomputes_rl o R). unfold choose_loads. replace (kltb 0%K (gaussian_loads o)) with true by (symmetry; exact G). reflexivity. Qed.
Lemma not_gaussian : forall o : options K, ~ (0 <! gaussian_loads o)%K -> kltb 0%K (gaussian_loads o) = false.
Proof. intros o G. apply not_true_is_false. exact G. Qed.
Lemma chosen_profiles : forall conf (o : options K) c u v, recomputes_loads o -> ~ (0 <! gaussian_loads o)%K -> profiles o = Some (u, v) ->
  choose_loads conf o (rl o) c = Ok (Some (FromProfiles u v (selected_weeks conf) (days conf) c)).
Proof. intros conf o c u v R G P. rewrite (recomputes_rl o R). unfold choose_loads. rewrite (not_gaussian o G), P. reflexivity. Qed.

(** *** columns and rows of the table *)
Lemma row_of : forall (n : net (K := K)) l i b, map seen_load (loads n) = map wanted_load l -> nth_error l i = Some b ->
  exists x, nth_error (loads n) i = Some x /\ l_bus x = bd_id b /\ l_p x = nominal_p b /\ l_q x = nominal_q b.
Proof.
  intros n l i b E H. assert (H1 : nth_error (map seen_load (loads n)) i = Some (wanted_load b)) by (rewrite E; apply map_nth_error; exact H).
  destruct (nth_error (loads n) i) as [x|] eqn:X.
  - rewrite (map_nth_error seen_load i (loads n) X) in H1. unfold seen_load, wanted_load in H1. exists x. split; [reflexivity|]. unfold nominal_p, nominal_q.
    destruct (Nat.eqb_spec (bd_type b) 1), (Nat.eq_dec (bd_type b) 1); try contradiction; injection H1 as -> -> ->; auto.
  - apply nth_error_None in X. assert (i < length (map seen_load (loads n))) by (apply nth_error_Some; rewrite H1; discriminate). rewrite map_length in *. lia.
Qed.
Lemma same_count : forall (n : net (K := K)) l, map seen_load (loads n) = map wanted_load l -> length (loads n) = length l.
Proof. intros n l E. rewrite <- (map_length seen_load), E, map_length. reflexivity. Qed.
Lemma isin_In : forall x l, isin x l = true <-> In x l.
Proof. intros x l. unfold isin. rewrite existsb_exists. split; [intros (y & Hy & E); apply Nat.eqb_eq in E; subst; exact Hy|intro H; exists x; split; [exact H|apply Nat.eqb_refl]]. Qed.
Lemma in_substations : forall (ns : list (bus_data (K := K))) lap h x, In x (with_substations ns lap h) <-> In x h \/ (lap = false /\ exists b, In b ns /\ bd_type b = 3 /\ bd_id b = x).
Proof.
  intros ns lap h x. unfold with_substations. destruct lap; [split; [auto|intros [H|[H _]]; [exact H|discriminate]]|]. rewrite in_app_iff, in_map_iff.
  change TYPE_PCC with 3. split; intros [H|H]; auto; right.
  - split; [reflexivity|]. destruct H as (b & E & H). apply filter_In in H. destruct H as [HB HT]. apply Nat.eqb_eq in HT. eauto.
  - destruct H as (_ & b & HB & HT & E). exists b. split; [exact E|]. apply filter_In. split; [exact HB|]. apply Nat.eqb_eq. exact HT.
Qed.
(** the substation, which has no load, makes no difference among the constant nodes *)
Lemma blend_substations : forall a lap h ns (n : net (K := K)) nom (m : mat K), NoDup (map bd_id ns) -> map seen_load (loads n) = map wanted_load (filter has_load ns) ->
  nc m = length (loads n) ->
  (forall i b t, nth_error (filter has_load ns) i = Some b -> bd_type b = 3 -> t < nr m -> vget nom i = 0%K /\ get m t i = 0%K) ->
  blend a (Some (with_substations ns lap h)) (map l_bus (loads n)) nom m = blend a (Some h) (map l_bus (loads n)) nom m.
Proof.
  intros a lap h ns n nom m ND E HC Z. cbn [blend]. apply (gshape_ext _ _ (nr m) (nc m)); [apply shape_mk|apply shape_mk|]. intros t i Ht Hi. rewrite !get_mk by assumption.
  rewrite HC, (same_count n _ E) in Hi. destruct (nth_error (filter has_load ns) i) as [b|] eqn:B; [|apply nth_error_None in B; lia].
  destruct (row_of n _ i b E B) as (x & X & XB & _). rewrite (nth_error_nth (map l_bus (loads n)) i 0 (map_nth_error l_bus i (loads n) X)), XB.
  pose proof (nth_error_In _ _ B) as IB. apply filter_In in IB. destruct IB as [IB HB]. unfold has_load in HB. apply orb_prop in HB.
  destruct (Nat.eq_dec (bd_type b) 3) as [T|T].
  - destruct (Z i b t B T Ht) as [-> ->]. destruct (isin _ _), (isin _ _); ring.
  - assert (ES : isin (bd_id b) (with_substations ns lap h) = isin (bd_id b) h); [|rewrite ES; reflexivity]. apply eq_true_iff_eq. rewrite !isin_In, in_substations.
    split; [|auto]. intros [A|(_ & b' & IB' & T' & EB)]; [exact A|]. exfalso. apply T. rewrite <- T'. f_equal.
    clear - ND IB IB' EB. induction ns as [|c ns IH]; [destruct IB|]. cbn [map] in ND. inversion ND as [|? ? N1 N2]. subst. destruct IB as [->|IB], IB' as [->|IB']; [reflexivity| | |apply IH; assumption].
    + exfalso. apply N1. rewrite <- EB. apply in_map. exact IB'.
    + exfalso. apply N1. rewrite EB. apply in_map. exact IB.
Qed.
Lemma columns_profiles : forall u v w len refs s P Q s', load_profile_from_numpy (K := K) rnd randint u v w len refs s = Ok (P, Q, s') -> nc P = length refs /\ nc Q = length refs.
Proof. intros u v w len refs s P Q s' H. unfold load_profile_from_numpy, fill_loads in H. apply bind_ok in H. destruct H as ([cols s1] & _ & H). injection H as <- <- _. split; apply shape_mk. Qed.
Lemma columns_gaussian : forall sd k refs s P Q s', generate_gaussian_load (K := K) gauss sd k refs s = Ok (P, Q, s') -> nc P = length refs /\ nc Q = length refs.
Proof.
  assert (N : forall sd k r s m s', normal_load (K := K) gauss sd k r s = Ok (m, s') -> nc m = length r).
  { intros sd k r s m s' H. unfold normal_load in H. destruct (existsb _ r); [discriminate|]. destruct (normals gauss (k * length r) s). injection H as <- _. apply shape_mk. }
  intros sd k refs s P Q s' H. unfold generate_gaussian_load in H. apply bind_ok in H. destruct H as ([p s1] & H1 & H). apply bind_ok in H. destruct H as ([q s2] & H2 & H). injection H as <- <- _.
  rewrite (N _ _ _ _ _ _ H1), (N _ _ _ _ _ _ H2), !map_length. auto.
Qed.
Definition with_const (p : load_params (K := K)) (c : option (list nat)) : load_params :=
  match p with FromProfiles u v w d _ => FromProfiles u v w d c | FromStd q d _ => FromStd q d c end.
Lemma constant_list : forall conf o ns (n : net (K := K)) p, rounds rnd -> three_phased o = false -> NoDup (map bd_id ns) -> map seen_load (loads n) = map wanted_load (filter has_load ns) ->
  nloads conf false n (with_const p (constant_nodes conf o ns)) = nloads conf false n (with_const p (kept_constant conf)).
Proof.
  intros conf o ns n p R H3 ND E. unfold constant_nodes, kept_constant. destruct (constant_load_hidden_nodes conf); [|reflexivity]. unfold hidden_list. rewrite H3.
  assert (G : forall P Q t x s', generate_loads rnd randint gauss (load_constantness conf) seeded n (Some (with_const p None)) None seeded = Ok ((P, Q, t), x, s') -> nc P = length (loads n) -> nc Q = length (loads n) ->
    blend (load_constantness conf) (Some (with_substations ns (laplacian o) (hidden_nodes conf))) (map l_bus (loads n)) (map l_p (loads n)) P =
      blend (load_constantness conf) (Some (hidden_nodes conf)) (map l_bus (loads n)) (map l_p (loads n)) P /\
    blend (load_constantness conf) (Some (with_substations ns (laplacian o) (hidden_nodes conf))) (map l_bus (loads n)) (map l_q (loads n)) Q =
      blend (load_constantness conf) (Some (hidden_nodes conf)) (map l_bus (loads n)) (map l_q (loads n)) Q).
  { intros P Q t x s' H CP CQ.
    assert (Z : forall i b, nth_error (filter has_load ns) i = Some b -> bd_type b = 3 ->
      vget (map l_p (loads n)) i = 0%K /\ vget (map l_q (loads n)) i = 0%K /\ (forall k, k < nr P -> get P k i = 0%K) /\ (forall k, k < nr Q -> get Q k i = 0%K)).
    { intros i b B T. destruct (row_of n _ i b E B) as (l & L & _ & LP & LQ). unfold nominal_p in LP. unfold nominal_q in LQ. destruct (Nat.eq_dec (bd_type b) 1); [lia|].
      unfold vget. rewrite (nth_error_nth _ i 0%K (map_nth_error l_p i (loads n) L)), (nth_error_nth _ i 0%K (map_nth_error l_q i (loads n) L)). split; [exact LP|]. split; [exact LQ|].
      destruct (C50_one_phase K O F O2 OF St rnd randint gauss _ seeded n _ _ _ _ _ _ _ _ R H i l L) as [A B0]. split; [exact (A LP)|exact (B0 LQ)]. }
    split; apply blend_substations; auto; intros i b k B T Hk; destruct (Z i b B T) as (Z1 & Z2 & Z3 & Z4); auto. }
  destruct p as [u v w d c0|q d c0]; cbn [with_const]; unfold new_loads, generate_loads; cbn [with_const] in G; unfold generate_loads in G.
  - destruct (lines_per_week d (length w)) as [len|]; [|reflexivity]. cbn [bind] in *.
    destruct (load_profile_from_numpy rnd randint u v (skip_lines w) len (refs_of n) seeded) as [[[P Q] s1]|] eqn:EP; [|reflexivity]. cbn [bind] in *.
    destruct (columns_profiles _ _ _ _ _ _ _ _ _ EP) as [CP CQ]. unfold refs_of in CP, CQ. rewrite map_length in CP, CQ. destruct (G _ _ _ _ _ eq_refl CP CQ) as [E1 E2].
    change (blend (load_constantness conf) None (map l_bus (loads n)) (map l_p (loads n)) P) with P in E1. change (blend (load_constantness conf) None (map l_bus (loads n)) (map l_q (loads n)) Q) with Q in E2.
    rewrite E1, E2. reflexivity.
  - destruct (generate_gaussian_load gauss q (length (time_stamps d)) (refs_of n) seeded) as [[[P Q] s1]|] eqn:EP; [|reflexivity]. cbn [bind] in *.
    destruct (columns_gaussian _ _ _ _ _ _ _ EP) as [CP CQ]. unfold refs_of in CP, CQ. rewrite map_length in CP, CQ. destruct (G _ _ _ _ _ eq_refl CP CQ) as [E1 E2].
    change (blend (load_constantness conf) None (map l_bus (loads n)) (map l_p (loads n)) P) with P in E1. change (blend (load_constantness conf) None (map l_bus (loads n)) (map l_q (loads n)) Q) with Q in E2.
    rewrite E1, E2. reflexivity.
Qed.
Lemma one_phase_net : forall (o : options K) ts ns ls, three_phased o = false ->
  network o ts (Some (ns, ls)) = match NetData (Some ns) (Some ls) None with Ok n => Ok (n, ns) | Err e => Err e end.
Proof. intros o ts ns ls H. unfold network. rewrite H. unfold make_net. destruct (NetData _ _ _); reflexivity. Qed.
Lemma three_phase_net : forall (o : options K) ts ns ls, three_phased o = true ->
  network o ts (Some (ns, ls)) = match NetData3P ts (Some ns) (Some ls) None with Ok n => Ok (n, ns) | Err e => Err e end.
Proof. intros o ts ns ls H. unfold network. rewrite H. unfold make_net3. destruct (NetData3P _ _ _ _); reflexivity. Qed.
Lemma no_template : forall (o : options K) ts, network o ts None = Err AttributeError.
Proof. intros o ts. unfold network. destruct (three_phased o); reflexivity. Qed.
(** the loads of a one-phase run *)
Lemma one_phase_loads : forall conf o ts ns ls s s' r p, rounds rnd -> three_phased o = false ->
  (forall c, choose_loads conf o (rl o) c = Ok (Some (with_const p c))) -> run conf o ts (Some (ns, ls)) s = (s', r) ->
  (exists e, r = Err e /\ s' = s /\ forall n, NetData (Some ns) (Some ls) None = Ok n -> nloads conf false n (with_const p (kept_constant conf)) = Err e) \/
  exists n lf, NetData (Some ns) (Some ls) None = Ok n /\ nloads conf false n (with_const p (kept_constant conf)) = Ok lf /\ f_loads s' = Some lf.
Proof.
  intros conf o ts ns ls s s' r p R H3 HC H. pose proof (one_phase_net o ts ns ls H3) as EN. destruct (NetData (Some ns) (Some ls) None) as [n|e] eqn:ED.
  - pose proof (after_loads _ _ _ _ _ _ _ _ _ _ H EN (HC _)) as A. destruct (tables ns ls n ED) as [ND T]. rewrite H3, (constant_list conf o ns n p R H3 ND T) in A.
    destruct (nloads conf false n (with_const p (kept_constant conf))) as [lf|e] eqn:EL; [right; eauto|]. left. exists e. destruct A as [-> ->]. split; [reflexivity|]. split; [reflexivity|].
    intros n' E. injection E as <-. exact EL.
  - left. exists e. destruct (no_network _ _ _ _ _ _ _ _ H EN) as [-> ->]. split; [reflexivity|]. split; [reflexivity|]. discriminate.
Qed.
Lemma new_loads_one : forall conf (n : net (K := K)) p lf, nloads conf false n p = Ok lf ->
  lf_a lf = None /\ exists x s', generate_loads rnd randint gauss (load_constantness conf) seeded n (Some p) None seeded = Ok ((lf_p lf, lf_q lf, lf_t lf), x, s').
Proof. intros conf n p lf H. unfold new_loads in H. apply bind_ok in H. destruct H as ([[[[P Q] t] x] s'] & H & E). injection E as <-. split; [reflexivity|]. exists x, s'. exact H. Qed.

(** option -g: normally distributed values around the nominal loads of the template, drawn one after the other from the seed; option -a and -r do not count *)
Theorem C107_gaussian : forall conf o ts ns ls s s' r, rounds rnd -> three_phased o = false -> recomputes_loads o -> (0 <! gaussian_loads o)%K ->
  run conf o ts (Some (ns, ls)) s = (s', r) ->
  (exists e, r = Err e /\ s' = s) \/
  exists lf, f_loads s' = Some lf /\ lf_a lf = None /\
    let N := length (filter has_load ns) in every_minute (days conf) N lf /\
    forall i b t, nth_error (filter has_load ns) i = Some b -> t < 1440 * days conf ->
      mixes (load_constantness conf) (nominal_p b) (kept_constant conf) (bd_id b)
        (nominal_p b + nominal_p b * gaussian_loads o * drawn gauss seeded (t * N + i))%K (get (lf_p lf) t i) /\
      mixes (load_constantness conf) (nominal_q b) (kept_constant conf) (bd_id b)
        (nominal_q b + nominal_q b * gaussian_loads o * drawn gauss seeded ((1440 * days conf + t) * N + i))%K (get (lf_q lf) t i).
Proof.
  intros conf o ts ns ls s s' r R H3 HR HG H.
  destruct (one_phase_loads conf o ts ns ls s s' r (FromStd (gaussian_loads o) (days conf) None) R H3 (fun c => chosen_gaussian conf o c HR HG) H) as [(e & A & B & _)|(n & lf & ED & EL & EF)]; [left; eauto|].
  right. exists lf. split; [exact EF|]. cbn [with_const] in EL. destruct (new_loads_one conf n _ lf EL) as (EA & x & s1 & EG). split; [exact EA|]. destruct (tables ns ls n ED) as [_ T].
  destruct (C51_gaussian _ _ _ _ _ _ _ _ _ _ _ _ _ _ _ _ _ _ _ _ _ EG) as (S1 & S2 & S3 & S4 & V). rewrite (same_count n _ T) in *. cbv zeta. split; [repeat split; auto; apply S1 || apply S2|].
  intros i b t B Ht. destruct (row_of n _ i b T B) as (l & L & <- & <- & <-). apply V; assumption.
Qed.
(** options -a and -r: sums of as many households as the nominal load of the template asks for *)
Theorem C107_profiles : forall conf o ts ns ls s s' r active reactive c, rounds rnd -> fair randint -> three_phased o = false -> recomputes_loads o -> ~ (0 <! gaussian_loads o)%K ->
  profiles o = Some (active, reactive) -> selected_weeks conf <> [] -> days conf = c * length (selected_weeks conf) -> (Z.of_nat c * 1440 <= 2 ^ 53)%Z ->
  long_enough active (selected_weeks conf) (1440 * c) -> long_enough reactive (selected_weeks conf) (1440 * c) ->
  run conf o ts (Some (ns, ls)) s = (s', r) ->
  (exists e, r = Err e /\ s' = s) \/
  exists lf, f_loads s' = Some lf /\ lf_a lf = None /\
    let N := length (filter has_load ns) in every_minute (days conf) N lf /\
    exists MP MQ sp sq, selects active (selected_weeks conf) (1440 * c) MP /\ selects reactive (selected_weeks conf) (1440 * c) MQ /\
    (0 < N -> typical_share MP sp /\ typical_share MQ sq) /\
    exists (dp dq : nat -> list nat) last,
      in_turn randint seeded (flat_map (fun i => [(nc active, dp i); (nc reactive, dq i)]) (seq 0 N)) last /\
      forall i b, nth_error (filter has_load ns) i = Some b ->
        from_picks (load_constantness conf) MP sp (nominal_p b) (kept_constant conf) (bd_id b) (dp i) (fun t => get (lf_p lf) t i) /\
        from_picks (load_constantness conf) MQ sq (nominal_q b) (kept_constant conf) (bd_id b) (dq i) (fun t => get (lf_q lf) t i).
Proof.
  intros conf o ts ns ls s s' r active reactive c R FR H3 HR HG HP HW HD HC L1 L2 H.
  destruct (one_phase_loads conf o ts ns ls s s' r (FromProfiles active reactive (selected_weeks conf) (days conf) None) R H3 (fun c => chosen_profiles conf o c _ _ HR HG HP) H)
    as [(e & A & B & _)|(n & lf & ED & EL & EF)]; [left; eauto|].
  right. exists lf. split; [exact EF|]. cbn [with_const] in EL. destruct (new_loads_one conf n _ lf EL) as (EA & x & s1 & EG). split; [exact EA|]. destruct (tables ns ls n ED) as [_ T].
  destruct (C51_profiles _ _ _ _ _ _ _ _ _ _ _ _ _ _ _ _ _ _ _ _ _ _ _ _ _ R FR HW HD HC L1 L2 EG) as (S1 & S2 & S3 & S4 & _).
  destruct (C51_successive_draws _ _ _ _ _ _ _ _ _ _ _ _ _ _ _ _ _ _ _ _ _ _ _ _ _ R FR HW HD HC L1 L2 EG) as (MP & MQ & sp & sq & D1 & D2 & D3 & dp & dq & I & V).
  rewrite (same_count n _ T) in *. cbv zeta. split; [repeat split; auto; apply S1 || apply S2|]. exists MP, MQ, sp, sq. split; [exact D1|]. split; [exact D2|]. split.
  { intro HN. apply D3. intro E. rewrite <- (same_count n _ T), E in HN. cbn in HN. lia. }
  exists dp, dq, s1. split; [exact I|]. intros i b B. destruct (row_of n _ i b T B) as (l & L & <- & <- & <-). apply V. exact L.
Qed.
(** neither -g nor profiles: nothing is done *)
Theorem C107_no_source : forall conf o ts ns ls s n, recomputes_loads o -> ~ (0 <! gaussian_loads o)%K -> profiles o = None ->
  (if three_phased o then NetData3P ts (Some ns) (Some ls) None else NetData (Some ns) (Some ls) None) = Ok n -> run conf o ts (Some (ns, ls)) s = (s, Err SystemExit).
Proof.
  intros conf o ts ns ls s n HR HG HP ED.
  assert (EN : network o ts (Some (ns, ls)) = Ok (n, ns)).
  { destruct (three_phased o) eqn:H3; [rewrite (three_phase_net o ts ns ls H3), ED|rewrite (one_phase_net o ts ns ls H3), ED]; reflexivity. }
  unfold simulate. fold (rl o) (network o ts (Some (ns, ls))). unfold then_ at 1, ret at 1. rewrite EN. fold (constant_nodes conf o ns). unfold then_ at 1, ret at 1.
  rewrite (recomputes_rl o HR). unfold choose_loads. rewrite (not_gaussian o HG), HP. reflexivity.
Qed.
(** options -t and -g together always fail *)
Theorem C107_three_phases_gaussian : forall conf o ts ns ls s n, three_phased o = true -> recomputes_loads o -> (0 <! gaussian_loads o)%K ->
  NetData3P ts (Some ns) (Some ls) None = Ok n -> run conf o ts (Some (ns, ls)) s = (s, Err NameError).
Proof.
  intros conf o ts ns ls s n H3 HR HG ED. destruct (run conf o ts (Some (ns, ls)) s) as [s' r] eqn:H. pose proof (three_phase_net o ts ns ls H3) as EN. rewrite ED in EN.
  pose proof (after_loads _ _ _ _ _ _ _ _ _ _ H EN (chosen_gaussian conf o _ HR HG)) as A. rewrite H3 in A. cbn in A. destruct A as [-> ->]. reflexivity.
Qed.
Lemma three_as_one : forall a (n : net (K := K)) u v w d const P Q asym t s', generate_loads_3ph rnd randint a seeded n (FromProfiles u v w d const) = Ok (P, Q, asym, t, s') ->
  exists x s1, generate_loads rnd randint gauss a seeded n (Some (FromProfiles u v w d const)) None seeded = Ok ((P, Q, t), x, s1).
Proof.
  intros a n u v w d const P Q asym t s' H. unfold generate_loads_3ph in H. unfold generate_loads. destruct (lines_per_week d (length w)) as [len|]; [|discriminate]. cbn [bind] in *.
  destruct (load_profile_from_numpy rnd randint u v (skip_lines w) len (refs_of n) seeded) as [[[P0 Q0] s1]|]; [|discriminate]. cbn [bind] in *.
  destruct (load_asym_from_numpy rnd randint u v (skip_lines w) len _ s1) as [[la s2]|]; [|discriminate]. cbn [bind] in H. injection H as <- <- _ <- _. eauto.
Qed.
Lemma asym_row_of : forall (n : net (K := K)) l i b, map seen_asym (asyms n) = map wanted_asym l -> nth_error l i = Some b -> both three b ->
  exists x, nth_error (asyms n) i = Some x /\ a_bus x = bd_id b /\ forall ph, ph < 3 -> a_p x ph = of_phase (bd_p b) ph /\ a_q x ph = of_phase (bd_q b) ph.
Proof.
  intros n l i b E H [(p1 & p2 & p3 & EP) (q1 & q2 & q3 & EQ)]. assert (H1 : nth_error (map seen_asym (asyms n)) i = Some (wanted_asym b)) by (rewrite E; apply map_nth_error; exact H).
  destruct (nth_error (asyms n) i) as [x|] eqn:X.
  - rewrite (map_nth_error seen_asym i (asyms n) X) in H1. unfold seen_asym, wanted_asym in H1. rewrite EP, EQ in H1. exists x. split; [reflexivity|].
    injection H1 as H0 A1 A2 A3 B1 B2 B3. split; [exact H0|]. intros [|[|[|ph]]] Hp; [| | |lia]; rewrite EP, EQ; cbn; auto.
  - apply nth_error_None in X. assert (i < length (map seen_asym (asyms n))) by (apply nth_error_Some; rewrite H1; discriminate). rewrite map_length in *. lia.
Qed.
(** options -t, -a and -r: the same for the balanced loads and for each phase of the unbalanced ones *)
Theorem C107_three_phases : forall conf o ts ns ls s s' r active reactive c, rounds rnd -> fair randint -> three_phased o = true -> recomputes_loads o -> ~ (0 <! gaussian_loads o)%K ->
  profiles o = Some (active, reactive) -> selected_weeks conf <> [] -> days conf = c * length (selected_weeks conf) -> (Z.of_nat c * 1440 <= 2 ^ 53)%Z ->
  long_enough active (selected_weeks conf) (1440 * c) -> long_enough reactive (selected_weeks conf) (1440 * c) ->
  run conf o ts (Some (ns, ls)) s = (s', r) ->
  (exists e, r = Err e /\ s' = s) \/
  exists lf asym, f_loads s' = Some lf /\ lf_a lf = Some asym /\ length asym = 6 /\
    let N := length (filter has_load3 ns) in let M := length (filter is_asym ns) in every_minute (days conf) N lf /\
    (forall k d, k < 6 -> shape (nth k asym d) (1440 * days conf) M) /\
    exists MP MQ sp sq, selects active (selected_weeks conf) (1440 * c) MP /\ selects reactive (selected_weeks conf) (1440 * c) MQ /\
    (0 < N + M -> typical_share MP sp /\ typical_share MQ sq) /\
    exists (dp dq : nat -> list nat) (ap aq : nat -> nat -> list nat) last,
      in_turn randint seeded (flat_map (fun i => [(nc active, dp i); (nc reactive, dq i)]) (seq 0 N) ++
        flat_map (fun i => [(nc active, ap i 0); (nc active, ap i 1); (nc active, ap i 2); (nc reactive, aq i 0); (nc reactive, aq i 1); (nc reactive, aq i 2)]) (seq 0 M)) last /\
      (forall i b, nth_error (filter has_load3 ns) i = Some b ->
        from_picks (load_constantness conf) MP sp (nominal_p b) (kept_constant conf) (bd_id b) (dp i) (fun t => get (lf_p lf) t i) /\
        from_picks (load_constantness conf) MQ sq (nominal_q b) (kept_constant conf) (bd_id b) (dq i) (fun t => get (lf_q lf) t i)) /\
      (forall i b ph d, nth_error (filter is_asym ns) i = Some b -> ph < 3 ->
        from_picks (load_constantness conf) MP sp (of_phase (bd_p b) ph) (kept_constant conf) (bd_id b) (ap i ph) (fun t => get (nth ph asym d) t i) /\
        from_picks (load_constantness conf) MQ sq (of_phase (bd_q b) ph) (kept_constant conf) (bd_id b) (aq i ph) (fun t => get (nth (3 + ph) asym d) t i)).
Proof.
  intros conf o ts ns ls s s' r active reactive c R FR H3 HR HG HP HW HD HC L1 L2 H.
  pose proof (three_phase_net o ts ns ls H3) as EN. destruct (NetData3P ts (Some ns) (Some ls) None) as [n|e] eqn:ED; [|left; exists e; exact (no_network _ _ _ _ _ _ _ _ H EN)].
  pose proof (after_loads _ _ _ _ _ _ _ _ _ _ H EN (chosen_profiles conf o _ _ _ HR HG HP)) as A. rewrite H3 in A.
  destruct (new_loads rnd randint gauss seeded conf true n _) as [lf|e] eqn:EL; [|left; exists e; exact A]. right.
  assert (EK : constant_nodes conf o ns = kept_constant conf) by (unfold constant_nodes, kept_constant, hidden_list; rewrite H3; reflexivity). rewrite EK in EL.
  unfold new_loads in EL. apply bind_ok in EL. destruct EL as ([[[[P Q] asym] t] last] & EG & EL). injection EL as <-. exists (LoadsFile P Q (Some asym) t), asym.
  split; [exact A|]. split; [reflexivity|]. destruct (tables3 ts ns ls n ED) as (_ & T & TA & TB).
  destruct (three_as_one _ _ _ _ _ _ _ _ _ _ _ _ EG) as (x & s1 & E1).
  destruct (C51_profiles _ _ _ _ _ _ _ _ _ _ _ _ _ _ _ _ _ _ _ _ _ _ _ _ _ R FR HW HD HC L1 L2 E1) as (S1 & S2 & S3 & S4 & _).
  destruct (C52_profiles_order _ _ _ _ _ _ _ _ _ _ _ _ _ _ _ _ _ _ _ _ _ _ R FR HW HD HC L1 L2 EG) as (LA & MP0 & MQ0 & sp0 & sq0 & _ & _ & _ & VS).
  destruct (C52_successive_draws _ _ _ _ _ _ _ _ _ _ _ _ _ _ _ _ _ _ _ _ _ _ R FR HW HD HC L1 L2 EG) as (MP & MQ & sp & sq & D1 & D2 & D3 & dp & dq & ap & aq & I & V & VA).
  assert (CA : length (asyms n) = length (filter is_asym ns)) by (rewrite <- (map_length seen_asym), TA, map_length; reflexivity).
  pose proof (same_count n _ T) as CL. rewrite CA in *. rewrite CL in *. split; [exact LA|]. cbv zeta. split; [repeat split; cbn [lf_p lf_q lf_t]; auto; apply S1 || apply S2|]. split.
  { intros k d Hk. destruct (Nat.lt_ge_cases k 3) as [Hl|Hl]; [exact (proj1 (VS k d Hl))|]. replace k with (3 + (k - 3)) by lia. apply VS. lia. }
  exists MP, MQ, sp, sq. split; [exact D1|]. split; [exact D2|]. split.
  { intro HN. apply D3. destruct (loads n) eqn:E; [|left; discriminate]. destruct (asyms n) eqn:E'; [|right; discriminate]. cbn in CA, CL. lia. }
  exists dp, dq, ap, aq, last. split; [exact I|]. split.
  - intros i b B. destruct (row_of n _ i b T B) as (l & L & <- & <- & <-). apply V. exact L.
  - intros i b ph d B Hp. pose proof (nth_error_In _ _ B) as IB. apply filter_In in IB. destruct IB as [IB IA].
    destruct (asym_row_of n _ i b TA B (TB b IB IA)) as (l & L & <- & EV). destruct (EV ph Hp) as [<- <-]. apply VA; assumption.
Qed.
(** the loads depend on the template, on -g or the profiles and on the settings for loads only: not on -l, -e, -s, -d, other settings and files *)
Theorem C107_same_loads : forall conf1 conf2 o1 o2 ts1 ts2 ns ls s1 s2 s1' s2' r1 r2, rounds rnd -> three_phased o1 = false -> three_phased o2 = false ->
  recomputes_loads o1 -> recomputes_loads o2 -> same_load_settings conf1 conf2 -> profiles o1 = profiles o2 -> gaussian_loads o1 = gaussian_loads o2 ->
  run conf1 o1 ts1 (Some (ns, ls)) s1 = (s1', r1) -> run conf2 o2 ts2 (Some (ns, ls)) s2 = (s2', r2) ->
  (exists e, r1 = Err e /\ s1' = s1 /\ r2 = Err e /\ s2' = s2) \/ exists lf, f_loads s1' = Some lf /\ f_loads s2' = Some lf.
Proof.
  intros conf1 conf2 o1 o2 ts1 ts2 ns ls s1 s2 s1' s2' r1 r2 R A3 B3 AR BR (E1 & E2 & E3 & E4 & E5) EP EG H1 H2.
  pose proof (one_phase_net o1 ts1 ns ls A3) as EN1. pose proof (one_phase_net o2 ts2 ns ls B3) as EN2.
  destruct (NetData (Some ns) (Some ls) None) as [n|e] eqn:ED.
  2: { left. exists e. destruct (no_network _ _ _ _ _ _ _ _ H1 EN1), (no_network _ _ _ _ _ _ _ _ H2 EN2). auto. }
  assert (G : forall p, (forall c, choose_loads conf1 o1 (rl o1) c = Ok (Some (with_const p c))) -> (forall c, choose_loads conf2 o2 (rl o2) c = Ok (Some (with_const p c))) ->
    (exists e, r1 = Err e /\ s1' = s1 /\ r2 = Err e /\ s2' = s2) \/ exists lf, f_loads s1' = Some lf /\ f_loads s2' = Some lf).
  { intros p C1 C2. pose proof (after_loads _ _ _ _ _ _ _ _ _ _ H1 EN1 (C1 _)) as P1. pose proof (after_loads _ _ _ _ _ _ _ _ _ _ H2 EN2 (C2 _)) as P2. destruct (tables ns ls n ED) as [ND T].
    rewrite A3, (constant_list conf1 o1 ns n p R A3 ND T) in P1. rewrite B3, (constant_list conf2 o2 ns n p R B3 ND T) in P2.
    assert (EK : new_loads rnd randint gauss seeded conf2 false n (with_const p (kept_constant conf2)) = new_loads rnd randint gauss seeded conf1 false n (with_const p (kept_constant conf1)))
      by (unfold kept_constant, new_loads; rewrite E1, E2, E3; reflexivity).
    rewrite EK in P2. destruct (new_loads rnd randint gauss seeded conf1 false n (with_const p (kept_constant conf1))) as [lf|e]; [right; eauto|]. left. exists e. tauto. }
  destruct (kltb 0%K (gaussian_loads o1)) eqn:EGB.
  - apply (G (FromStd (gaussian_loads o1) (days conf1) None)); intro c; [apply chosen_gaussian; auto|]. rewrite EG, E5. apply chosen_gaussian; [auto|]. rewrite <- EG. exact EGB.
  - assert (N1 : ~ (0 <! gaussian_loads o1)%K) by (intro X; unfold klt in X; congruence). assert (N2 : ~ (0 <! gaussian_loads o2)%K) by (rewrite <- EG; exact N1).
    destruct (profiles o1) as [[u v]|] eqn:P1.
    + apply (G (FromProfiles u v (selected_weeks conf1) (days conf1) None)); intro c; [apply chosen_profiles; auto|]. rewrite E4, E5. apply chosen_profiles; auto.
    + left. exists SystemExit. symmetry in EP. pose proof (C107_no_source conf1 o1 ts1 ns ls s1 n AR N1 P1) as Q1. rewrite A3 in Q1. pose proof (C107_no_source conf2 o2 ts2 ns ls s2 n BR N2 EP) as Q2. rewrite B3 in Q2.
      rewrite (Q1 ED) in H1. rewrite (Q2 ED) in H2. injection H1 as <- <-. injection H2 as <- <-. auto.
Qed.
End Loads.
Print Assumptions C107_gaussian.
Print Assumptions C107_profiles.
Print Assumptions C107_no_source.
Print Assumptions C107_three_phases_gaussian.
Print Assumptions C107_three_phases.
Print Assumptions C107_same_loads.

(** ** Examples *)
(** -g 0.5: bus 3 of 1 MW has 1 + 1 * 0.5 * 1 MW in the first minute *)
Example C107_gaussian_ex : exists lf, f_loads (x_first 4) = Some lf /\ every_minute 1 3 lf /\ get (lf_p lf) 0 2 = qq 3 2.
Proof.
  destruct (C107_gaussian _ _ _ _ _ _ _ _ _ _ _ _ _ _ (x_conf 4) (x_opt (qq 1 2) false false false) [] x_ns x_ls no_files (x_first 4) (Ok tt) roundq_rounds eq_refl
    (or_intror (Logic.conj eq_refl (Logic.conj eq_refl eq_refl))) ltac:(vm_compute; reflexivity) (x_first_ok 4 (or_introl eq_refl))) as [(e & E & _)|(lf & E & _ & M & V)]; [discriminate|].
  exists lf. split; [exact E|]. split; [exact M|]. destruct (V 2 (bd 3 1 1 1 10 0) 0 eq_refl ltac:(cbn; lia)) as [[_ P] _]. rewrite P by (intros (l & EL & IL); injection EL as <-; destruct IL).
  vm_compute. apply keqb_eq. reflexivity.
Qed.
(** the loads do not change with -l and another safety factor *)
Example C107_same_loads_ex : exists s r, xrun (x_conf 7) (Options Qc None (qq 1 2) true false false false false true false) [] x_net (x_first 2) = (s, r) /\ f_loads s = f_loads (x_first 4).
Proof.
  destruct (xrun (x_conf 7) (Options Qc None (qq 1 2) true false false false false true false) [] x_net (x_first 2)) as [s r] eqn:H. exists s, r. split; [reflexivity|].
  destruct (C107_same_loads _ _ _ _ _ _ _ _ _ _ _ _ _ _ (x_conf 4) (x_conf 7) (x_opt (qq 1 2) false false false) (Options Qc None (qq 1 2) true false false false false true false) [] [] x_ns x_ls
    no_files (x_first 2) (x_first 4) s (Ok tt) r roundq_rounds eq_refl eq_refl (or_intror (Logic.conj eq_refl (Logic.conj eq_refl eq_refl))) (or_introl eq_refl)
    (Logic.conj eq_refl (Logic.conj eq_refl (Logic.conj eq_refl (Logic.conj eq_refl eq_refl)))) eq_refl eq_refl (x_first_ok 4 (or_introl eq_refl)) H) as [(e & E & _)|(lf & E1 & E2)]; [discriminate|].
  rewrite E1, E2. reflexivity.
Qed.
Example C107_no_source_ex : xrun (x_conf 4) (x_opt (zq 0) false false false) [] x_net (x_first 4) = (x_first 4, Err SystemExit) /\
  xrun (x_conf 4) (Options Qc None (qq 1 2) false false false true false false false) [] (Some (x_ns3, [])) (x_first 4) = (x_first 4, Err NameError).
Proof.
  split.
  - destruct (NetData (Some x_ns) (Some x_ls) None) as [n|e] eqn:E; [|vm_compute in E; discriminate].
    refine (C107_no_source _ _ _ _ _ _ _ _ _ _ _ _ _ _ (x_conf 4) (x_opt (zq 0) false false false) [] x_ns x_ls (x_first 4) n _ _ eq_refl E); [right; auto|]. intro G. vm_compute in G. discriminate.
  - destruct (NetData3P [] (Some x_ns3) (Some []) None) as [n|e] eqn:E; [|vm_compute in E; discriminate].
    refine (C107_three_phases_gaussian _ _ _ _ _ _ _ _ _ _ _ _ _ _ (x_conf 4) (Options Qc None (qq 1 2) false false false true false false false) [] x_ns3 [] (x_first 4) n eq_refl _ _ E); [right; auto|].
    vm_compute. reflexivity.
Qed.
(** profiles: bus 2 of 7 MW, hidden, has 0.2 * (1 + 2) + 0.8 * 7 MW in the first minute; the run stops later since there is no file of results *)
Notation prun := (simulate inv_of roundq root4 (fun m a => Cx m a) draw x_gauss adds 0 x_flow x_flow3 x_y3 x_reduce3 (fun m => Ok m) (fun m => Ok m)).
Definition pl_conf : settings Qc := Settings Qc [2] true (qq 4 5) [0; 1]%Z 2 2 (qq 1 21585) (zq 4) (zq 1) (zq 1) (zq 1) (zq 1).
Definition pl_opt (three : bool) : options Qc := Options Qc (Some (long_file, long_file)) (zq 0) true false false three false false false.
Definition pl_ns := [bd 1 3 9 9 10 0; bd 2 1 7 4 10 0; bd 3 1 0 5 10 0].
Definition pl_n : net (K := Qc) := match NetData (Some pl_ns) (Some []) None with Ok n => n | Err _ => pp_create_empty_network end.
Lemma pl_net : NetData (Some pl_ns) (Some []) None = Ok pl_n.
Proof. unfold pl_n. destruct (NetData (Some pl_ns) (Some []) None) eqn:E; [reflexivity|vm_compute in E; discriminate]. Qed.
Definition loads_are (r : res (loads_file Qc)) (f : loads_file Qc -> bool) : bool := match r with Ok lf => f lf | Err _ => false end.
Lemma pl_check : loads_are (new_loads roundq draw x_gauss 0 pl_conf false pl_n (FromProfiles long_file long_file [0; 1]%Z 2 (Some [2])))
  (fun lf => row_is (lf_p lf) 0 [zq 0; qq 31 5; zq 0] && row_is (lf_q lf) 0 [zq 0; qq 17 5; zq 3])%bool = true.
Proof. unfold new_loads, generate_loads. change (length [0; 1]%Z) with 2. rewrite (lines_exact 2 2 1) by (cbn; lia). vm_compute. reflexivity. Qed.
Lemma ok_inj : forall {A : Type} (a b : A), Ok a = Ok b -> a = b.
Proof. intros A a b H. injection H. auto. Qed.
Example C107_profiles_ex : exists s r lf, prun pl_conf (pl_opt false) [] (Some (pl_ns, [])) no_files = (s, r) /\ f_loads s = Some lf /\
  nth 0 (dat (lf_p lf)) [] = [zq 0; qq 31 5; zq 0] /\ nth 0 (dat (lf_q lf)) [] = [zq 0; qq 17 5; zq 3].
Proof.
  destruct (prun pl_conf (pl_opt false) [] (Some (pl_ns, [])) no_files) as [s r] eqn:H.
  destruct (one_phase_loads _ _ _ _ _ _ _ _ _ _ _ _ _ _ pl_conf (pl_opt false) [] pl_ns [] no_files s r (FromProfiles long_file long_file [0; 1]%Z 2 None) roundq_rounds eq_refl (fun c => eq_refl) H)
    as [(e & _ & _ & E)|(n & lf & EN & EL & EF)]; pose proof pl_check as C.
  - pose proof (E pl_n pl_net) as E'. change (with_const _ _) with (FromProfiles (K := Qc) long_file long_file [0; 1]%Z 2 (Some [2])) in E'. rewrite E' in C. discriminate.
  - rewrite pl_net in EN. apply ok_inj in EN. subst n. change (with_const _ _) with (FromProfiles (K := Qc) long_file long_file [0; 1]%Z 2 (Some [2])) in EL. rewrite EL in C. cbv beta iota delta [loads_are] in C. apply andb_prop in C. destruct C as [C1 C2].
    exists s, r, lf. split; [reflexivity|]. split; [exact EF|]. split; apply veqb_eq; assumption.
Qed.
(** three phases: bus 2 of 5 MW, and bus 3 with 0, 1 and 2 MW on its phases *)
Definition tl_file : mat Qc := flat_file (Z.to_nat 1440).
Definition tl_conf : settings Qc := Settings Qc [2] true (qq 4 5) [0]%Z 1 2 (qq 1 21585) (zq 4) (zq 1) (zq 1) (zq 1) (zq 1).
Definition tl_opt : options Qc := Options Qc (Some (tl_file, tl_file)) (zq 0) true false false true false false false.
Definition tl_ns := [bd 1 3 0 0 10 0; bd 2 1 5 2 10 0; BusData 3 1 (Phases (zq 0) (zq 1) (zq 2)) (Phases (zq 4) (zq 5) (zq 6)) (zq 10) (zq 0) (zq 0)].
Definition tl_n : net (K := Qc) := match NetData3P [] (Some tl_ns) (Some []) None with Ok n => n | Err _ => pp_create_empty_network end.
Lemma tl_net : NetData3P [] (Some tl_ns) (Some []) None = Ok tl_n.
Proof. unfold tl_n. destruct (NetData3P [] (Some tl_ns) (Some []) None) eqn:E; [reflexivity|vm_compute in E; discriminate]. Qed.
Lemma tl_check : loads_are (new_loads roundq draw x_gauss 0 tl_conf true tl_n (FromProfiles tl_file tl_file [0]%Z 1 (Some [2])))
  (fun lf => row_is (lf_p lf) 7 [zq 0; zq 5] && row_is (lf_q lf) 7 [zq 0; zq 2] &&
    match lf_a lf with Some a => rows_eqb (map (fun m => nth 7 (dat m) []) a) (map (map zq) [[0]; [1]; [2]; [4]; [5]; [6]]%Z) | None => false end)%bool = true.
Proof. unfold new_loads, generate_loads_3ph. change (length [0]%Z) with 1. rewrite (lines_exact 1 1 1) by (cbn; lia). vm_compute. reflexivity. Qed.
Lemma tl_chosen : choose_loads tl_conf tl_opt (rl tl_opt) (constant_nodes tl_conf tl_opt tl_ns) = Ok (Some (FromProfiles (K := Qc) tl_file tl_file [0]%Z 1 (Some [2]))).
Proof. reflexivity. Qed.
Example C107_three_phases_ex : exists s r lf a, prun tl_conf tl_opt [] (Some (tl_ns, [])) no_files = (s, r) /\ f_loads s = Some lf /\ lf_a lf = Some a /\
  nth 7 (dat (lf_p lf)) [] = [zq 0; zq 5] /\ nth 7 (dat (lf_q lf)) [] = [zq 0; zq 2] /\ map (fun m => nth 7 (dat m) []) a = map (map zq) [[0]; [1]; [2]; [4]; [5]; [6]]%Z.
Proof.
  destruct (prun tl_conf tl_opt [] (Some (tl_ns, [])) no_files) as [s r] eqn:H.
  pose proof (three_phase_net tl_opt [] tl_ns [] eq_refl) as EN. rewrite tl_net in EN.
  pose proof (after_loads _ _ _ _ _ _ _ _ _ _ _ _ _ _ _ _ _ _ _ _ _ _ _ _ H EN tl_chosen) as A. pose proof tl_check as C. change (three_phased tl_opt) with true in A.
  destruct (new_loads roundq draw x_gauss 0 tl_conf true tl_n (FromProfiles tl_file tl_file [0]%Z 1 (Some [2]))) as [lf|e]; [|discriminate].
  cbv beta iota delta [loads_are] in C. apply andb_prop in C. destruct C as [C C3]. apply andb_prop in C. destruct C as [C1 C2]. destruct (lf_a lf) as [a|] eqn:EA; [|discriminate].
  exists s, r, lf, a. split; [reflexivity|]. split; [exact A|]. split; [exact EA|]. split; [apply veqb_eq; exact C1|]. split; [apply veqb_eq; exact C2|]. apply rows_eqb_eq. exact C3.
Qed.
