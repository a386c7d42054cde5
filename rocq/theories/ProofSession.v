(** Proofs about several calls of simulate_network.py in one process. *)
From Coq Require Import String.
From Coq Require Import Bool Arith List ZArith Lia Ring Field Permutation Sorted.
From Verif Require Import BasePy BaseFld BaseOrd BaseSum BaseMat BaseLin BaseNumpy ModelErrorMetrics ModelSet ModelKron ModelNet ModelReduce
  ModelResample ModelLoads ModelMeasure ModelRun ModelScript ModelSession SpecLS SpecKron SpecNet SpecReduce SpecMeasure SpecScript SpecScriptData SpecSession
  ProofSet ProofKron ProofReduce ProofScript ProofScriptData ProofNet ProofNetBuild.
Import ListNotations.
Close Scope string_scope.
Local Open Scope K_scope.

(** ** lists with repeated entries at the end *)
Definition padded (a b : list nat) : Prop := exists d, b = a ++ d /\ incl d a.
Lemma padded_In : forall a b x, padded a b -> In x a <-> In x b.
Proof. intros a b x (d & -> & I). rewrite in_app_iff. split; [auto|]. intros [H|H]; auto. Qed.
Lemma padded_mem : forall a b x, padded a b -> mem x a = mem x b.
Proof. intros a b x H. apply mem_ext. intro y. apply padded_In. exact H. Qed.
Lemma padded_filter : forall p a b, padded a b -> padded (filter p a) (filter p b).
Proof. intros p a b (d & -> & I). exists (filter p d). split; [apply filter_app|]. intros x H. apply filter_In in H. apply filter_In. split; [apply I|]; tauto. Qed.
Lemma padded_map : forall f a b, padded a b -> padded (map f a) (map f b).
Proof. intros f a b (d & -> & I). exists (map f d). split; [apply map_app|]. intros x H. apply in_map_iff in H. destruct H as (y & <- & Hy). apply in_map, I, Hy. Qed.
Lemma padded_forallb : forall p a b, padded a b -> forallb p a = forallb p b.
Proof.
  intros p a b (d & -> & I). rewrite forallb_app. destruct (forallb p a) eqn:E; [|reflexivity]. symmetry. cbn. apply forallb_forall. intros x Hx.
  rewrite forallb_forall in E. apply E, I, Hx.
Qed.
Lemma fold_add_old : forall d t, incl d (keys t) -> fold_left set_add d t = t.
Proof. induction d as [|x d IH]; intros t H; [reflexivity|]. cbn. rewrite set_add_old by (apply H; left; auto). apply IH. intros y Hy. apply H. right. auto. Qed.
Lemma padded_set : forall a b, padded a b -> set_of a = set_of b.
Proof.
  intros a b (d & -> & I). unfold set_of. rewrite fold_left_app. fold (set_of a). symmetry. apply fold_add_old. intros x Hx. apply set_of_ok. apply I, Hx.
Qed.
Lemma padded_union : forall a b c, padded a b -> union_list a c = union_list b c.
Proof. intros a b c H. unfold union_list. rewrite (padded_set a b H). reflexivity. Qed.
Lemma padded_union_difference : forall a b c e, padded a b -> union_difference a c e = union_difference b c e.
Proof. intros a b c e H. unfold union_difference. rewrite (padded_set a b H). reflexivity. Qed.

Section Reduce.
Context {K : Type} {O : Ops K}.
Notation CK := (cplx K).
Lemma positions_app : forall (n : net (K := K)) a b, positions n (a ++ b) = (p <- positions n a ;; q <- positions n b ;; Ok (p ++ q)).
Proof.
  intros n a b. induction a as [|i a IH]; cbn [positions app bind].
  - destruct (positions n b); reflexivity.
  - destruct (position n i); [|reflexivity]. rewrite IH. destruct (positions n a); [|reflexivity]. cbn [bind]. destruct (positions n b); reflexivity.
Qed.
Lemma positions_sub : forall (n : net (K := K)) a d p, positions n a = Ok p -> incl d a -> exists q, positions n d = Ok q /\ incl q p.
Proof.
  intros n a d p H. revert d. assert (G : forall i, In i a -> exists k, position n i = Some k /\ In k p).
  { revert p H. induction a as [|i a IH]; intros p H j Hj; [destruct Hj|]. cbn [positions] in H. destruct (position n i) as [k|] eqn:E; [|discriminate].
    destruct (positions n a) as [q|] eqn:Q; [|discriminate]. injection H as <-. destruct Hj as [<-|Hj]; [exists k; split; [auto|left; auto]|].
    destruct (IH q eq_refl j Hj) as (k' & E' & I'). exists k'. split; [auto|right; auto]. }
  induction d as [|i d IH]; intros HI; [exists []; split; [reflexivity|intros x []]|].
  destruct (G i (HI i (or_introl eq_refl))) as (k & Ek & Ik). destruct IH as (q & Eq & Iq); [intros x Hx; apply HI; right; auto|].
  exists (k :: q). cbn [positions]. rewrite Ek, Eq. split; [reflexivity|]. intros x [<-|Hx]; auto.
Qed.
Lemma padded_positions : forall (n : net (K := K)) a b, padded a b ->
  match positions n a with Ok p => exists q, positions n b = Ok q /\ padded p q | Err e => positions n b = Err e end.
Proof.
  intros n a b (d & -> & I). rewrite positions_app. destruct (positions n a) as [p|e] eqn:E; [|reflexivity]. cbn [bind].
  destruct (positions_sub n a d p E I) as (q & -> & Iq). exists (p ++ q). split; [reflexivity|]. exists q. auto.
Qed.
Lemma padded_shunts : forall size (V I : mat CK) a b, padded a b -> make_shunts size V I a = make_shunts size V I b.
Proof.
  intros size V I a b H. unfold make_shunts. rewrite !(padded_forallb _ a b H).
  destruct (_ && _); [|reflexivity]. f_equal. unfold mkv. apply map_ext. intro i. rewrite (padded_mem a b i H). reflexivity.
Qed.
Lemma padded_shift : forall G a b, padded a b -> padded (shift G a) (shift G b).
Proof. intros G a b H. rewrite !shift_map. apply padded_map. exact H. Qed.
Lemma padded_reduce : forall pinv (n : net (K := K)) V I a b lap, padded a b -> reduce_network pinv n V I a lap = reduce_network pinv n V I b lap.
Proof.
  intros pinv n V I a b lap H. unfold reduce_network. destruct (make_y_bus n) as [Y|]; [|reflexivity]. cbn [bind].
  destruct (give_passive_nodes n) as [f|]; [|reflexivity]. cbn [bind]. destruct (positions n (f 0%nat)) as [Pa|]; [|reflexivity]. cbn [bind].
  pose proof (padded_positions n a b H) as Q. destruct (positions n a) as [p|e]; [|rewrite Q; reflexivity]. destruct Q as (q & -> & Hq). cbn [bind].
  destruct (positions n (grids n)) as [G|]; [|reflexivity]. cbn [bind]. pose proof (padded_filter (fun i => negb (mem i G)) _ _ Hq) as Hf.
  rewrite (padded_union _ _ Pa Hq). destruct lap.
  - cbn [bind]. rewrite (padded_shunts _ V I _ _ Hf), (padded_union_difference _ _ Pa G Hf). reflexivity.
  - destruct (delete_cols Y G) as [x|]; [|reflexivity]. cbn [bind]. destruct (delete_rows x G) as [z|]; [|reflexivity]. cbn [bind].
    pose proof (padded_shift G _ _ Hf) as Hs. rewrite (padded_shunts _ V I _ _ Hs), (padded_union_difference _ _ (shift G Pa) G Hs). reflexivity.
Qed.
End Reduce.

Section Calls.
Context {K : Type} {O : Ops K} {O2 : OrdOps K}.
Notation CK := (cplx K).
Lemma blend_ext : forall a l1 l2 bs nom (m : mat K), (forall x, In x l1 <-> In x l2) -> blend a (Some l1) bs nom m = blend a (Some l2) bs nom m.
Proof.
  intros a l1 l2 bs nom m H. cbn [blend]. apply (gshape_ext _ _ (nr m) (nc m)); [apply shape_mk|apply shape_mk|]. intros i j Hi Hj. rewrite !get_mk by auto.
  assert (E : isin (nth j bs 0%nat) l1 = isin (nth j bs 0%nat) l2).
  { unfold isin. apply eq_true_iff_eq. rewrite !existsb_exists. split; intros (y & Hy & E); exists y; (split; [apply H; exact Hy|exact E]). }
  rewrite E. reflexivity.
Qed.
Lemma substation_list : forall ns : list (bus_data (K := K)), map bd_id (filter (fun b => bd_type b =? TYPE_PCC)%nat ns) = substation_ids ns.
Proof.
  induction ns as [|b ns IH]; [reflexivity|]. cbn [filter substation_ids]. change TYPE_PCC with 3%nat in *. destruct (Nat.eqb_spec (bd_type b) 3); destruct (Nat.eq_dec (bd_type b) 3); try contradiction; cbn [map]; rewrite IH; reflexivity.
Qed.

Context (pinv : mat CK -> mat CK) (rnd : K -> Z) (root : K -> K) (polar : K -> K -> CK).
Context {St : Type} (randint : nat -> nat -> St -> list nat * St) (gauss : St -> K * St) (noise : @noise_fun K St K) (seeded : St).
Context (flow1 : net (K := K) -> mat K -> mat K -> res (mat K * mat K)).
Context (flow3 : net (K := K) -> mat K -> mat K -> list (mat K) -> res ((mat K * mat K) * (mat K * mat K) * (mat K * mat K))).
Context (y_bus3 : net (K := K) -> res (mat CK)).
Context (reduce3 : net (K := K) -> mat CK -> mat CK -> list nat -> bool -> res (list nat * mat CK)).
Context (seq_measurement seq_admittance : mat CK -> res (mat CK)).
Notation run := (simulate pinv rnd root polar randint gauss noise seeded flow1 flow3 y_bus3 reduce3 seq_measurement seq_admittance).
Notation sess := (session pinv rnd root polar randint gauss noise seeded flow1 flow3 y_bus3 reduce3 seq_measurement seq_admittance).
Notation proc := (process pinv rnd root polar randint gauss noise seeded flow1 flow3 y_bus3 reduce3 seq_measurement seq_admittance).
Notation one := (run_call pinv rnd root polar randint gauss noise seeded flow1 flow3 y_bus3 reduce3 seq_measurement seq_admittance).

Lemma with_hidden_same : forall conf : settings K, with_hidden conf (hidden_nodes conf) = conf.
Proof. intros []. reflexivity. Qed.
Lemma with_hidden_twice : forall (conf : settings K) a b, with_hidden (with_hidden conf a) b = with_hidden conf b.
Proof. intros [] a b. reflexivity. Qed.

(** loads depend on the members of the list only *)
Lemma loads_ext : forall conf h n p a b st, (forall x, In x a <-> In x b) ->
  loads_step rnd randint gauss seeded (with_hidden conf h) false n
    (match p with None => None | Some (FromProfiles u v w d _) => Some (FromProfiles u v w d (Some a)) | Some (FromStd q d _) => Some (FromStd q d (Some a)) end) st =
  loads_step rnd randint gauss seeded conf false n
    (match p with None => None | Some (FromProfiles u v w d _) => Some (FromProfiles u v w d (Some b)) | Some (FromStd q d _) => Some (FromStd q d (Some b)) end) st.
Proof.
  intros conf h n p a b st H. unfold loads_step. destruct p as [p|]; [|reflexivity].
  assert (E : new_loads rnd randint gauss seeded (with_hidden conf h) false n (match p with FromProfiles u v w d _ => FromProfiles u v w d (Some a) | FromStd q d _ => FromStd q d (Some a) end) =
    new_loads rnd randint gauss seeded conf false n (match p with FromProfiles u v w d _ => FromProfiles u v w d (Some b) | FromStd q d _ => FromStd q d (Some b) end)).
  { unfold new_loads, generate_loads. change (load_constantness (with_hidden conf h)) with (load_constantness conf). destruct p as [u v w d c|q d c].
    - destruct (lines_per_week d (length w)) as [len|]; [|reflexivity]. cbn [bind].
      destruct (load_profile_from_numpy rnd randint u v (skip_lines w) len (refs_of n) seeded) as [[[P Q] s1]|]; [|reflexivity]. cbn [bind].
      rewrite !(blend_ext (load_constantness conf) a b) by exact H. reflexivity.
    - destruct (generate_gaussian_load gauss q (length (time_stamps d)) (refs_of n) seeded) as [[[P Q] s1]|]; [|reflexivity]. cbn [bind].
      rewrite !(blend_ext (load_constantness conf) a b) by exact H. reflexivity. }
  destruct p as [u v w d c|q d c]; rewrite E; reflexivity.
Qed.

(** a grounded call with repeated substations in the list *)
Lemma same_call : forall conf h o ts template s, three_phased o = false -> laplacian o = false ->
  (forall ns ls, template = Some (ns, ls) -> padded (hidden_nodes conf ++ substation_ids ns) (h ++ substation_ids ns)) ->
  run (with_hidden conf h) o ts template s = run conf o ts template s.
Proof.
  intros conf h o ts template s H3 HL HP. unfold simulate. rewrite H3. destruct template as [[ns ls]|]; [|reflexivity]. specialize (HP ns ls eq_refl).
  unfold then_ at 1, ret at 1. symmetry. unfold then_ at 1, ret at 1. symmetry.
  unfold make_net. destruct (NetData (Some ns) (Some ls) None) as [n|]; [|reflexivity]. cbn [bind].
  assert (E1 : hidden_list (with_hidden conf h) o ns = h ++ substation_ids ns) by (unfold hidden_list, with_substations; rewrite H3, HL, substation_list; reflexivity).
  assert (E2 : hidden_list conf o ns = hidden_nodes conf ++ substation_ids ns) by (unfold hidden_list, with_substations; rewrite H3, HL, substation_list; reflexivity).
  rewrite E1, E2. set (a := hidden_nodes conf ++ substation_ids ns) in *. set (b := h ++ substation_ids ns) in *.
  change (constant_load_hidden_nodes (with_hidden conf h)) with (constant_load_hidden_nodes conf).
  assert (EL : forall st, then_ (ret (choose_loads (with_hidden conf h) o (redo (loads_only o) (loads_only o) (network_sim_only o) (noise_only o)) (if constant_load_hidden_nodes conf then Some b else None)))
      (fun lp => loads_step rnd randint gauss seeded (with_hidden conf h) false n lp) st =
    then_ (ret (choose_loads conf o (redo (loads_only o) (loads_only o) (network_sim_only o) (noise_only o)) (if constant_load_hidden_nodes conf then Some a else None)))
      (fun lp => loads_step rnd randint gauss seeded conf false n lp) st).
  { intro st. unfold choose_loads. change (days (with_hidden conf h)) with (days conf). change (selected_weeks (with_hidden conf h)) with (selected_weeks conf).
    destruct (constant_load_hidden_nodes conf).
    - assert (HI : forall x, In x b <-> In x a) by (intro x; symmetry; apply padded_In; exact HP).
      destruct (redo _ _ _ _ && kltb 0 (gaussian_loads o))%bool; [exact (loads_ext conf h n (Some (FromStd (gaussian_loads o) (days conf) None)) b a st HI)|].
      destruct (profiles o) as [[u v]|].
      + destruct (redo _ _ _ _); [exact (loads_ext conf h n (Some (FromProfiles u v (selected_weeks conf) (days conf) None)) b a st HI)|exact (loads_ext conf h n None b a st HI)].
      + destruct (redo _ _ _ _); [reflexivity|exact (loads_ext conf h n None b a st HI)].
    - destruct (redo _ _ _ _ && kltb 0 (gaussian_loads o))%bool; [reflexivity|]. destruct (profiles o) as [[u v]|]; destruct (redo _ _ _ _); reflexivity. }
  specialize (EL s). unfold then_ at 1, ret at 1 in EL. unfold then_ at 1, ret at 1.
  symmetry in EL. symmetry. unfold then_ at 1, ret at 1 in EL. unfold then_ at 1, ret at 1.
  set (c1 := choose_loads conf o _ _) in *. set (c2 := choose_loads (with_hidden conf h) o _ _) in *.
  assert (REST : forall lf st, (! (voltage, current, _) <~ simulate_step polar flow1 flow3 y_bus3 false n (if redo (network_sim_only o) (loads_only o) (network_sim_only o) (noise_only o) then Some lf else None) ;;;
     ! (m, ratings, fparam) <~ noise_step rnd root noise seeded conf o (redo (noise_only o) (loads_only o) (network_sim_only o) (noise_only o)) n voltage current (lf_t lf) ;;;
     (let '(_, _, voltage0, current0) := m in
      ! (idx_todel, y_bus) <~ ret (ModelScript.reduced pinv reduce3 o n voltage0 current0 a) ;;;
      out <~ ret (remaining_data seq_measurement seq_admittance o n m ratings fparam idx_todel y_bus) ;;; save_output out)) st =
    (! (voltage, current, _) <~ simulate_step polar flow1 flow3 y_bus3 false n (if redo (network_sim_only o) (loads_only o) (network_sim_only o) (noise_only o) then Some lf else None) ;;;
     ! (m, ratings, fparam) <~ noise_step rnd root noise seeded (with_hidden conf h) o (redo (noise_only o) (loads_only o) (network_sim_only o) (noise_only o)) n voltage current (lf_t lf) ;;;
     (let '(_, _, voltage0, current0) := m in
      ! (idx_todel, y_bus) <~ ret (ModelScript.reduced pinv reduce3 o n voltage0 current0 b) ;;;
      out <~ ret (remaining_data seq_measurement seq_admittance o n m ratings fparam idx_todel y_bus) ;;; save_output out)) st).
  { intros lf st. unfold then_ at 1. symmetry. unfold then_ at 1. symmetry. destruct (simulate_step polar flow1 flow3 y_bus3 false n _ st) as [st1 [[[V I] Y]|]]; [|reflexivity].
    unfold then_ at 1. symmetry. unfold then_ at 1. symmetry.
    change (noise_step rnd root noise seeded (with_hidden conf h)) with (noise_step rnd root noise seeded conf).
    destruct (noise_step rnd root noise seeded conf o _ n V I (lf_t lf) st1) as [st2 [[[m p] f]|]]; [|reflexivity]. destruct m as [[[nv ni] v] i].
    unfold ModelScript.reduced. rewrite H3, HL. rewrite (padded_reduce pinv n v i a b false HP). reflexivity. }
  destruct c1 as [lp1|e1], c2 as [lp2|e2]; cbn beta iota in EL |- *.
  - unfold then_ at 1. symmetry. unfold then_ at 1. symmetry. rewrite <- EL. destruct (loads_step rnd randint gauss seeded conf false n lp1 s) as [s1 [lf|]]; [|reflexivity]. apply REST.
  - unfold then_ at 1. rewrite EL. reflexivity.
  - symmetry. unfold then_ at 1. rewrite <- EL. reflexivity.
  - injection EL as ->. reflexivity.
Qed.

Lemma list_other : forall conf ts h c, ~ grounded_call c -> list_after conf ts h c = h.
Proof.
  intros conf ts h c N. unfold list_after, hidden_list, with_substations, grounded_call in *. destruct (three_phased (c_options c)) eqn:E.
  - destruct (make_net3 ts (c_template c)) as [[n ns]|]; reflexivity.
  - destruct (make_net (c_template c)) as [[n ns]|]; [|reflexivity]. destruct (laplacian (c_options c)) eqn:L; [reflexivity|]. destruct N. auto.
Qed.
Lemma list_grounded : forall conf ts h c ns ls, grounded_call c -> c_template c = Some (ns, ls) ->
  list_after conf ts h c = h \/ list_after conf ts h c = h ++ substation_ids ns.
Proof.
  intros conf ts h c ns ls [H3 HL] E. unfold list_after, hidden_list, with_substations. rewrite H3, HL, E. unfold make_net.
  destruct (NetData (Some ns) (Some ls) None) as [n|]; [|left; reflexivity]. right. cbn [bind]. rewrite substation_list. reflexivity.
Qed.
Lemma padded_repeat : forall H P k, padded (H ++ P) ((H ++ concat (repeat P k)) ++ P).
Proof.
  intros H P k. destruct k; [exists []; cbn; rewrite !app_nil_r; split; [reflexivity|intros x []]|]. exists (concat (repeat P k) ++ P). split.
  - cbn [repeat concat]. rewrite <- !app_assoc. reflexivity.
  - assert (G : incl (concat (repeat P k)) P). { induction k; cbn [repeat concat]; [intros x []|]. intros x Hx. apply in_app_iff in Hx. destruct Hx; auto. }
    intros x Hx. apply in_app_iff in Hx. apply in_app_iff. right. destruct Hx; auto.
Qed.
Lemma concat_repeat_end : forall (P : list nat) k, concat (repeat P k) ++ P = concat (repeat P (S k)).
Proof. intros P k. induction k; cbn [repeat concat] in *; [rewrite app_nil_r; reflexivity|]. rewrite <- app_assoc, IHk. reflexivity. Qed.
Theorem p_session : forall conf ts d l, compatible l -> proc conf ts d l = separately (proc conf ts) d l.
Proof.
  intros conf ts d l (before & after & P & -> & HB & HA). unfold process at 1.
  assert (A : forall k d, sess conf ts (hidden_nodes conf ++ concat (repeat P k)) d after = separately (proc conf ts) d after).
  { clear HB. induction after as [|c l IH]; intros k d0; [reflexivity|]. cbn [session separately]. unfold process at 1. cbn [session].
    assert (E : one conf ts (hidden_nodes conf ++ concat (repeat P k)) d0 c = one conf ts (hidden_nodes conf) d0 c).
    { unfold run_call. destruct (HA c (or_introl eq_refl)) as [[H3 HL] HT]. rewrite with_hidden_same.
      rewrite (same_call conf (hidden_nodes conf ++ concat (repeat P k)) (c_options c) ts (c_template c) (d0 (c_name c)) H3 HL); [reflexivity|].
      intros ns ls Et. rewrite (HT ns ls Et). apply padded_repeat. }
    rewrite E. destruct (one conf ts (hidden_nodes conf) d0 c) as [d1 r].
    assert (E2 : exists j, list_after conf ts (hidden_nodes conf ++ concat (repeat P k)) c = hidden_nodes conf ++ concat (repeat P j)).
    { destruct (HA c (or_introl eq_refl)) as [G HT]. destruct (c_template c) as [[ns ls]|] eqn:Et.
      - destruct (list_grounded conf ts (hidden_nodes conf ++ concat (repeat P k)) c ns ls G Et) as [->| ->]; [exists k; reflexivity|]. exists (S k).
        rewrite (HT ns ls eq_refl), <- app_assoc, concat_repeat_end. reflexivity.
      - exists k. unfold list_after. rewrite Et. destruct (three_phased (c_options c)); reflexivity. }
    destruct E2 as [j ->]. cbn [app]. rewrite (IH (fun c0 H0 => HA c0 (or_intror H0)) j d1). destruct (separately (proc conf ts) d1 l). reflexivity. }
  revert d. induction before as [|c l IH]; intro d.
  - specialize (A 0%nat d). cbn [repeat concat] in A. rewrite app_nil_r in A. exact A.
  - cbn [app session separately]. unfold process at 1. cbn [session]. destruct (one conf ts (hidden_nodes conf) d c) as [d1 r]. rewrite (list_other conf ts _ c (HB c (or_introl eq_refl))).
    rewrite (IH (fun c0 H0 => HB c0 (or_intror H0)) d1). destruct (separately (proc conf ts) d1 (l ++ after)). reflexivity.
Qed.
End Calls.

(** ** a later call with the substations in the list *)
Section Later.
Context {K : Type} {O : Ops K} {F : Fld K} {O2 : OrdOps K} {OF : OrdFld K}.
Notation CK := (cplx K).
Lemma located_length : forall (n : net (K := K)) l ps, located n l ps -> length ps = length l.
Proof. intros n l ps H. induction H; cbn; auto. Qed.
Lemma located_NoDup_any : forall (n : net (K := K)) l ps, located n l ps -> NoDup l -> NoDup ps.
Proof.
  intros n l ps H. induction H as [|i p l ps E H IH]; intro N; [constructor|]. inversion N as [|? ? N1 N2]; subst. constructor; [|auto].
  intro I. apply N1. clear - E H I. induction H as [|j q l ps E' H IH]; [destruct I|]. destruct I as [->|I]; [left; congruence|right; auto].
Qed.
Lemma kron_rows : forall (pinv : mat CK -> mat CK) idx Y Z, kron_reduction pinv idx Y = Ok Z -> nr Z = length (remaining (nr Y) idx).
Proof.
  intros pinv idx Y Z H. unfold kron_reduction in H. apply bind_ok in H. destruct H as (kk & E & H).
  apply bind_ok in H. destruct H as (kr & _ & H). apply bind_ok in H. destruct H as (rr & _ & H). apply bind_ok in H. destruct H as (rk & _ & H).
  apply bind_ok in H. destruct H as (a & _ & H). apply bind_ok in H. destruct H as (b & _ & H). injection H as <-. cbn [nr msubt mk].
  unfold take2, take_rows, take_cols in E. destruct (forallb _ _); [|discriminate]. cbn [bind] in E. destruct (forallb _ _); [|discriminate]. injection E as <-. reflexivity.
Qed.
(** in a Laplacian all substations stay in the matrix, even hidden ones *)
Lemma laplacian_rows : forall (pinv : mat CK -> mat CK) (n : net (K := K)) V I hidden todel Z, consistent n -> NoDup (grids n) -> incl (grids n) hidden ->
  reduce_network pinv n V I hidden true = Ok (todel, Z) -> nr Z = (length (kept_ascending (length (buses n)) todel) + length (grids n))%nat.
Proof.
  intros pinv n V I hidden todel Z C NG HI H. destruct (reduce_located _ _ _ _ _ _ _ _ C H) as (Y & Hp & G & EY & LH & LG & HT). assert (N : NoDup (ids n)) by apply C.
  destruct (reduce_start pinv n V I hidden Hp G C LH LG) as (Pa & IP & PG & RS). rewrite (RS true Y EY) in H. cbv zeta in H. cbn [bind] in H.
  apply bind_ok in H. destruct H as (sh & _ & H). apply bind_ok in H. destruct H as (yr & EK & H). injection H as ET <-.
  assert (RY : nr Y = length (buses n)) by (unfold make_y_bus in EY; destruct (grids n); [discriminate|]; injection EY as <-; reflexivity).
  rewrite (kron_rows _ _ _ _ EK). cbn [nr madd mk]. rewrite RY. set (E := union_difference _ Pa G).
  rewrite <- (located_length _ _ _ LG), <- app_length. apply Permutation_length.
  assert (GT : forall x, In x G -> In x todel /\ (x < length (buses n))%nat).
  { intros x Hx. split; [|apply (located_lt _ _ _ _ LG Hx)]. apply HT. left. apply (located_In n hidden Hp x LH N). apply (located_In n (grids n) G x LG N) in Hx.
    destruct Hx as (j & Ej & Ij). exists j. auto. }
  apply NoDup_Permutation; [apply remaining_NoDup| |].
  - apply NoDup_app_disjoint; [apply kept_NoDup|apply (located_NoDup_any n (grids n)); auto|]. intros x H1 H2. apply kept_In in H1. destruct (GT x H2). tauto.
  - intro x. rewrite remaining_In, in_app_iff, kept_In. unfold E. rewrite (proj2 (union_difference_ok _ _ _) x), filter_In, negb_true_iff, mem_not_In. rewrite <- ET, union_list_In.
    specialize (GT x). specialize (PG x). rewrite <- ET, union_list_In in GT. destruct (in_dec Nat.eq_dec x G); intuition.
Qed.

Context (pinv : mat CK -> mat CK) (rnd : K -> Z) (root : K -> K) (polar : K -> K -> CK).
Context {St : Type} (randint : nat -> nat -> St -> list nat * St) (gauss : St -> K * St) (noise : @noise_fun K St K) (seeded : St).
Context (flow1 : net (K := K) -> mat K -> mat K -> res (mat K * mat K)).
Context (flow3 : net (K := K) -> mat K -> mat K -> list (mat K) -> res ((mat K * mat K) * (mat K * mat K) * (mat K * mat K))).
Context (y_bus3 : net (K := K) -> res (mat CK)).
Context (reduce3 : net (K := K) -> mat CK -> mat CK -> list nat -> bool -> res (list nat * mat CK)).
Context (seq_measurement seq_admittance : mat CK -> res (mat CK)).
Notation run := (simulate pinv rnd root polar randint gauss noise seeded flow1 flow3 y_bus3 reduce3 seq_measurement seq_admittance).
Notation proc := (process pinv rnd root polar randint gauss noise seeded flow1 flow3 y_bus3 reduce3 seq_measurement seq_admittance).

Lemma run_built : forall conf o ts ns ls s s', three_phased o = false -> run conf o ts (Some (ns, ls)) s = (s', Ok tt) -> exists n, NetData (Some ns) (Some ls) None = Ok n.
Proof.
  intros conf o ts ns ls s s' H3 H. unfold simulate in H. rewrite H3 in H. unfold then_ at 1, ret at 1 in H. unfold make_net in H.
  destruct (NetData (Some ns) (Some ls) None) as [n|]; [exists n; reflexivity|discriminate H].
Qed.
Lemma list_built : forall conf ts h c ns ls n, grounded_call c -> c_template c = Some (ns, ls) -> NetData (Some ns) (Some ls) None = Ok n ->
  list_after conf ts h c = h ++ substation_ids ns.
Proof.
  intros conf ts h c ns ls n [H3 HL] E EN. unfold list_after, hidden_list, with_substations. rewrite H3, HL, E. unfold make_net. rewrite EN. cbn [bind]. rewrite substation_list. reflexivity.
Qed.
(** the second of two calls, when the first is grounded and its network could be built *)
Lemma second_call : forall conf ts d c1 c2 ns ls n d' r1 r2, grounded_call c1 -> c_template c1 = Some (ns, ls) -> NetData (Some ns) (Some ls) None = Ok n ->
  proc conf ts d [c1; c2] = (d', [r1; r2]) -> exists d1 f, proc conf ts d [c1] = (d1, [r1]) /\
    run (with_hidden conf (hidden_nodes conf ++ substation_ids ns)) (c_options c2) ts (c_template c2) (d1 (c_name c2)) = (f, r2) /\ d' (c_name c2) = f.
Proof.
  intros conf ts d c1 c2 ns ls n d' r1 r2 G E EN H. unfold process in H. cbn [session] in H. unfold process. cbn [session].
  destruct (run_call _ _ _ _ _ _ _ _ _ _ _ _ _ _ conf ts (hidden_nodes conf) d c1) as [d1 q1]. rewrite (list_built conf ts _ c1 ns ls n G E EN) in H.
  unfold run_call in H. destruct (run (with_hidden conf (hidden_nodes conf ++ substation_ids ns)) (c_options c2) ts (c_template c2) (d1 (c_name c2))) as [f q2] eqn:R.
  injection H as <- <- <-. exists d1, f. split; [reflexivity|]. split; [exact R|]. unfold write. rewrite String.eqb_refl. reflexivity.
Qed.
Lemma first_call : forall conf ts d c1 c2 d' r1 r2, proc conf ts d [c1; c2] = (d', [r1; r2]) ->
  exists f, run conf (c_options c1) ts (c_template c1) (d (c_name c1)) = (f, r1).
Proof.
  intros conf ts d c1 c2 d' r1 r2 H. unfold process in H. cbn [session] in H. unfold run_call at 1 in H. rewrite with_hidden_same in H.
  destruct (run conf (c_options c1) ts (c_template c1) (d (c_name c1))) as [f q]. exists f.
  match type of H with (let '(_, _) := (let '(_, _) := ?x in _) in _) = _ => destruct x end. injection H as _ <- _. reflexivity.
Qed.

Lemma one_process : forall conf ts name o t d s' r, run conf o ts t (d name) = (s', r) -> proc conf ts d [Call name o t] = (write d name s', [r]).
Proof. intros conf ts name o t d s' r H. unfold process. cbn [session]. unfold run_call. cbn [c_name c_options c_template]. rewrite with_hidden_same, H. reflexivity. Qed.
Lemma both_calls : forall conf ts d c1 c2 d1 r1, proc conf ts d [c1] = (d1, [r1]) -> exists d2 r2, proc conf ts d [c1; c2] = (d2, [r1; r2]).
Proof.
  intros conf ts d c1 c2 d1 r1 H. unfold process in *. cbn [session] in *. destruct (run_call _ _ _ _ _ _ _ _ _ _ _ _ _ _ conf ts (hidden_nodes conf) d c1) as [d0 q].
  destruct (run_call _ _ _ _ _ _ _ _ _ _ _ _ _ _ conf ts (list_after conf ts (hidden_nodes conf) c1) d0 c2) as [d2 q2]. injection H as _ ->. eauto.
Qed.
Lemma two_processes : forall conf ts d c1 c2 d1 d2 r1 r2, proc conf ts d [c1] = (d1, [r1]) -> proc conf ts d1 [c2] = (d2, [r2]) -> separately (proc conf ts) d [c1; c2] = (d2, [r1; r2]).
Proof. intros conf ts d c1 c2 d1 d2 r1 r2 H1 H2. cbn [separately]. rewrite H1, H2. reflexivity. Qed.

Theorem p_later_laplacian : forall conf ts d c1 c2 ns ls d' r, grounded_call c1 -> c_template c1 = Some (ns, ls) -> c_template c2 = Some (ns, ls) ->
  three_phased (c_options c2) = false -> laplacian (c_options c2) = true -> sequence (c_options c2) = false -> recomputes (c_options c2) -> (forall b, In b ns -> both is_single b) ->
  proc conf ts d [c1; c2] = (d', [r; Ok tt]) ->
  exists i1 v1 i2 v2 y P f h, f_output (d' (c_name c2)) = Some (Simulation i1 v1 i2 v2 y P f h) /\
    nr y = (nc v2 + length (substation_ids ns))%nat /\ substation_ids ns <> [].
Proof.
  intros conf ts d c1 c2 ns ls d' r G E1 E2 H3 HL HQ HR HS H.
  assert (B : exists n, NetData (Some ns) (Some ls) None = Ok n).
  { unfold process in H. cbn [session] in H. destruct (run_call _ _ _ _ _ _ _ _ _ _ _ _ _ _ conf ts (hidden_nodes conf) d c1) as [d1 q1].
    unfold run_call in H. rewrite E2 in H. destruct (run (with_hidden conf (list_after conf ts (hidden_nodes conf) c1)) (c_options c2) ts (Some (ns, ls)) (d1 (c_name c2))) as [f q2] eqn:R.
    injection H as _ _ ->. exact (run_built _ _ _ _ _ _ _ H3 R). }
  destruct B as [n EN]. destruct (second_call _ _ _ _ _ _ _ _ _ _ _ G E1 EN H) as (d1 & f & _ & R & ->). rewrite E2 in R.
  destruct (run_facts _ _ _ _ _ _ _ _ _ _ _ _ _ _ _ _ _ _ _ _ _ H3 HQ HR HS R) as (n' & lf & V & Y & nv & ni & v & i & P & fp & todel & y & la & tsq & fm & FA).
  destruct FA as [EN' CO EI _ _ _ EG Ey _ _ _ _ FL _ _ _ _ RD _]. assert (n' = n) as -> by congruence. rewrite substation_list in EG.
  subst f. cbn [f_output]. do 8 eexists. split; [reflexivity|].
  assert (LB : length (buses n) = length ns) by (transitivity (length (ids n)); [unfold ids; rewrite map_length; reflexivity|rewrite EI; apply map_length]).
  split.
  - rewrite HL in RD. cbn [with_substations with_hidden hidden_nodes] in RD.
    assert (NI : NoDup (map bd_id ns)) by (rewrite <- EI; apply CO).
    erewrite laplacian_rows; [|exact CO| | |exact RD].
    + rewrite EG, LB. cbn [nc columns mk]. reflexivity.
    + rewrite EG. clear - NI. induction ns as [|b ns IH]; [constructor|]. cbn [map] in NI. inversion NI as [|? ? A B]; subst. cbn [substation_ids]. destruct (Nat.eq_dec (bd_type b) 3); [|auto].
      constructor; [|auto]. intro I0. apply A. clear - I0. induction ns as [|c ns IH]; [destruct I0|]. cbn [substation_ids] in I0. destruct (Nat.eq_dec (bd_type c) 3); [|right; auto].
      destruct I0 as [E|I0]; [left; auto|right; auto].
    + rewrite EG. intros x Hx. apply in_app_iff. right. exact Hx.
  - intro E0. rewrite E0 in EG. unfold make_y_bus in Ey. rewrite EG in Ey. discriminate Ey.
Qed.
End Later.
