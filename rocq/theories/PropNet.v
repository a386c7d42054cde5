(** C47 to C49: building networks. *)
From Coq Require Import String Bool Arith List Lia ZArith QArith Qcanon.
From Verif Require Import BasePy BaseFld BaseSum BaseMat BaseLin BaseOrd BaseEx ModelNet SpecNet ProofNet ProofNetBuild ProofNet3 ProofNetY.
Import ListNotations.
Close Scope Qc_scope. Close Scope Q_scope. Close Scope string_scope. Open Scope list_scope. Open Scope nat_scope.

(** ** C47 *)
(** the matrix of the network grows by the Laplacian of the given matrix *)
Theorem C47_lines_add_their_laplacian : forall K (O : Ops K) (F : Fld K) (FR : FReal K) (n : net (K := K)) (Y : mat (cplx K)),
  consistent n -> sn n <> 0%K -> grids n <> [] -> shape Y (length (buses n)) (length (buses n)) ->
  (forall i j, i < length (buses n) -> j < i -> get Y i j <> 0%K -> row_number_fits n i) ->
  exists n' Z, create_lines_from_ybus n Y = Ok n' /\ only_lines_changed n n' /\
    make_y_bus n = Ok Z /\ make_y_bus n' = Ok (madd Z (laplacian_of Y)).
Proof. exact @p_ybus_exact'. Qed.
Theorem C47_matrix_recovered : forall K (O : Ops K) (F : Fld K) (FR : FReal K) (n : net (K := K)) (Y : mat (cplx K)),
  consistent n -> sn n <> 0%K -> grids n <> [] -> shape Y (length (buses n)) (length (buses n)) ->
  (forall i j, i < length (buses n) -> j < i -> get Y i j <> 0%K -> row_number_fits n i) ->
  tr Y = Y -> (forall i, i < length (buses n) -> sumn (length (buses n)) (fun j => get Y i j) = 0%K) ->
  lines n = [] -> (forall l, In l (loads n) -> l_z l = 0%K) ->
  exists n', create_lines_from_ybus n Y = Ok n' /\ only_lines_changed n n' /\ make_y_bus n' = Ok Y.
Proof. exact @p_ybus'. Qed.
(** the usual case: buses numbered in a row from 0 or from 1, one base voltage *)
Theorem C47_matrix_recovered_one_voltage : forall K (O : Ops K) (F : Fld K) (FR : FReal K) (n : net (K := K)) (Y : mat (cplx K)) v,
  consistent n -> sn n <> 0%K -> grids n <> [] -> shape Y (length (buses n)) (length (buses n)) ->
  (ids n = seq 0 (length (buses n)) \/ ids n = seq 1 (length (buses n))) -> v <> 0%K -> (forall b, In b (buses n) -> b_kv b = v) ->
  tr Y = Y -> (forall i, i < length (buses n) -> sumn (length (buses n)) (fun j => get Y i j) = 0%K) ->
  lines n = [] -> (forall l, In l (loads n) -> l_z l = 0%K) ->
  exists n', create_lines_from_ybus n Y = Ok n' /\ only_lines_changed n n' /\ make_y_bus n' = Ok Y.
Proof. exact @p_ybus_uniform. Qed.
(** row numbers are looked up as bus numbers: a row without a bus of that number fails *)
Theorem C47_missing_number_fails : forall K (O : Ops K) (F : Fld K) (FR : FReal K) (n : net (K := K)) (Y : mat (cplx K)) i j,
  consistent n -> sn n <> 0%K -> shape Y (length (buses n)) (length (buses n)) ->
  i < length (buses n) -> j < i -> get Y i j <> 0%K -> ~ In i (ids n) ->
  (forall i' j', i' < i -> j' < i' -> get Y i' j' <> 0%K -> row_number_fits n i') ->
  create_lines_from_ybus n Y = Err KeyError.
Proof. exact @p_ybus_missing. Qed.
Print Assumptions C47_lines_add_their_laplacian.
Print Assumptions C47_matrix_recovered.
Print Assumptions C47_matrix_recovered_one_voltage.
Print Assumptions C47_missing_number_fails.

(** buses given by number, type, power and voltage *)
Definition bd (i t : nat) (p q kv z : Z) : bus_data (K := Qc) := BusData i t (Single (zq p)) (Single (zq q)) (zq kv) (zq z) (zq 0).
Definition built (ns : list (bus_data (K := Qc))) : net := match NetData (Some ns) (Some []) None with Ok n => n | Err _ => pp_create_empty_network end.
Lemma built_ok : forall ns, (forall b, In b ns -> both is_single b) -> NoDup (map bd_id ns) -> NetData (Some ns) (Some []) None = Ok (built ns) /\ consistent (built ns).
Proof. intros ns A B. destruct (p_build ns [] A B) as (n & E & C & _); [intros l []|]. unfold built. rewrite E. auto. Qed.
Definition c47_Y : mat (cplx Qc) := czrows [[(1, -2); (-1, 2); (0, 0)]; [(-1, 2); (4, -3); (-3, 1)]; [(0, 0); (-3, 1); (3, -1)]]%Z.
Lemma single_bd : forall l, (forall b, In b l -> both is_single b) <-> Forall (fun b => both (K := Qc) is_single b) l.
Proof. intro. symmetry. apply Forall_forall. Qed.
Ltac singles := apply single_bd; repeat constructor; eexists; reflexivity.
Ltac nodups := repeat constructor; cbn; intuition discriminate.

(** three buses 1, 2, 3 of 10 kV with two loads *)
Definition c47_n := built [bd 1 3 0 0 10 0; bd 2 1 5 2 10 0; bd 3 1 1 1 10 0].
Lemma c47_sums : zero_sumsb 3 c47_Y = true.
Proof. vm_compute. reflexivity. Qed.
Lemma zero_sums_ok : forall n (Y : mat (cplx Qc)), zero_sumsb n Y = true -> forall i, i < n -> sumn n (fun j => get Y i j) = 0%K.
Proof. intros n Y H i Hi. apply keqb_eq. exact (forall_lt_spec _ _ H i Hi). Qed.
Lemma c47_sym : tr c47_Y = c47_Y.
Proof. apply meqb_eq. vm_compute. reflexivity. Qed.
Lemma c47_shape : shape c47_Y 3 3.
Proof. apply shapeb_shape. vm_compute. reflexivity. Qed.
Example C47_ex : consistent c47_n /\ sn c47_n <> 0%K /\ grids c47_n <> [] /\ shape c47_Y (length (buses c47_n)) (length (buses c47_n)) /\
  ids c47_n = seq 1 3 /\ (forall b, In b (buses c47_n) -> b_kv b = zq 10) /\ tr c47_Y = c47_Y /\
  (forall i, i < 3 -> sumn 3 (fun j => get c47_Y i j) = 0%K) /\ lines c47_n = [] /\ (forall l, In l (loads c47_n) -> l_z l = 0%K) /\
  bind (create_lines_from_ybus c47_n c47_Y) (fun n' => Ok (map seen_line (lines n'))) =
    Ok [(2, 1, zq 1, zq 20, zq 40); (3, 2, zq 1, zq 30, zq 10)]%nat.
Proof.
  split; [apply built_ok; [singles|nodups]|]. split; [apply keqb_neq; vm_compute; reflexivity|]. split; [discriminate|].
  split; [exact c47_shape|]. split; [reflexivity|]. split; [cbn; intros b [<-|[<-|[<-|[]]]]; reflexivity|]. split; [exact c47_sym|].
  split; [exact (zero_sums_ok _ _ c47_sums)|]. split; [reflexivity|]. split; [cbn; intros b [<-|[<-|[<-|[]]]]; reflexivity|].
  vm_compute. reflexivity.
Qed.

(** what a user expects of any package-built network with a substation and no lines or constant-impedance loads *)
Definition ready (n : net (K := Qc)) : Prop := consistent n /\ sn n <> 0%K /\ grids n <> [] /\ lines n = [] /\
  (forall b, In b (buses n) -> b_kv b <> 0%K) /\ (forall l, In l (loads n) -> l_z l = 0%K).
Definition laplacian_matrix m (Y : mat (cplx Qc)) : Prop := shape Y m m /\ tr Y = Y /\ (forall i, i < m -> sumn m (fun j => get Y i j) = 0%K).
Lemma c47_lap : laplacian_matrix 3 c47_Y.
Proof. split; [exact c47_shape|split; [exact c47_sym|exact (zero_sums_ok _ _ c47_sums)]]. Qed.
(** bus 3 at 20 kV, the others at 10 kV: the admittances of row 2 come out four times too large *)
Definition c47_v := built [bd 1 3 0 0 10 0; bd 2 1 5 2 10 0; bd 3 1 1 1 20 0].
Lemma c47_v_ready : ready c47_v.
Proof.
  split; [apply built_ok; [singles|nodups]|]. split; [apply keqb_neq; vm_compute; reflexivity|]. split; [discriminate|]. split; [reflexivity|].
  split; cbn; intros b [<-|[<-|[<-|[]]]]; try reflexivity; apply keqb_neq; vm_compute; reflexivity.
Qed.
Definition c47_v' : mat (cplx Qc) := czrows [[(1, -2); (-1, 2); (0, 0)]; [(-1, 2); (13, -6); (-12, 4)]; [(0, 0); (-12, 4); (12, -4)]]%Z.
Lemma c47_v_result : res_meqb (bind (create_lines_from_ybus c47_v c47_Y) make_y_bus) c47_v' = true.
Proof. vm_compute. reflexivity. Qed.
Lemma c47_differs : meqb c47_v' c47_Y = false.
Proof. vm_compute. reflexivity. Qed.
Theorem C47_different_voltages_refuted : exists (n : net (K := Qc)) Y n' Z, ready n /\ ids n = [1; 2; 3] /\ laplacian_matrix (length (buses n)) Y /\
  create_lines_from_ybus n Y = Ok n' /\ make_y_bus n' = Ok Z /\ Z <> Y.
Proof.
  assert (E := res_meqb_eq _ _ c47_v_result). destruct (create_lines_from_ybus c47_v c47_Y) as [n'|e] eqn:E1; [|discriminate].
  exists c47_v, c47_Y, n', c47_v'. split; [exact c47_v_ready|]. split; [reflexivity|]. split; [exact c47_lap|]. split; [exact E1|]. split; [exact E|].
  apply meqb_neq. exact c47_differs.
Qed.
(** buses 1, 2, 5: row 2 is fine, but buses 1, 3, 5 fail *)
Definition c47_k := built [bd 1 3 0 0 10 0; bd 3 1 5 2 10 0; bd 5 1 1 1 10 0].
Lemma c47_k_ready : ready c47_k.
Proof.
  split; [apply built_ok; [singles|nodups]|]. split; [apply keqb_neq; vm_compute; reflexivity|]. split; [discriminate|]. split; [reflexivity|].
  split; cbn; intros b [<-|[<-|[<-|[]]]]; try reflexivity; apply keqb_neq; vm_compute; reflexivity.
Qed.
Lemma c47_k_result : match create_lines_from_ybus c47_k c47_Y with Err KeyError => true | _ => false end = true.
Proof. vm_compute. reflexivity. Qed.
Theorem C47_any_numbering_refuted : exists (n : net (K := Qc)) Y, ready n /\ laplacian_matrix (length (buses n)) Y /\
  (exists v, forall b, In b (buses n) -> b_kv b = v) /\ create_lines_from_ybus n Y = Err KeyError.
Proof.
  exists c47_k, c47_Y. split; [exact c47_k_ready|]. split; [exact c47_lap|]. split; [exists (zq 10); cbn; intros b [<-|[<-|[<-|[]]]]; reflexivity|].
  pose proof c47_k_result as H. destruct (create_lines_from_ybus c47_k c47_Y) as [|[]]; (discriminate || reflexivity).
Qed.
(** constant-impedance loads become part of the matrix *)
Definition c47_z := built [bd 1 3 0 0 10 0; bd 2 1 5 2 10 100; bd 3 1 1 1 10 0].
Definition c47_z' : mat (cplx Qc) := czrows [[(1, -2); (-1, 2); (0, 0)]; [(-1, 2); (9, -5); (-3, 1)]; [(0, 0); (-3, 1); (3, -1)]]%Z.
Lemma c47_z_result : res_meqb (bind (create_lines_from_ybus c47_z c47_Y) make_y_bus) c47_z' = true.
Proof. vm_compute. reflexivity. Qed.
Theorem C47_constant_impedance_refuted : exists (n : net (K := Qc)) Y n' Z, consistent n /\ grids n <> [] /\ lines n = [] /\
  ids n = [1; 2; 3] /\ (forall b, In b (buses n) -> b_kv b = zq 10) /\ laplacian_matrix (length (buses n)) Y /\
  create_lines_from_ybus n Y = Ok n' /\ make_y_bus n' = Ok Z /\ Z <> Y.
Proof.
  assert (E := res_meqb_eq _ _ c47_z_result). destruct (create_lines_from_ybus c47_z c47_Y) as [n'|e] eqn:E1; [|discriminate].
  exists c47_z, c47_Y, n', c47_z'. split; [apply built_ok; [singles|nodups]|]. split; [discriminate|]. split; [reflexivity|]. split; [reflexivity|].
  split; [cbn; intros b [<-|[<-|[<-|[]]]]; reflexivity|]. split; [exact c47_lap|]. split; [exact E1|]. split; [exact E|].
  apply meqb_neq. vm_compute. reflexivity.
Qed.
Print Assumptions C47_different_voltages_refuted.
Print Assumptions C47_any_numbering_refuted.
Print Assumptions C47_constant_impedance_refuted.

(** ** C48 *)
Theorem C48_construction : forall K (O : Ops K) (F : Fld K) (ns : list (bus_data (K := K))) ls,
  (forall b, In b ns -> both is_single b) -> NoDup (map bd_id ns) ->
  (forall l, In l ls -> active l = true -> In (ld_start l) (map bd_id ns) /\ In (ld_end l) (map bd_id ns) /\ ld_length l <> 0%K) ->
  exists n, NetData (Some ns) (Some ls) None = Ok n /\ consistent n /\
  map (fun b => (b_id b, b_kv b)) (buses n) = map bus_of ns /\
  map seen_load (loads n) = map wanted_load (filter has_load ns) /\ asyms n = [] /\
  grids n = map bd_id (filter (fun b => bd_type b =? 3) ns) /\
  map seen_line (lines n) = map wanted_line (filter active ls).
Proof. exact @p_build. Qed.
Theorem C48_nothing_else_accepted : forall K (O : Ops K) (F : Fld K) (ns : list (bus_data (K := K))) ls n,
  (forall b, In b ns -> both is_single b) -> NetData (Some ns) (Some ls) None = Ok n ->
  NoDup (map bd_id ns) /\
  (forall l, In l ls -> active l = true -> In (ld_start l) (map bd_id ns) /\ In (ld_end l) (map bd_id ns) /\ ld_length l <> 0%K).
Proof. exact @p_build_only. Qed.
(** the caller's line records come back turned *)
Theorem C48_records_turned : forall K (O : Ops K) (n : net (K := K)) ls n' ls', create_lines n ls = Ok (n', ls') ->
  map (fun l => (ld_start l, ld_end l)) ls' = map (fun l => (Nat.min (ld_start l) (ld_end l), Nat.max (ld_start l) (ld_end l))) ls.
Proof. exact @p_records. Qed.
(** whatever is done to it, a network made by the package keeps consistent tables *)
Theorem C48_always_consistent : forall K (O : Ops K) ts ops (n : net (K := K)),
  history (with_types pp_create_empty_network ts) ops = Ok n -> consistent n.
Proof. exact @p_history. Qed.
Theorem C48_remove_line : forall K (O : Ops K) (n : net (K := K)) l, (forall i, In i l -> In i (map n_id (lines n))) ->
  exists n', remove_line n (Many l) = Ok n' /\ only_lines_changed n n' /\ (forall r, In r (lines n') <-> In r (lines n) /\ ~ In (n_id r) l).
Proof. intros K _. exact (@p_remove_line K). Qed.
Theorem C48_remove_buses : forall K (O : Ops K) (n : net (K := K)) l, (forall i, In i l -> In i (ids n)) ->
  exists n', remove_buses n l = Ok n' /\
  (forall b, In b (buses n') <-> In b (buses n) /\ ~ In (b_id b) l) /\
  (forall x, In x (loads n') <-> In x (loads n) /\ ~ In (l_bus x) l) /\
  (forall x, In x (asyms n') <-> In x (asyms n) /\ ~ In (a_bus x) l) /\
  (forall g, In g (grids n') <-> In g (grids n) /\ ~ In g l) /\
  (forall x, In x (lines n') <-> In x (lines n) /\ ~ In (n_from x) l /\ ~ In (n_to x) l).
Proof. intros K _. exact (@p_remove_buses K). Qed.
Theorem C48_single_line_always_fails : forall K (O : Ops K) (n : net (K := K)) f t r x len, create_line n f t r x len = Err UserWarning.
Proof. exact @p_create_line. Qed.
Theorem C48_without_lines_always_fails : forall K (O : Ops K) (ns : option (list (bus_data (K := K)))) other, exists e, NetData ns None other = Err e.
Proof. exact @p_no_lines. Qed.
Theorem C48_construction_three_phases : forall K (O : Ops K) ts (ns : list (bus_data (K := K))) ls,
  (forall b, In b ns -> accepted3 b) -> NoDup (map bd_id ns) ->
  (forall l, In l ls -> active l = true -> In (ld_start l) (map bd_id ns) /\ In (ld_end l) (map bd_id ns) /\
     exists s p, ld_type l = Some s /\ type_of ts s = Some p) ->
  exists n, NetData3P ts (Some ns) (Some ls) None = Ok n /\ consistent n /\
  map (fun b => (b_id b, b_kv b)) (buses n) = map bus_of ns /\
  map seen_load (loads n) = map wanted_load (filter has_load3 ns) /\
  map seen_asym (asyms n) = map wanted_asym (filter is_asym ns) /\
  grids n = map bd_id (filter (fun b => bd_type b =? 3) ns) /\
  map seen_line3 (lines n) = map (wanted_line3 ts) (filter active ls).
Proof. exact @p_build3. Qed.
Theorem C48_without_lines_three_phases : forall K (O : Ops K) ts (ns : list (bus_data (K := K))),
  (forall b, In b ns -> accepted3 b) -> NoDup (map bd_id ns) ->
  NetData3P ts (Some ns) None None = NetData3P ts (Some ns) (Some []) None /\ exists n, NetData3P ts (Some ns) None None = Ok n /\ lines n = [].
Proof. exact @p_build3_none. Qed.
Print Assumptions C48_construction.
Print Assumptions C48_nothing_else_accepted.
Print Assumptions C48_records_turned.
Print Assumptions C48_always_consistent.
Print Assumptions C48_remove_line.
Print Assumptions C48_remove_buses.
Print Assumptions C48_single_line_always_fails.
Print Assumptions C48_without_lines_always_fails.
Print Assumptions C48_construction_three_phases.
Print Assumptions C48_without_lines_three_phases.

(** a line from 3 to 1, one from 1 to 2 and one out of service *)
Definition ldq (a b : nat) (len r x st : Z) (t : option string) : line_data (K := Qc) := LineData a b (zq len) (zq r) (zq x) st t.
Definition c48_ns := [bd 1 3 9 9 10 0; bd 2 1 5 2 10 0; bd 3 1 0 0 10 0].
Definition c48_ls := [ldq 3 1 2 6 8 1 None; ldq 2 7 1 1 1 0 None; ldq 1 2 1 4 5 1 None].
Lemma c48_hyp : (forall b, In b c48_ns -> both is_single b) /\ NoDup (map bd_id c48_ns) /\
  (forall l, In l c48_ls -> active l = true -> In (ld_start l) (map bd_id c48_ns) /\ In (ld_end l) (map bd_id c48_ns) /\ ld_length l <> 0%K).
Proof.
  split; [singles|]. split; [nodups|]. cbn. intros l [<-|[<-|[<-|[]]]]; cbn; try discriminate; intros _;
    (split; [tauto|split; [tauto|apply keqb_neq; vm_compute; reflexivity]]).
Qed.
Definition c48_n : net (K := Qc) := match NetData (Some c48_ns) (Some c48_ls) None with Ok n => n | Err _ => pp_create_empty_network end.
Lemma c48_made : NetData (Some c48_ns) (Some c48_ls) None = Ok c48_n /\ consistent c48_n.
Proof. destruct c48_hyp as (A & B & C). destruct (p_build c48_ns c48_ls A B C) as (n & E & D & _). unfold c48_n. rewrite E. auto. Qed.
Example C48_ex : map seen_line (lines c48_n) = [(1, 3, zq 2, zq 6, zq 8); (1, 2, zq 1, zq 4, zq 5)] /\
  map seen_load (loads c48_n) = [(1, zq 0, zq 0); (2, zq 5, zq 2); (3, zq 0, zq 0)] /\ grids c48_n = [1] /\
  bind (remove_line c48_n (Many [0])) (fun n => Ok (map seen_line (lines n), ids n)) = Ok ([(1, 2, zq 1, zq 4, zq 5)], [1; 2; 3]) /\
  bind (remove_buses c48_n [3]) (fun n => Ok (map seen_line (lines n), ids n)) = Ok ([(1, 2, zq 1, zq 4, zq 5)], [1; 2]).
Proof. repeat split; vm_compute; reflexivity. Qed.
(** histories: buses, lines, removal of a bus, a new bus with its number and a line to it *)
Example C48_ex_history : exists n, history pp_create_empty_network
  [Buses c48_ns; Lines c48_ls; RemoveBus 3; Buses [bd 3 1 1 1 10 0]; Lines [ldq 2 3 1 1 1 1 None]; RemoveLine (Many [1])] = Ok n /\
  ids n = [1; 2; 3] /\ map seen_line (lines n) = [(2, 3, zq 1, zq 1, zq 1)].
Proof. eexists. split; [vm_compute; reflexivity|]. split; vm_compute; reflexivity. Qed.

Theorem C48_single_line_refuted : exists (n : net (K := Qc)) f t r x len, consistent n /\ In f (ids n) /\ In t (ids n) /\ f <> t /\ len <> 0%K /\
  create_line n f t r x len = Err UserWarning.
Proof.
  exists c48_n, 1, 2, (zq 1), (zq 1), (zq 1). split; [apply c48_made|]. split; [vm_compute; tauto|]. split; [vm_compute; tauto|].
  split; [discriminate|]. split; [apply keqb_neq; vm_compute; reflexivity|]. apply p_create_line.
Qed.
Theorem C48_without_lines_refuted : exists ns : list (bus_data (K := Qc)), (forall b, In b ns -> both is_single b) /\ NoDup (map bd_id ns) /\ ns <> [] /\
  NetData (Some ns) None None = Err TypeError.
Proof.
  exists c48_ns. destruct c48_hyp as (A & B & _). split; [auto|]. split; [auto|]. split; [discriminate|]. apply p_no_lines_type; auto.
Qed.
(** asked to remove line 1, [remove_lines] removes bus 1, the substation *)
Theorem C48_remove_lines_refuted : exists (n : net (K := Qc)) l n', consistent n /\ (forall i, In i l -> In i (map n_id (lines n))) /\
  remove_lines n l = Ok n' /\ (exists b, In b (buses n) /\ ~ In b (buses n')) /\ grids n <> [] /\ grids n' = [].
Proof.
  exists c48_n, [1]. eexists. split; [apply c48_made|]. split; [intros i [<-|[]]; vm_compute; tauto|]. split; [vm_compute; reflexivity|].
  split; [|split; [discriminate|reflexivity]]. exists (Bus 1 (str 1) (zq 10)). split; [vm_compute; tauto|]. vm_compute. intuition discriminate.
Qed.
(** a single line number is rejected *)
Theorem C48_remove_one_line_refuted : exists (n : net (K := Qc)) i, consistent n /\ In i (map n_id (lines n)) /\ remove_line n (One i) = Err TypeError.
Proof. exists c48_n, 1. split; [apply c48_made|]. split; [vm_compute; tauto|]. reflexivity. Qed.
Print Assumptions C48_single_line_refuted.
Print Assumptions C48_without_lines_refuted.
Print Assumptions C48_remove_lines_refuted.
Print Assumptions C48_remove_one_line_refuted.

(** three phases: one balanced load, one with three powers; the type is defined twice *)
Open Scope string_scope.
Definition c48_bal (p : Z) (i t : nat) := bd i t p p 10 0.
Definition c48_ns3 := [c48_bal 0 0 3; c48_bal 4 1 1; BusData 2 1 (Phases (zq 1) (zq 0) (zq 3)) (Phases (zq 0) (zq 0) (zq 1)) (zq 10) (zq 0) (zq 0)].
Definition c48_ts : list (string * (Qc * Qc)) := [("a", (zq 1, zq 2)); ("b", (zq 5, zq 6)); ("a", (zq 3, zq 4))].
Definition c48_ls3 := [ldq 2 0 2 6 8 1 (Some "a"); ldq 1 0 3 6 8 1 (Some "b")].
Definition view3 (r : res (net (K := Qc))) := bind r (fun n => Ok (map seen_line3 (lines n), map seen_asym (asyms n), map seen_load (loads n), grids n)).
Example C48_ex3 : (forall b, In b c48_ns3 -> accepted3 b) /\ NoDup (map bd_id c48_ns3) /\
  (forall l, In l c48_ls3 -> active l = true -> In (ld_start l) (map bd_id c48_ns3) /\ In (ld_end l) (map bd_id c48_ns3) /\
     exists s p, ld_type l = Some s /\ type_of c48_ts s = Some p) /\
  view3 (NetData3P c48_ts (Some c48_ns3) (Some c48_ls3) None) =
  Ok ([(0, 2, zq 2, Some (zq 3, zq 4)); (0, 1, zq 3, Some (zq 5, zq 6))],
      [(2, (zq 1, zq 0, zq 3), (zq 0, zq 0, zq 1))], [(0, zq 0, zq 0); (1, zq 4, zq 4)], [0]).
Proof.
  split; [|split; [nodups|split; [|vm_compute; reflexivity]]].
  - cbn. intros b [<-|[<-|[<-|[]]]]; split; intro H; try discriminate H; try (left; split; eexists; reflexivity); try (right; split; do 3 eexists; reflexivity); eexists; reflexivity.
  - cbn. intros l [<-|[<-|[]]] _; cbn; (split; [tauto|split; [tauto|do 2 eexists; split; reflexivity]]).
Qed.
Close Scope string_scope.

(** ** C49 *)
(** the passive nodes of a phase are exactly the buses that inject nothing there, in the order of the table *)
Theorem C49_passive_nodes : forall K (O : Ops K) (F : Fld K) ts ops (n : net (K := K)),
  history (with_types pp_create_empty_network ts) ops = Ok n ->
  exists f, give_passive_nodes n = Ok f /\
  forall ph, (forall i, In i (f ph) <-> In i (ids n) /\ idle n ph i) /\ exists g, f ph = filter g (ids n).
Proof. intros K O F ts ops n H. apply p_passive. exact (p_history ts ops n H). Qed.
Print Assumptions C49_passive_nodes.
Example C49_ex : bind (history pp_create_empty_network [Buses [bd 4 1 0 0 10 0; bd 1 3 9 9 10 0; bd 2 1 0 2 10 0; bd 3 2 7 7 10 0; bd 0 1 0 0 10 0]])
  (fun n => f <- give_passive_nodes n ;; Ok (f 0)) = Ok [4; 3; 0].
Proof. vm_compute. reflexivity. Qed.
Example C49_ex3 : bind (history pp_create_empty_network [Buses3 c48_ns3])
  (fun n => f <- give_passive_nodes n ;; Ok (f 0, f 1, f 2)) = Ok ([], [2], []).
Proof. vm_compute. reflexivity. Qed.
(** a network taken over from elsewhere whose loads are numbered on their own: bus 5 has a load and is reported passive *)
Definition c49_other : net (K := Qc) := Net [Bus 4 (str 4) (zq 10); Bus 5 (str 5) (zq 10)] [Load 0 5 (zq 3) (zq 1) (zq 0) (zq 0)] [] [4] [Line 0 4 5 (zq 1) (zq 1) (zq 1)] (zq 1) [].
Theorem C49_foreign_network_refuted : exists (other : net (K := Qc)) n f i, NetData None (Some []) (Some other) = Ok n /\ NoDup (ids n) /\
  (forall l, In l (loads n) -> In (l_bus l) (ids n)) /\ give_passive_nodes n = Ok f /\ In i (f 0) /\ ~ idle n 0 i.
Proof.
  exists c49_other, c49_other. eexists. exists 5. split; [reflexivity|]. split; [nodups|]. split; [cbn; intros l [<-|[]]; cbn; tauto|].
  split; [cbv; reflexivity|]. split; [cbn; auto|]. intros (_ & H & _). destruct (H _ (or_introl eq_refl) eq_refl) as [H1 _].
  revert H1. apply keqb_neq. vm_compute. reflexivity.
Qed.
Print Assumptions C49_foreign_network_refuted.
