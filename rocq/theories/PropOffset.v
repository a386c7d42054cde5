(** Property C110: constant offsets of the measurements; C108: the order of the samples in whole runs. *)
From Coq Require Import String.
From Coq Require Import Bool Arith ZArith Lia List Permutation Qcanon Reals.
From Verif Require Import BasePy BaseFld BaseOrd BaseSum BaseMat BaseNumpy BaseLin BaseEx SpecMatrix ModelMatrixOps ModelPrior ModelFit ModelLS SpecLS
  ModelErrorMetrics ModelNoiseCov SpecNoise ModelIdent ModelRun SpecRun SpecOrder SpecOffset ProofNoiseCov ProofOrder5 ProofOffset ProofOrderRun ProofOrderCov PropRun.
Import ListNotations.
Close Scope R_scope. Close Scope Qc_scope. Close Scope Q_scope. Close Scope string_scope. Open Scope list_scope. Open Scope nat_scope.

(** ** C110 *)
Theorem C110_standard :
  forall (K : Type) (O : Ops K) (F : Fld K) (O2 : OrdOps K) (OF : OrdFld K) pinv svd spsolve (conf : config K) name lap T n (v v' i i' : mat (cplx K)) it s,
  only_offsets lap T n v v' i i' ->
  standard_methods pinv svd spsolve conf name (Some v') i' lap it s = standard_methods pinv svd spsolve conf name (Some v) i lap it s.
Proof. intros K O F O2 OF pinv svd sv conf name lap T n v v' i i' it s H. apply (alike_standard pinv svd sv (fun _ => 0%K) (fun _ _ _ _ => Err ValueError) (fun _ _ _ _ => Err ValueError)). apply (harmless_alike pinv svd sv _ _ _ conf lap T n). exact H. Qed.
Print Assumptions C110_standard.

(** the last argument but three: no weights *)
Theorem C110_eiv :
  forall (K : Type) (O : Ops K) (F : Fld K) (O2 : OrdOps K) (OF : OrdFld K) spsolve cabs true_cov naive_cov (conf : config K) name lap T n (v v' i i' : mat (cplx K)) sv sc r y ye it u s,
  only_offsets lap T n v v' i i' ->
  bayesian_eiv spsolve cabs true_cov naive_cov conf name v' i' sv sc r y ye lap false it u s = bayesian_eiv spsolve cabs true_cov naive_cov conf name v i sv sc r y ye lap false it u s.
Proof. intros K O F O2 OF spsolve cabs tc nc conf name lap T n v v' i i' sv sc r y ye it u s H. apply (harmless_alike (fun m => m) (fun m => (m, [], m)) spsolve cabs tc nc conf lap T n v v' i i' H). Qed.
Print Assumptions C110_eiv.

(** the whole program, for one or three phases: two files of measurements that differ by offsets and in the exact values *)
Theorem C110_program :
  forall (K : Type) (O : Ops K) (F : Fld K) (O2 : OrdOps K) (OF : OrdFld K) pinv svd spsolve cabs ksqrt true_cov naive_cov (conf : config K)
    o (s s' : files K) T n i v j w y r f h i' v' j' w',
  weighted o = false ->
  s (simulation_path (network o)) = Some (Simulation i v j w y r f h) -> s' (simulation_path (network o)) = Some (Simulation i' v' j' w' y r f h) ->
  (forall p, p <> simulation_path (network o) -> s p = s' p) -> nc j' = nc j -> nc w' = nc w ->
  only_offsets (laplacian o) T n v v' i i' ->
  snd (identify pinv svd spsolve cabs ksqrt true_cov naive_cov conf o s') = snd (identify pinv svd spsolve cabs ksqrt true_cov naive_cov conf o s) /\
  forall p, p <> simulation_path (network o) ->
    fst (identify pinv svd spsolve cabs ksqrt true_cov naive_cov conf o s') p = fst (identify pinv svd spsolve cabs ksqrt true_cov naive_cov conf o s) p.
Proof.
  intros K O F O2 OF pinv svd spsolve cabs ksqrt tc ncv conf o s s' T n i v j w y r f h i' v' j' w' HW S S' AG NJ NW H.
  apply (alike_identify pinv svd spsolve cabs ksqrt tc ncv conf o s s' i v j w y r f h i' v' j' w' HW S S' AG NJ NW). apply (harmless_phases pinv svd spsolve cabs tc ncv conf (laplacian o) T n). exact H.
Qed.
Print Assumptions C110_program.

(** two nodes and two samples; 3 + i and -2 are added to the voltages, i and 7 to the currents *)
Definition off_v (k : nat) : cplx Qc := if k =? 0 then cz 3 1 else cz (-2) 0.
Definition off_i (k : nat) : cplx Qc := if k =? 0 then cz 0 1 else cz 7 0.
Definition net_v' : mat (cplx Qc) := mk 2 2 (fun t k => (get net_v t k + off_v k)%K).
Definition net_i' : mat (cplx Qc) := mk 2 2 (fun t k => (get net_i t k + off_i k)%K).
Definition world' (h : list Z) : files Qc := fun p => if String.eqb p (simulation_path "net") then Some (Simulation net_i' net_v' net_i net_v net_y [zq 1; zq 2] (zq 4) h) else None.
Notation opt1 := (opt 1 false false false "1" false false false false false).
Example C110_example :
  snd (run opt1 (world' [1; 1]%Z)) = Ok tt /\ only_offsets false 2 2 net_v net_v' net_i net_i' /\ get net_v' 0 0 = cz 8 1 /\
  forall p, p <> simulation_path "net" -> fst (run opt1 (world' [1; 1]%Z)) p = fst (run opt1 (world [1; 1]%Z)) p.
Proof.
  assert (H : only_offsets false 2 2 net_v net_v' net_i net_i').
  { exists off_v, off_i. split; (split; [apply shapeb_shape; reflexivity|]; split; [apply shape_mk|]; intros t k Ht Hk; unfold net_v', net_i'; rewrite get_mk by assumption; reflexivity). }
  assert (R : snd (run opt1 (world [1; 1]%Z)) = Ok tt) by (apply okb_ok; vm_compute; reflexivity).
  destruct (C110_program Qc _ _ _ _ pinv1 svd1 ksolve norm1 (fun x => x) cov1 cov1 conf1 opt1 (world [1; 1]%Z) (world' [1; 1]%Z) 2 2 net_i net_v net_i net_v net_y [zq 1; zq 2] (zq 4) [1; 1]%Z net_i' net_v' net_i net_v eq_refl) as [A B]; try reflexivity; [|exact H|].
  { intros p Hp. unfold world, world'. destruct (String.eqb_spec p (simulation_path "net")) as [E|_]; [contradiction|reflexivity]. }
  split; [rewrite A; exact R|]. split; [exact H|]. split; [apply cplx_eq; vm_compute; reflexivity|exact B].
Qed.

(** ** C108 *)
(** the numerical routines do what they should for the tables of one fit (given here after centring) *)
Definition routines_right {K} {O : Ops K} {O2 : OrdOps K} (pinv : mat (cplx K) -> mat (cplx K)) (svd : mat (cplx K) -> mat (cplx K) * list K * mat (cplx K))
  (lap : bool) (T n : nat) (v i : mat (cplx K)) : Prop :=
  let '(x, y) := centred lap v i in penrose T n x (pinv x) /\ let '(u, s, vh) := svd (hstack2 x y) in is_svd T (n + n) (hstack2 x y) u s vh.
(** the singular values used by total least squares are larger than the others *)
Definition values_apart {K} {O : Ops K} {O2 : OrdOps K} (svd : mat (cplx K) -> mat (cplx K) * list K * mat (cplx K))
  (lap : bool) (n : nat) (v i : mat (cplx K)) : Prop :=
  let '(x, y) := centred lap v i in let '(_, s, _) := svd (hstack2 x y) in apart n (n + n) s.
Theorem C108_standard_run :
  forall (K : Type) (O : Ops K) (F : Fld K) (O2 : OrdOps K) (OF : OrdFld K) pinv svd spsolve (conf : config K) name lap T p n (v v' i i' : mat (cplx K)) it s,
  new_order T p -> reordered T n p v v' -> reordered T n p i i' ->
  routines_right pinv svd lap T n v i -> routines_right pinv svd lap T n v' i' -> values_apart svd lap n v i ->
  standard_methods pinv svd spsolve conf name (Some v') i' lap it s = standard_methods pinv svd spsolve conf name (Some v) i lap it s.
Proof. intros K O F O2 OF pinv svd sv conf name lap T p n v v' i i' it s HP HV HI L L' A. unfold standard_methods. rewrite (standard_order T p HP pinv svd sv conf lap n v v' i i' it HV HI L L' A). reflexivity. Qed.
Print Assumptions C108_standard_run.

Theorem C108_eiv_run :
  forall (K : Type) (O : Ops K) (F : Fld K) (O2 : OrdOps K) (OF : OrdFld K) spsolve cabs true_cov naive_cov (conf : config K) name lap T p n (v v' i i' : mat (cplx K)) sv sc r y ye it u s,
  new_order T p -> reordered T n p v v' -> reordered T n p i i' ->
  bayesian_eiv spsolve cabs true_cov naive_cov conf name v' i' sv sc r y ye lap false it u s = bayesian_eiv spsolve cabs true_cov naive_cov conf name v i sv sc r y ye lap false it u s.
Proof. intros K O F O2 OF spsolve cabs tc ncv conf name lap T p n v v' i i' sv sc r y ye it u s HP HV HI. apply (bayesian_order T p HP spsolve cabs tc ncv conf lap n); assumption. Qed.
Print Assumptions C108_eiv_run.

(** the whole program without weights, for one or three phases *)
Theorem C108_program :
  forall (K : Type) (O : Ops K) (F : Fld K) (O2 : OrdOps K) (OF : OrdFld K) pinv svd spsolve cabs ksqrt true_cov naive_cov (conf : config K)
    o (s s' : files K) T p n i v j w y r f h i' v' j' w',
  weighted o = false ->
  s (simulation_path (network o)) = Some (Simulation i v j w y r f h) -> s' (simulation_path (network o)) = Some (Simulation i' v' j' w' y r f h) ->
  (forall q, q <> simulation_path (network o) -> s q = s' q) ->
  new_order T p -> reordered T n p v v' -> reordered T n p i i' -> reordered T n p w w' -> reordered T n p j j' ->
  routines_right pinv svd (laplacian o) T n v i -> routines_right pinv svd (laplacian o) T n v' i' -> values_apart svd (laplacian o) n v i ->
  (forall q, In q h -> length h = n -> let k := selected (is_phase h q) in
    routines_right pinv svd (laplacian o) T (length k) (mcols v k) (mcols i k) /\ routines_right pinv svd (laplacian o) T (length k) (mcols v' k) (mcols i' k) /\
    values_apart svd (laplacian o) (length k) (mcols v k) (mcols i k)) ->
  snd (identify pinv svd spsolve cabs ksqrt true_cov naive_cov conf o s') = snd (identify pinv svd spsolve cabs ksqrt true_cov naive_cov conf o s) /\
  forall q, q <> simulation_path (network o) ->
    fst (identify pinv svd spsolve cabs ksqrt true_cov naive_cov conf o s') q = fst (identify pinv svd spsolve cabs ksqrt true_cov naive_cov conf o s) q.
Proof.
  intros K O F O2 OF pinv svd spsolve cabs ksqrt tc ncv conf o s s' T p n i v j w y r f h i' v' j' w' HW S S' AG HP HV HI HWW HJ L L' A PH.
  pose proof HV as ((_ & _ & CV) & (_ & _ & CV') & _). pose proof HJ as ((_ & _ & CJ) & (_ & _ & CJ') & _). pose proof HWW as ((_ & _ & CW) & (_ & _ & CW') & _).
  apply (alike_identify pinv svd spsolve cabs ksqrt tc ncv conf o s s' i v j w y r f h i' v' j' w' HW S S' AG); [congruence|congruence|].
  split; [apply (order_alike T p HP pinv svd spsolve cabs tc ncv conf (laplacian o) n); assumption|]. intros q L1 L2 k.
  assert (B : forall c, In c k -> c < n) by (intros c Hc; apply selected_lt in Hc; unfold is_phase in Hc; rewrite map_length in Hc; lia).
  pose proof (reordered_mcols T p HP n v v' k HV B) as RV. pose proof (reordered_mcols T p HP n i i' k HI B) as RI.
  destruct (in_dec Z.eq_dec q h) as [Hq|Hq].
  - destruct (PH q Hq ltac:(congruence)) as (P1 & P2 & P3). apply (order_alike T p HP pinv svd spsolve cabs tc ncv conf (laplacian o) (length k)); assumption.
  - assert (E : length k = 0).
    { destruct k as [|c k'] eqn:Ek; [reflexivity|exfalso]. assert (Hc : In c (selected (is_phase h q))) by (fold k; rewrite Ek; left; reflexivity). unfold selected in Hc. apply filter_In in Hc. destruct Hc as [Hc Hm]. apply Hq.
      assert (Lc : c < length h) by (unfold range in Hc; apply in_seq in Hc; unfold is_phase in Hc; rewrite map_length in Hc; lia). unfold is_phase in Hm. rewrite (nth_indep _ false ((fun z => (z =? q)%Z) 0%Z)) in Hm by (rewrite map_length; exact Lc). rewrite (map_nth (fun z => (z =? q)%Z)) in Hm. apply Z.eqb_eq in Hm. rewrite <- Hm. apply nth_In. exact Lc. }
    apply (empty_alike T p pinv svd spsolve cabs tc ncv conf (laplacian o)); rewrite <- E; assumption.
Qed.
Print Assumptions C108_program.

(** the three functions that compute the weights from the measurements give the weights of the reordered samples *)
Theorem C108_weights :
  forall T p n (M M' : mat C) sd sp inverted s covariance W W',
  new_order T p -> reordered T n p M M' -> sd_means n sd s ->
  In covariance [exact_noise_covariance; naive_noise_covariance; average_true_noise_covariance] ->
  covariance M sd sp inverted = Ok W -> covariance M' sd sp inverted = Ok W' -> reordered_floats T n p W W'.
Proof.
  intros T p n M M' sd sp inverted s cov W W' HP HM HS [<-|[<-|[<-|[]]]] H H'.
  - apply (cov_order T n p HP exact_column exact_all M M' sd sp inverted s W W' exact_same HS HM H H').
  - apply (cov_order T n p HP naive_column naive_all M M' sd sp inverted s W W' naive_same HS HM H H').
  - apply (cov_order T n p HP average_kernel average_kernel M M' sd sp inverted s W W' average_same HS HM H H').
Qed.
Print Assumptions C108_weights.

(** four samples at two nodes, the first and the third exchanged *)
Definition swap (t : nat) : nat := if t =? 0 then 2 else if t =? 2 then 0 else t.
Lemma swap_order : new_order 4 swap.
Proof. unfold new_order. cbn. apply (Permutation_trans (l' := [0; 2; 1; 3])). { apply (Permutation_trans (l' := [2; 0; 1; 3])); [apply perm_skip; apply perm_swap|apply perm_swap]. } apply perm_skip. apply perm_swap. Qed.
Definition four_v : mat (cplx Qc) := ex_v.
Definition four_i : mat (cplx Qc) := ex_i.
Definition four_v' : mat (cplx Qc) := mk 4 2 (fun t k => get ex_v (swap t) k).
Definition four_i' : mat (cplx Qc) := mk 4 2 (fun t k => get ex_i (swap t) k).
Definition four_svd (m : mat (cplx Qc)) : mat (cplx Qc) * list Qc * mat (cplx Qc) :=
  (if meqb m (hstack2 (fst (centred false four_v four_i)) (snd (centred false four_v four_i))) then ex_u else mk 4 4 (fun t k => get ex_u (swap t) k), [qq 10 3; qq 10 3; zq 0; zq 0], ex_vh).
Definition rightb (T n : nat) (v i : mat (cplx Qc)) : bool :=
  let '(x, y) := centred false v i in penroseb T n x (ex_pinv x) && let '(u, s, vh) := four_svd (hstack2 x y) in svdb T (n + n) (hstack2 x y) u s vh.
Lemma rightb_ok : forall T n v i, rightb T n v i = true -> routines_right ex_pinv four_svd false T n v i.
Proof. intros T n v i H. unfold rightb in H. unfold routines_right. destruct (centred false v i) as [x y]. apply andb_true_iff in H. destruct H as [H1 H2]. split; [apply penroseb_ok; exact H1|]. destruct (four_svd (hstack2 x y)) as [[u s] vh]. apply svdb_ok. exact H2. Qed.
Definition four (b : bool) : files Qc := fun p => if String.eqb p (simulation_path "net") then
  Some (if b then Simulation four_i four_v four_i four_v ex_y [zq 1; zq 2] (zq 4) [1; 1]%Z else Simulation four_i' four_v' four_i' four_v' ex_y [zq 1; zq 2] (zq 4) [1; 1]%Z) else None.
Notation run4 := (identify ex_pinv four_svd ksolve norm1 (fun x => x) cov1 cov1 conf1).
Lemma four_apart : values_apart four_svd false 2 four_v four_i.
Proof. unfold values_apart, four_svd. cbn [centred]. intros [|[|a]] [|[|[|[|b]]]] Ha Hb Hc; try lia; vm_compute; reflexivity. Qed.
Lemma four_columns : forall m : mat (cplx Qc), shape m 4 2 -> mcols m [0; 1] = m.
Proof. intros m (W & R & C). apply (gshape_ext _ _ 4 2); [unfold mcols; rewrite R; apply shape_mk|split; auto|]. intros t k Ht Hk. unfold mcols. rewrite get_mk by (cbn [length]; lia). destruct k as [|[|k]]; [reflexivity|reflexivity|lia]. Qed.
Example C108_run_ex :
  snd (run4 opt1 (four false)) = Ok tt /\ get four_v' 0 0 = cz 4 1 /\ get four_v 0 0 = cz 6 1 /\
  forall q, q <> simulation_path "net" -> fst (run4 opt1 (four false)) q = fst (run4 opt1 (four true)) q.
Proof.
  assert (RV : reordered 4 2 swap four_v four_v') by (split; [apply shapeb_shape; reflexivity|]; split; [apply shape_mk|]; intros t k Ht Hk; unfold four_v'; rewrite get_mk by assumption; reflexivity).
  assert (RI : reordered 4 2 swap four_i four_i') by (split; [apply shape_mk|]; split; [apply shape_mk|]; intros t k Ht Hk; unfold four_i' at 1; rewrite get_mk by assumption; reflexivity).
  assert (R1 : routines_right ex_pinv four_svd false 4 2 four_v four_i) by (apply rightb_ok; vm_compute; reflexivity). assert (R2 : routines_right ex_pinv four_svd false 4 2 four_v' four_i') by (apply rightb_ok; vm_compute; reflexivity).
  assert (R : snd (run4 opt1 (four true)) = Ok tt) by (apply okb_ok; vm_compute; reflexivity).
  destruct (C108_program Qc _ _ _ _ ex_pinv four_svd ksolve norm1 (fun x => x) cov1 cov1 conf1 opt1 (four true) (four false) 4 swap 2 four_i four_v four_i four_v ex_y [zq 1; zq 2] (zq 4) [1; 1]%Z four_i' four_v' four_i' four_v' eq_refl eq_refl eq_refl) as [A B]; try assumption.
  - intros p Hp. unfold four. destruct (String.eqb_spec p (simulation_path "net")) as [E|_]; [contradiction|reflexivity].
  - exact swap_order.
  - exact four_apart.
  - intros q Hq _. assert (E : selected (is_phase [1; 1]%Z q) = [0; 1]) by (destruct Hq as [<-|[<-|[]]]; reflexivity). cbv zeta. rewrite E. destruct RV as (S1 & S2 & _). destruct RI as (S3 & S4 & _). rewrite !four_columns by assumption. split; [exact R1|]. split; [exact R2|exact four_apart].
  - split; [rewrite A; exact R|]. split; [apply cplx_eq; vm_compute; reflexivity|]. split; [apply cplx_eq; vm_compute; reflexivity|exact B].
Qed.
(** the weights of two samples at one node and of the same samples in the other order *)
Definition w_m (b : bool) : mat C := mk 2 1 (fun t _ => if Bool.eqb b (t =? 0) then Cx 1%R 2%R else Cx 3%R (-1)%R).
Example C108_weights_ex : exists W W', average_true_noise_covariance (w_m true) (SdFloat 1%R) 1%R true = Ok W /\ average_true_noise_covariance (w_m false) (SdFloat 1%R) 1%R true = Ok W' /\
  reordered_floats 2 1 (fun t => 1 - t) W W'.
Proof.
  eexists _, _. split; [apply (covariance_eq average_kernel average_kernel (w_m true) (SdFloat 1%R) 1%R true (fun _ => 1%R) average_same); constructor|].
  split; [apply (covariance_eq average_kernel average_kernel (w_m false) (SdFloat 1%R) 1%R true (fun _ => 1%R) average_same); constructor|].
  eapply (C108_weights 2 (fun t => 1 - t) 1 (w_m true) (w_m false) (SdFloat 1%R) 1%R true (fun _ => 1%R) average_true_noise_covariance).
  - unfold new_order. cbn. apply perm_swap.
  - split; [apply shape_mk|]. split; [apply shape_mk|]. intros t k Ht Hk. unfold w_m. rewrite !get_mk by lia. destruct t as [|[|t]]; [reflexivity|reflexivity|lia].
  - constructor.
  - right. right. left. reflexivity.
  - apply (covariance_eq average_kernel average_kernel (w_m true) (SdFloat 1%R) 1%R true (fun _ => 1%R) average_same); constructor.
  - apply (covariance_eq average_kernel average_kernel (w_m false) (SdFloat 1%R) 1%R true (fun _ => 1%R) average_same); constructor.
Qed.
