(** Lemmas and theorems about the program identify of ModelRun.v *)
From Coq Require Import String.
From Coq Require Import Bool Arith List ZArith Lia Sorted.
From Verif Require Import BasePy BaseFld BaseOrd BaseSum BaseMat BaseNumpy BaseLin SpecMatrix ModelMatrixOps ModelPrior ModelFit
  ModelLS SpecLS ModelIdent ModelRun SpecRun ProofSet ProofMask ProofRun ProofRunIO ProofRunPhase.
Import ListNotations.
Close Scope string_scope.
Local Open Scope nat_scope.

Section Identify.
Context {K : Type} {O : Ops K} {O2 : OrdOps K}.
Notation CK := (cplx K).
Variable pinv : mat CK -> mat CK.
Variable svd : mat CK -> mat CK * list K * mat CK.
Variable spsolve : mat K -> list K -> res (list K).
Variable cabs : CK -> K.
Variable ksqrt : K -> K.
Variables true_cov naive_cov : mat CK -> arg K -> K -> bool -> res (mat K).
Variable conf : config K.
Notation identify := (identify pinv svd spsolve cabs ksqrt true_cov naive_cov conf).
Notation standard_methods := (standard_methods pinv svd spsolve conf).
Notation standard_methods_3ph := (standard_methods_3ph pinv svd spsolve conf).
Notation bayesian_eiv := (bayesian_eiv spsolve cabs true_cov naive_cov conf).
Notation bayesian_eiv_3ph := (bayesian_eiv_3ph spsolve cabs true_cov naive_cov conf).

(** ** which files are written *)
Lemma wo_standard : forall name v c lap n l, In (standard_path name) l -> writes_only l (standard_methods name v c lap n).
Proof.
  intros name v c lap n l H. unfold ModelRun.standard_methods, load_standard. destruct v.
  - apply wo_bind; [apply wo_lift|]. intros [[o t] q]. apply wo_bind; [apply wo_save; auto|]. intro. apply wo_lift.
  - wo.
Qed.
Lemma wo_standard3 : forall name v c h lap n l, In (standard_path name) l -> writes_only l (standard_methods_3ph name v c h lap n).
Proof.
  intros name v c h lap n l H. unfold ModelRun.standard_methods_3ph, load_standard. destruct v as [v|]; [|wo].
  assert (P : forall y i ids, writes_only l (standard_phase pinv svd spsolve conf name v c ids lap n y i)).
  { intros [[a b] d] i ids. unfold standard_phase. apply wo_bind; [wo|]. intro. apply wo_bind; [wo|]. intro.
    apply wo_bind; [apply wo_standard; auto|]. intros [[o t] q]. wo. }
  apply wo_bind.
  - destruct h as [ids|]; [|wo]. apply wo_bind; [apply P|]. intro. apply wo_bind; [apply P|]. intro. apply P.
  - intros [[o t] q]. apply wo_bind; [apply wo_save; auto|]. intro. wo.
Qed.
Lemma wo_bayesian : forall name v c sv sc r y ye lap w n u l, In (bayesian_path name) l -> writes_only l (bayesian_eiv name v c sv sc r y ye lap w n u).
Proof.
  intros. unfold ModelRun.bayesian_eiv, load_bayesian. apply wo_bind; [wo|]. intro. destruct (0 <? n)%Z; [|wo].
  apply wo_bind; [wo|]. intros [[[a1 a2] a3] a4]. destruct (centred lap a1 a2). apply wo_bind; [wo|]. intros [y1 its].
  apply wo_bind; [apply wo_save; auto|]. intro. wo.
Qed.
Lemma wo_bayesian3 : forall name v c ids sv sc r y ye lap w n u l, In (bayesian_path name) l ->
  writes_only l (bayesian_eiv_3ph name v c ids sv sc r y ye lap w n u).
Proof.
  intros. unfold ModelRun.bayesian_eiv_3ph. destruct (existsb _ _); [|wo].
  assert (P : forall yf i, writes_only l (bayesian_phase spsolve cabs true_cov naive_cov conf name v c ids sv sc r y ye lap w n u yf i)).
  { intros yf i. unfold bayesian_phase. do 5 (apply wo_bind; [wo|intro]). apply wo_bind; [apply wo_bayesian; auto|]. intros [yy bb]. wo. }
  apply wo_bind; [apply P|]. intros [y1 i1]. apply wo_bind; [apply P|]. intros [y2 i2]. apply wo_bind; [apply P|]. intros [y3 i3].
  apply wo_bind; [wo|]. intro. apply wo_bind; [apply wo_save; auto|]. intro. wo.
Qed.

Theorem p_frame : forall o s p, ~ In p [reference_path (network o); standard_path (network o); bayesian_path (network o)] ->
  fst (identify o s) p = s p.
Proof.
  intros o s p N. revert s p N. change (writes_only [reference_path (network o); standard_path (network o); bayesian_path (network o)] (identify o)).
  unfold ModelRun.identify. destruct (phases_refused _ _); [wo|]. apply wo_bind; [wo|]. intros c. destruct c; try solve [wo].
  apply wo_bind; [wo|]. intros [[[[[a1 a2] a3] a4] a5] a6]. apply wo_bind; [apply wo_save; cbn; auto|]. intro.
  apply wo_bind.
  { destruct (three_phased _); [apply wo_standard3; cbn; auto|apply wo_standard; cbn; auto]. }
  intros [[yo yt] yl]. apply wo_bind; [unfold load_bayesian; wo|]. intro y0. apply wo_bind.
  { destruct (three_phased _); [apply wo_bayesian3; cbn; auto|apply wo_bayesian; cbn; auto]. }
  intros [y1 its]. wo.
Qed.

(** ** which file is not read *)
Lemma ig_standard : forall path name v c lap n, standard_path name <> path -> ignores path (standard_methods name v c lap n).
Proof.
  intros path name v c lap n H. unfold ModelRun.standard_methods, load_standard. destruct v.
  - apply ig_bind; [apply ig_lift|]. intros [[o t] q]. ig.
  - ig.
Qed.
Lemma ig_standard3 : forall path name v c h lap n, standard_path name <> path -> ignores path (standard_methods_3ph name v c h lap n).
Proof.
  intros path name v c h lap n H. unfold ModelRun.standard_methods_3ph, load_standard. destruct v as [v|]; [|ig].
  assert (P : forall y i ids, ignores path (standard_phase pinv svd spsolve conf name v c ids lap n y i)).
  { intros [[a b] d] i ids. unfold standard_phase. apply ig_bind; [ig|]. intro. apply ig_bind; [ig|]. intro.
    apply ig_bind; [apply ig_standard; auto|]. intros [[o t] q]. ig. }
  apply ig_bind.
  - destruct h as [ids|]; [|ig]. apply ig_bind; [apply P|]. intro. apply ig_bind; [apply P|]. intro. apply P.
  - intros [[o t] q]. ig.
Qed.
Lemma ig_bayesian : forall path name v c sv sc r y ye lap w n u, bayesian_path name <> path -> ignores path (bayesian_eiv name v c sv sc r y ye lap w n u).
Proof.
  intros. unfold ModelRun.bayesian_eiv, load_bayesian. apply ig_bind; [ig|]. intro. destruct (0 <? n)%Z; [|ig].
  apply ig_bind; [ig|]. intros [[[a1 a2] a3] a4]. destruct (centred lap a1 a2). apply ig_bind; [ig|]. intros [y1 its]. ig.
Qed.
Lemma ig_bayesian3 : forall path name v c ids sv sc r y ye lap w n u, bayesian_path name <> path ->
  ignores path (bayesian_eiv_3ph name v c ids sv sc r y ye lap w n u).
Proof.
  intros. unfold ModelRun.bayesian_eiv_3ph. destruct (existsb _ _); [|ig].
  assert (P : forall yf i, ignores path (bayesian_phase spsolve cabs true_cov naive_cov conf name v c ids sv sc r y ye lap w n u yf i)).
  { intros yf i. unfold bayesian_phase. do 5 (apply ig_bind; [ig|intro]). apply ig_bind; [apply ig_bayesian; auto|]. intros [yy bb]. ig. }
  apply ig_bind; [apply P|]. intros [y1 i1]. apply ig_bind; [apply P|]. intros [y2 i2]. apply ig_bind; [apply P|]. intros [y3 i3]. ig.
Qed.

(** the program after the data of the chosen phase are known, and after the reference is saved *)
Definition rest (three : bool) (ids : option (list Z)) (o : options) (f : K) (h : list Z) (d : mat CK * mat CK * mat CK * mat CK * mat CK * list K) : io K unit :=
  let '(noisy_current, noisy_voltage, current, voltage, y_bus, pmu_ratings) := d in
  let redo_standard := standard o || (negb (standard o) && negb (bayesian o)) in
  let redo_stls := bayesian o || (negb (standard o) && negb (bayesian o)) in
  let name := network o in
  let voltage_sd := Cx (voltage_magnitude_sd conf / ksqrt f)%K (voltage_phase_sd conf / ksqrt f)%K in
  let current_sd := Cx (current_magnitude_sd conf / ksqrt f)%K (current_phase_sd conf / ksqrt f)%K in
  let given := if redo_standard then Some noisy_voltage else None in
  !(y_ols, y_tls, y_lasso) <--
    (if three
     then standard_methods_3ph name given noisy_current ids (laplacian o) (max_iterations o)
     else standard_methods name given noisy_current (laplacian o) (max_iterations o)) ;;;
  y_init <-- (if continue_id o then !(y, _) <-- load_bayesian name ;;; lift (Ok y) else lift (half_sum y_tls)) ;;;
  let y_exact := if exact o && negb (laplacian o) then Some y_bus else None in
  let iterations := if redo_stls then max_iterations o else 0%Z in
  !(y, its) <--
    (if three
     then bayesian_eiv_3ph name noisy_voltage noisy_current h voltage_sd current_sd pmu_ratings y_init y_exact (laplacian o) (weighted o)
            iterations (negb (unsynchronized o))
     else bayesian_eiv name noisy_voltage noisy_current voltage_sd current_sd pmu_ratings y_init y_exact (laplacian o) (weighted o)
            iterations (negb (unsynchronized o))) ;;;
  if continue_id o then lift (Err AttributeError) else if uncertainty o then lift (Err NameError) else lift (Ok tt).
Definition after (o : options) (f : K) (h : list Z) (d : mat CK * mat CK * mat CK * mat CK * mat CK * list K) : io K unit :=
  _ <-- save (reference_path (network o)) (Reference (snd (fst d)) (phases o) (laplacian o)) ;;;
  rest (three_phased (phases o)) (if (phases o =? "012")%string then Some h else None) o f h d.

Lemma identify_after : forall o s i v j w y p f h, phases_refused (phases o) (sequence o) = false ->
  s (simulation_path (network o)) = Some (Simulation i v j w y p f h) ->
  identify o s = match keep_phase (phases o) i v j w y p h with Ok d => after o f h d s | Err e => (s, Err e) end.
Proof.
  intros o s i v j w y p f h R S. unfold ModelRun.identify. rewrite R. unfold load, bind_io at 1. rewrite S.
  rewrite bind_lift. destruct (keep_phase _ _ _ _ _ _ _ _) as [[[[[[a1 a2] a3] a4] a5] a6]|e]; [|reflexivity]. reflexivity.
Qed.
Lemma identify_ok_inv : forall o s s' r, identify o s = (s', Ok r) ->
  phases_refused (phases o) (sequence o) = false /\
  exists i v j w y p f h d, s (simulation_path (network o)) = Some (Simulation i v j w y p f h) /\
    keep_phase (phases o) i v j w y p h = Ok d /\ after o f h d s = (s', Ok r).
Proof.
  intros o s s' r H. destruct (phases_refused (phases o) (sequence o)) eqn:R.
  { unfold ModelRun.identify in H. rewrite R in H. discriminate. }
  split; [reflexivity|]. destruct (s (simulation_path (network o))) as [[i v j w y p f h| | | |]|] eqn:S;
    try (unfold ModelRun.identify in H; rewrite R in H; unfold load, bind_io at 1 in H; rewrite S in H; discriminate).
  rewrite (identify_after o s i v j w y p f h R S) in H. destruct (keep_phase _ _ _ _ _ _ _ _) as [d|e] eqn:Ek; [|discriminate].
  exists i, v, j, w, y, p, f, h, d. auto.
Qed.
Lemma ig_rest : forall path three ids o f h d, standard_path (network o) <> path -> bayesian_path (network o) <> path ->
  ignores path (rest three ids o f h d).
Proof.
  intros path three ids o f h d P1 P2. destruct d as [[[[[a1 a2] a3] a4] a5] a6]. unfold rest.
  apply ig_bind.
  { destruct three; [apply ig_standard3; auto|apply ig_standard; auto]. }
  intros [[yo yt] yl]. apply ig_bind.
  { destruct (continue_id o); [|ig]. unfold load_bayesian. apply ig_bind; [|intros [yy bb]; ig]. apply ig_bind; [apply ig_load; auto|]. intros []; ig. }
  intro y0. apply ig_bind.
  { destruct three; [apply ig_bayesian3; auto|apply ig_bayesian; auto]. }
  intros [y1 its]. ig.
Qed.
Lemma ig_after : forall o f h d, ignores (simulation_path (network o)) (after o f h d).
Proof.
  intros o f h d. unfold after. apply ig_bind; [ig|]. intro. apply ig_rest; [apply path_sim_std|apply path_sim_bay].
Qed.
(** a single phase does not use the labels any more *)
Lemma after_labels : forall o f h1 h2 d, three_phased (phases o) = false -> after o f h1 d = after o f h2 d.
Proof. intros o f h1 h2 d E. unfold after. rewrite E. destruct d as [[[[[a1 a2] a3] a4] a5] a6]. reflexivity. Qed.
End Identify.
