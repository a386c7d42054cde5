(** Identification of saved data that obey the saved matrix, by identify of ModelRun.v *)
From Coq Require Import String.
From Coq Require Import Bool Arith List ZArith Lia.
From Verif Require Import BasePy BaseFld BaseOrd BaseSum BaseMat BaseLin ModelRun SpecLS SpecRun ProofRunIO ProofRunThm ProofIdentify.
Import ListNotations.
Close Scope string_scope.
Local Open Scope K_scope.

(** ** identification of saved data that obey the saved matrix *)
Section Identify.
Context {K : Type} {O : Ops K} {F : Fld K} {O2 : OrdOps K} {OF : OrdFld K}.
Notation CK := (cplx K).
Theorem p_identify_exact : forall pinv svd spsolve cabs ksqrt true_cov naive_cov (conf : config K) o (fs fs' : files K) T n (i v j w y : mat CK) P f m c,
  fs (simulation_path (network o)) = Some (Simulation i v j w y P f (repeat 1%Z m)) ->
  identify pinv svd spsolve cabs ksqrt true_cov naive_cov conf o fs = (fs', Ok tt) ->
  three_phased (phases o) = false -> (standard o = true \/ bayesian o = false) ->
  explained T n n v y i c -> (laplacian o = true -> (forall k, (k < n)%nat -> c k = 0) /\ zero_column_sums n n y) -> (0 < n)%nat ->
  inj (fst (centred (laplacian o) v i)) -> routines pinv svd T n n (fst (centred (laplacian o) v i)) (snd (centred (laplacian o) v i)) ->
  exists l, fs' (standard_path (network o)) = Some (Standard y y l) /\ fs' (reference_path (network o)) = Some (Reference y (phases o) (laplacian o)).
Proof.
  intros pinv svd spsolve cabs ksqrt tc nvc conf o fs fs' T n i v j w y P f m c FS ID TP RD EX LP N0 INJ RT.
  apply identify_ok_inv in ID. destruct ID as (_ & i1 & v1 & j1 & w1 & y1 & p1 & f1 & h1 & d & E1 & EK & EA). rewrite FS in E1. injection E1 as <- <- <- <- <- <- <- <-.
  unfold keep_phase in EK. rewrite TP in EK. cbn [negb andb] in EK.
  assert (NB : existsb (fun x => negb (x =? 1)%Z) (repeat 1%Z m) = false) by (clear; induction m as [|m IHm]; [reflexivity|cbn; exact IHm]). rewrite NB in EK. injection EK as <-.
  unfold after in EA. rewrite bind_save in EA. cbn [fst snd] in EA. unfold rest in EA. rewrite TP in EA.
  assert (RS : standard o || (negb (standard o) && negb (bayesian o)) = true) by (destruct RD as [Q|Q]; rewrite Q; [reflexivity|destruct (standard o); reflexivity]).
  rewrite RS in EA. unfold bind_io at 1 in EA.
  destruct (standard_methods pinv svd spsolve conf (network o) (Some v) i (laplacian o) (max_iterations o) (write fs (reference_path (network o)) (Reference y (phases o) (laplacian o)))) as [s1 [[[yo yt] yl]|e]] eqn:ES; [|discriminate].
  destruct (p_standard_exact_any pinv svd spsolve conf (network o) T n v y i c (laplacian o) (max_iterations o) _ _ _ _ _ EX LP N0 INJ RT ES) as [-> ->].
  exists yl.
  assert (S1 : s1 (standard_path (network o)) = Some (Standard y y yl) /\ s1 (reference_path (network o)) = Some (Reference y (phases o) (laplacian o))).
  { unfold standard_methods in ES. rewrite bind_lift in ES. destruct (standard_estimates pinv svd spsolve conf v i (laplacian o) (max_iterations o)) as [[[a b] e]|e]; [|discriminate].
    rewrite bind_save in ES. unfold lift in ES. injection ES as <- -> -> ->. split.
    - unfold write. rewrite String.eqb_refl. reflexivity.
    - unfold write. destruct (String.eqb_spec (reference_path (network o)) (standard_path (network o))) as [Q|_]; [discriminate|]. rewrite String.eqb_refl. reflexivity. }
  match type of EA with ?m s1 = _ => assert (WO : writes_only [bayesian_path (network o)] m) end.
  { apply wo_bind; [destruct (continue_id o); [apply wo_bind; [unfold load_bayesian; apply wo_bind; [apply wo_load|intros []; apply wo_lift]|intros []; apply wo_lift]|apply wo_lift]|]. intro y0.
    apply wo_bind; [apply wo_bayesian; cbn; auto|]. intros [yb its]. destruct (continue_id o); [apply wo_lift|]. destruct (uncertainty o); apply wo_lift. }
  assert (N1 : forall p, p = standard_path (network o) \/ p = reference_path (network o) -> ~ In p [bayesian_path (network o)]) by (intros p [-> | ->] [Q|[]]; discriminate).
  pose proof (WO s1 (standard_path (network o)) (N1 _ (or_introl eq_refl))) as W1. pose proof (WO s1 (reference_path (network o)) (N1 _ (or_intror eq_refl))) as W2.
  rewrite EA in W1, W2. cbn [fst] in W1, W2. rewrite W1, W2. exact S1.
Qed.
End Identify.

