(** Running the program identify of ModelRun.v again *)
From Coq Require Import String.
From Coq Require Import Bool Arith List ZArith Lia Sorted.
From Verif Require Import BasePy BaseFld BaseOrd BaseSum BaseMat BaseNumpy BaseLin SpecMatrix ModelMatrixOps ModelPrior ModelFit
  ModelLS SpecLS ModelIdent ModelRun SpecRun SpecIdentify ProofSet ProofMask ProofRun ProofRunIO ProofRunPhase ProofIdentify ProofIdentifyThm
  ProofRunBayes ProofIdentifyEnd.
Import ListNotations.
Close Scope string_scope.
Local Open Scope nat_scope.

Section Det.
Context {K : Type}.
(** programs whose result does not depend on the files *)
Definition det {A} (m : io K A) : Prop := forall s t, snd (m s) = snd (m t).
Lemma det_lift : forall A (r : res A), det (lift r).
Proof. intros A r s t. reflexivity. Qed.
Lemma det_save : forall p c, det (save p c).
Proof. intros p c s t. reflexivity. Qed.
Lemma det_bind : forall A B (m : io K A) (f : A -> io K B), det m -> (forall a, det (f a)) -> det (bind_io m f).
Proof.
  intros A B m f H1 H2 s t. unfold bind_io. specialize (H1 s t). destruct (m s) as [s1 r1]. destruct (m t) as [t1 r2]. cbn in H1. subst r2.
  destruct r1 as [a|e]; [apply H2|reflexivity].
Qed.
End Det.
Ltac dt := repeat first
  [ apply det_lift | apply det_save | (apply det_bind; [|intro]) | match goal with
    | |- det (match ?x with _ => _ end) => destruct x
    | |- det (if ?x then _ else _) => destruct x
    end ].

Section Rerun.
Context {K : Type} {O : Ops K} {O2 : OrdOps K}.
Notation CK := (cplx K).
Variable pinv : mat CK -> mat CK.
Variable svd : mat CK -> mat CK * list K * mat CK.
Variable spsolve : mat K -> list K -> res (list K).
Variable cabs : CK -> K.
Variable ksqrt : K -> K.
Variables true_cov naive_cov : mat CK -> arg K -> K -> bool -> res (mat K).
Variable conf : config K.
Notation identify := (identify pinv svd spsolve cabs ksqrt true_cov naive_cov conf).
Notation after := (after pinv svd spsolve cabs ksqrt true_cov naive_cov conf).
Notation rest := (rest pinv svd spsolve cabs ksqrt true_cov naive_cov conf).
Notation standard_methods := (standard_methods pinv svd spsolve conf).
Notation standard_methods_3ph := (standard_methods_3ph pinv svd spsolve conf).
Notation bayesian_eiv := (bayesian_eiv spsolve cabs true_cov naive_cov conf).
Notation bayesian_eiv_3ph := (bayesian_eiv_3ph spsolve cabs true_cov naive_cov conf).
Notation bayesian_phase := (bayesian_phase spsolve cabs true_cov naive_cov conf).
Notation std := (fun (three : bool) name given c ids lap n => if three then standard_methods_3ph name given c ids lap n else standard_methods name given c lap n).

Definition changes (path : string) (c : content K) (s s1 : files K) : Prop := s1 path = Some c /\ forall p, p <> path -> s1 p = s p.

Lemma std_det : forall three name v c ids lap n, det (std three name (Some v) c ids lap n).
Proof.
  intros. destruct three.
  - unfold ModelRun.standard_methods_3ph. apply det_bind; [|intros [[yo yt] yl]; dt]. destruct ids; [|dt].
    assert (P : forall y i, det (standard_phase pinv svd spsolve conf name v c l lap n y i)).
    { intros [[y1 y2] y3] i. unfold standard_phase. apply det_bind; [dt|intro]. apply det_bind; [dt|intro]. apply det_bind; [unfold ModelRun.standard_methods; apply det_bind; [dt|intros [[u1 u2] u3]; dt]|].
      intros [[u1 u2] u3]. dt. }
    apply det_bind; [apply P|intro]. apply det_bind; [apply P|intro]. apply P.
  - unfold ModelRun.standard_methods. apply det_bind; [dt|intros [[u1 u2] u3]; dt].
Qed.
Lemma std_saved : forall three name v c ids lap n s s1 yo yt yl, std three name (Some v) c ids lap n s = (s1, Ok (yo, yt, yl)) ->
  changes (standard_path name) (Standard yo yt yl) s s1.
Proof.
  intros three name v c ids lap n s s1 yo yt yl H. split.
  - destruct three.
    + unfold ModelRun.standard_methods_3ph in H. apply bind_io_ok in H. destruct H as (s2 & [[u1 u2] u3] & _ & H). rewrite bind_save in H. unfold lift in H. inversion H; subst. apply write_same.
    + unfold ModelRun.standard_methods in H. apply bind_io_ok in H. destruct H as (s2 & [[u1 u2] u3] & _ & H). rewrite bind_save in H. unfold lift in H. inversion H; subst. apply write_same.
  - intros p Hp. assert (W : writes_only [standard_path name] (std three name (Some v) c ids lap n)).
    { destruct three; [apply wo_standard3|apply wo_standard]; cbn; auto. }
    specialize (W s p). cbn beta in W. rewrite H in W. apply W. cbn. intros [X|[]]. auto.
Qed.
Lemma std_stage : forall three name v given c ids lap n s s1 yo yt yl t, std three name (Some v) c ids lap n s = (s1, Ok (yo, yt, yl)) ->
  given = Some v \/ given = None /\ t (standard_path name) = Some (Standard yo yt yl) ->
  exists t1, std three name given c ids lap n t = (t1, Ok (yo, yt, yl)) /\ changes (standard_path name) (Standard yo yt yl) t t1.
Proof.
  intros three name v given c ids lap n s s1 yo yt yl t H [->|[-> E]].
  - pose proof (std_det three name v c ids lap n s t) as D. cbn beta in D. rewrite H in D. cbn [snd] in D.
    destruct ((if three then standard_methods_3ph name (Some v) c ids lap n else standard_methods name (Some v) c lap n) t) as [t1 r] eqn:Et.
    cbn [snd] in D. subst r. exists t1. split; [reflexivity|]. eapply (std_saved three). exact Et.
  - exists t. assert (L : std three name None c ids lap n t = (t, Ok (yo, yt, yl))).
    { destruct three; unfold ModelRun.standard_methods_3ph, ModelRun.standard_methods, load_standard, load, bind_io; rewrite E; reflexivity. }
    split; [exact L|]. split; auto.
Qed.

Notation bay := (fun (three : bool) name v c h sv sc r y ye lap w n u =>
  if three then bayesian_eiv_3ph name v c h sv sc r y ye lap w n u else bayesian_eiv name v c sv sc r y ye lap w n u).
Lemma eiv_det : forall name v c sv sc r y ye lap w n u, (0 < n)%Z -> det (bayesian_eiv name v c sv sc r y ye lap w n u).
Proof.
  intros. unfold ModelRun.bayesian_eiv. apply det_bind; [dt|intro]. replace (0 <? n)%Z with true by (symmetry; apply Z.ltb_lt; auto).
  apply det_bind; [dt|]. intros [[[a1 a2] a3] a4]. destruct (centred lap a1 a2). apply det_bind; [dt|]. intros [yy bb]. dt.
Qed.
Lemma bay_det : forall three name v c h sv sc r y ye lap w n u, (0 < n)%Z -> det (bay three name v c h sv sc r y ye lap w n u).
Proof.
  intros three name v c h sv sc r y ye lap w n u Hn. destruct three; [|apply eiv_det; auto]. unfold ModelRun.bayesian_eiv_3ph.
  destruct (existsb _ _); [|dt].
  assert (P : forall yf i, det (bayesian_phase name v c h sv sc r y ye lap w n u yf i)).
  { intros. unfold ModelRun.bayesian_phase. do 5 (apply det_bind; [dt|intro]). apply det_bind; [apply eiv_det; auto|]. intros [yy bb]. dt. }
  apply det_bind; [apply P|]. intros [y1 i1]. apply det_bind; [apply P|]. intros [y2 i2]. apply det_bind; [apply P|]. intros [y3 i3]. dt.
Qed.
Lemma bay_saved : forall three name v c h sv sc r y ye lap w n u s s1 yy its, (0 < n)%Z -> bay three name v c h sv sc r y ye lap w n u s = (s1, Ok (yy, its)) ->
  changes (bayesian_path name) (Bayesian yy its) s s1.
Proof.
  intros three name v c h sv sc r y ye lap w n u s s1 yy its Hn H. split.
  - destruct three.
    + unfold ModelRun.bayesian_eiv_3ph in H. destruct (existsb _ _); [|discriminate].
      apply bind_io_ok in H. destruct H as (s2 & [y1 i1] & _ & H). apply bind_io_ok in H. destruct H as (s3 & [y2 i2] & _ & H).
      apply bind_io_ok in H. destruct H as (s4 & [y3 i3] & _ & H). rewrite bind_lift in H. destruct (merge_from _ _ _ _ _ _); [|discriminate].
      rewrite bind_save in H. unfold lift in H. inversion H; subst. apply write_same.
    + apply bayesian_saves in H; auto. subst s1. apply write_same.
  - intros p Hp. assert (W : writes_only [bayesian_path name] (bay three name v c h sv sc r y ye lap w n u)).
    { destruct three; [apply wo_bayesian3|apply wo_bayesian]; cbn; auto. }
    specialize (W s p). cbn beta in W. rewrite H in W. apply W. cbn. intros [X|[]]. auto.
Qed.
Lemma bay_stage : forall three name v c h sv sc r y ye lap w n n' u s s1 yy its t, (0 < n)%Z -> bay three name v c h sv sc r y ye lap w n u s = (s1, Ok (yy, its)) ->
  n' = n \/ three = false /\ (n' <= 0)%Z /\ t (bayesian_path name) = Some (Bayesian yy its) ->
  exists t1, bay three name v c h sv sc r y ye lap w n' u t = (t1, Ok (yy, its)) /\ changes (bayesian_path name) (Bayesian yy its) t t1.
Proof.
  intros three name v c h sv sc r y ye lap w n n' u s s1 yy its t Hn H [->|[-> [Hn' E]]].
  - pose proof (bay_det three name v c h sv sc r y ye lap w n u Hn s t) as D. cbn beta in D. rewrite H in D. cbn [snd] in D.
    destruct ((if three then bayesian_eiv_3ph name v c h sv sc r y ye lap w n u else bayesian_eiv name v c sv sc r y ye lap w n u) t) as [t1 q] eqn:Et.
    cbn [snd] in D. subst q. exists t1. split; [reflexivity|]. eapply (bay_saved three); [exact Hn|exact Et].
  - exists t. split; [|split; auto]. rewrite bayesian_loads by auto.
    unfold ModelRun.bayesian_eiv in H. rewrite bind_lift in H. destruct (eiv_object _ _ _ _ _ n) eqn:Eo; [|discriminate].
    destruct (object_max conf _ _ _ _ _ n' _ Eo) as (e' & ->). unfold load_bayesian, load, bind_io. rewrite E. reflexivity.
Qed.

(** what a complete run leaves behind *)
Lemma run_leaves : forall o s s', identify (with_flags o false false) s = (s', Ok tt) -> (0 < max_iterations o)%Z ->
  phases_refused (phases o) (sequence o) = false /\ continue_id o = false /\ uncertainty o = false /\
  exists i v j w y p f h ni nv cu vo yb pr yo yt yl y0 yy its s1,
    s (simulation_path (network o)) = Some (Simulation i v j w y p f h) /\ keep_phase (phases o) i v j w y p h = Ok (ni, nv, cu, vo, yb, pr) /\
    std (three_phased (phases o)) (network o) (Some nv) ni (if (phases o =? "012")%string then Some h else None) (laplacian o) (max_iterations o)
      (write s (reference_path (network o)) (Reference yb (phases o) (laplacian o))) = (s1, Ok (yo, yt, yl)) /\
    half_sum yt = Ok y0 /\
    bay (three_phased (phases o)) (network o) nv ni h (Cx (voltage_magnitude_sd conf / ksqrt f)%K (voltage_phase_sd conf / ksqrt f)%K)
      (Cx (current_magnitude_sd conf / ksqrt f)%K (current_phase_sd conf / ksqrt f)%K) pr y0 (if exact o && negb (laplacian o) then Some yb else None)
      (laplacian o) (weighted o) (max_iterations o) (negb (unsynchronized o)) s1 = (s', Ok (yy, its)).
Proof.
  intros o s s' H Hn. apply identify_ok_inv in H. destruct H as (R & i & v & j & w & y & p & f & h & d & Hs & Hk & Ha).
  cbn [phases sequence network with_flags] in R, Hs, Hk. split; [exact R|]. destruct d as [[[[[ni nv] cu] vo] yb] pr].
  unfold ProofIdentify.after in Ha. rewrite bind_save in Ha. unfold ProofIdentify.rest in Ha.
  cbn [network max_iterations standard bayesian continue_id phases sequence exact laplacian weighted uncertainty unsynchronized with_flags orb andb negb fst snd] in Ha.
  apply bind_io_ok in Ha. destruct Ha as (s1 & [[yo yt] yl] & A1 & Ha). apply bind_io_ok in Ha. destruct Ha as (s2 & y0 & A2 & Ha).
  apply bind_io_ok in Ha. destruct Ha as (s3 & [yy its] & A3 & Ha). destruct (continue_id o) eqn:Ec; [discriminate|]. destruct (uncertainty o) eqn:Eu; [discriminate|].
  apply lift_ok in A2. destruct A2 as [-> A2]. apply lift_ok in Ha. destruct Ha as [<- _]. split; [reflexivity|]. split; [reflexivity|].
  exists i, v, j, w, y, p, f, h, ni, nv, cu, vo, yb, pr, yo, yt, yl, y0, yy, its, s1. auto 10.
Qed.

Theorem p_rerun : forall o s s' st ba, identify (with_flags o false false) s = (s', Ok tt) -> (0 < max_iterations o)%Z ->
  three_phased (phases o) = false \/ (st = false \/ ba = true) ->
  snd (identify (with_flags o st ba) s') = Ok tt /\ forall p, fst (identify (with_flags o st ba) s') p = s' p.
Proof.
  intros o s s' st ba H Hn Hf. pose proof (p_frame pinv svd spsolve cabs ksqrt true_cov naive_cov conf (with_flags o false false) s (simulation_path (network o))) as Fr.
  rewrite H in Fr. cbn [fst network with_flags] in Fr.
  destruct (run_leaves o s s' H Hn) as (R & Ec & Eu & i & v & j & w & y & p & f & h & ni & nv & cu & vo & yb & pr & yo & yt & yl & y0 & yy & its & s1 & Hs & Hk & A1 & A2 & A3).
  destruct (std_saved _ _ _ _ _ _ _ _ _ _ _ _ A1) as [B1 B2]. destruct (bay_saved _ _ _ _ _ _ _ _ _ _ _ _ _ _ _ _ _ _ Hn A3) as [C1 C2].
  assert (Hs' : s' (simulation_path (network o)) = Some (Simulation i v j w y p f h)).
  { rewrite Fr; auto. cbn. intros [X|[X|[X|[]]]]; [apply (path_sim_ref _ X)|apply (path_sim_std _ X)|apply (path_sim_bay _ X)]. }
  assert (Hr' : s' (reference_path (network o)) = Some (Reference yb (phases o) (laplacian o))).
  { rewrite C2 by apply path_ref_bay. rewrite B2 by apply path_ref_std. apply write_same. }
  assert (Hst : s' (standard_path (network o)) = Some (Standard yo yt yl)).
  { rewrite C2; auto. intro X. apply (path_bay_std _ _ (eq_sym X)). }
  rewrite (identify_after _ _ _ _ _ _ _ _ (with_flags o st ba) s' i v j w y p f h R Hs').
  cbn [phases with_flags]. rewrite Hk. unfold ProofIdentify.after. rewrite bind_save. unfold ProofIdentify.rest.
  cbn [network max_iterations standard bayesian continue_id phases sequence exact laplacian weighted uncertainty unsynchronized with_flags fst snd].
  set (t0 := write s' (reference_path (network o)) (Reference yb (phases o) (laplacian o))).
  assert (T0 : forall q, t0 q = s' q).
  { intro q. unfold t0, write. destruct (String.eqb_spec q (reference_path (network o))); [subst q; auto|reflexivity]. }
  destruct (std_stage _ _ _ (if st || (negb st && negb ba) then Some nv else None) _ _ _ _ _ _ _ _ _ t0 A1) as (t1 & D1 & D2 & D3).
  { destruct (st || (negb st && negb ba)); [left; reflexivity|right; split; [reflexivity|rewrite T0; auto]]. }
  cbn beta in D1.
  assert (T1 : forall q, t1 q = s' q).
  { intro q. destruct (string_dec q (standard_path (network o))) as [->|N]; [rewrite D2; auto|rewrite D3 by auto; apply T0]. }
  destruct (bay_stage _ _ _ _ _ _ _ _ _ _ _ _ _ (if ba || (negb st && negb ba) then max_iterations o else 0%Z) _ _ _ _ _ t1 Hn A3) as (t2 & E1 & E2 & E3).
  { destruct (ba || (negb st && negb ba)) eqn:Eb; [left; reflexivity|right]. destruct st, ba; try discriminate.
    destruct Hf as [Hf|[Hf|Hf]]; try discriminate. split; [exact Hf|]. split; [lia|]. rewrite T1. exact C1. }
  cbn beta in E1.
  match goal with |- snd ?m = _ /\ _ => assert (X : m = (t2, Ok tt)) end.
  { unfold bind_io at 1. rewrite D1. rewrite Ec. rewrite bind_lift, A2. unfold bind_io at 1. rewrite E1. rewrite Eu. reflexivity. }
  rewrite X. cbn [fst snd]. split; [reflexivity|].
  intro q. destruct (string_dec q (bayesian_path (network o))) as [->|N]; [congruence|rewrite E3 by auto; apply T1].
Qed.

(** the results of the three phases cannot be loaded *)
Theorem p_rerun_three : forall o s s' i v j w y p f h, identify (with_flags o false false) s = (s', Ok tt) -> (0 < max_iterations o)%Z ->
  three_phased (phases o) = true -> s (simulation_path (network o)) = Some (Simulation i v j w y p f h) -> (exists q, In q h /\ q <> 0%Z) ->
  snd (identify (with_flags o true false) s') = Err ValueError.
Proof.
  intros o s s' i' v' j' w' y' p' f' h' H Hn H3 Hsim Hq. pose proof (p_frame pinv svd spsolve cabs ksqrt true_cov naive_cov conf (with_flags o false false) s (simulation_path (network o))) as Fr.
  rewrite H in Fr. cbn [fst network with_flags] in Fr.
  destruct (run_leaves o s s' H Hn) as (R & Ec & Eu & i & v & j & w & y & p & f & h & ni & nv & cu & vo & yb & pr & yo & yt & yl & y0 & yy & its & s1 & Hs & Hk & A1 & A2 & A3).
  assert (h' = h) by congruence. subst h'.
  destruct (bay_saved _ _ _ _ _ _ _ _ _ _ _ _ _ _ _ _ _ _ Hn A3) as [C1 C2].
  assert (Hs' : s' (simulation_path (network o)) = Some (Simulation i v j w y p f h)).
  { rewrite Fr; auto. cbn. intros [X|[X|[X|[]]]]; [apply (path_sim_ref _ X)|apply (path_sim_std _ X)|apply (path_sim_bay _ X)]. }
  rewrite (identify_after _ _ _ _ _ _ _ _ (with_flags o true false) s' i v j w y p f h R Hs').
  cbn [phases with_flags]. rewrite Hk. unfold ProofIdentify.after. rewrite bind_save. unfold ProofIdentify.rest.
  cbn [network max_iterations standard bayesian continue_id phases sequence exact laplacian weighted uncertainty unsynchronized with_flags fst snd orb andb negb].
  set (t0 := write s' (reference_path (network o)) (Reference yb (phases o) (laplacian o))).
  destruct (std_stage _ _ _ (Some nv) _ _ _ _ _ _ _ _ _ t0 A1 (or_introl eq_refl)) as (t1 & D1 & D2 & D3).
  cbn beta in D1. unfold bind_io at 1. rewrite D1. rewrite Ec. rewrite bind_lift, A2.
  assert (T1 : t1 (bayesian_path (network o)) = Some (Bayesian yy its)).
  { rewrite D3 by apply path_bay_std. unfold t0, write. destruct (String.eqb_spec (bayesian_path (network o)) (reference_path (network o))) as [X|X]; [|exact C1].
    exfalso. apply (path_ref_bay _ _ (eq_sym X)). }
  rewrite H3 in *. cbn beta iota in A3. unfold bind_io at 1.
  rewrite (three_reload_at spsolve cabs true_cov naive_cov conf _ _ _ _ _ _ _ _ _ _ _ _ _ 0%Z _ _ _ t1 Hn ltac:(lia) A3 Hq) by congruence. reflexivity.
Qed.

(** files that are left alone *)
Lemma append_inj_r : forall b p q, (p ++ b = q ++ b)%string -> p = q.
Proof.
  intros b p. induction p as [|x p IH]; intros q H.
  - destruct q as [|y q]; [reflexivity|]. apply (f_equal String.length) in H. rewrite !length_append in H. cbn [String.length] in H. lia.
  - destruct q as [|y q]; [apply (f_equal String.length) in H; rewrite !length_append in H; cbn [String.length] in H; lia|].
    cbn in H. inversion H. f_equal. auto.
Qed.
Theorem p_kept_simulation : forall o s, fst (identify o s) (simulation_path (network o)) = s (simulation_path (network o)).
Proof.
  intros o s. apply p_frame. cbn. intros [X|[X|[X|[]]]]; [apply (path_sim_ref _ X)|apply (path_sim_std _ X)|apply (path_sim_bay _ X)].
Qed.
Theorem p_kept_uncertainty : forall o s name, fst (identify o s) (uncertainty_path name) = s (uncertainty_path name).
Proof.
  intros o s name. apply p_frame. cbn. unfold uncertainty_path, reference_path, standard_path, bayesian_path.
  intros [X|[X|[X|[]]]]; discriminate X.
Qed.
Theorem p_kept_other : forall o s name p, name <> network o -> In p [reference_path name; standard_path name; bayesian_path name] ->
  fst (identify o s) p = s p.
Proof.
  intros o s name p N Hp. apply p_frame. intro H.
  assert (I : forall a b, a <> b -> reference_path a <> reference_path b /\ standard_path a <> standard_path b /\ bayesian_path a <> bayesian_path b).
  { intros a b D. unfold reference_path, standard_path, bayesian_path. repeat split; intro X; apply append_inj_l in X; apply append_inj_r in X; auto. }
  destruct (I _ _ N) as (I1 & I2 & I3).
  destruct Hp as [<-|[<-|[<-|[]]]]; destruct H as [H|[H|[H|[]]]].
  - apply I1; auto.
  - apply (path_ref_std _ _ (eq_sym H)).
  - apply (path_ref_bay _ _ (eq_sym H)).
  - apply (path_ref_std _ _ H).
  - apply I2; auto.
  - apply (path_bay_std _ _ H).
  - apply (path_ref_bay _ _ H).
  - apply (path_bay_std _ _ (eq_sym H)).
  - apply I3; auto.
Qed.
End Rerun.
