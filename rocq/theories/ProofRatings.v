(** The ratings of the sensors and the noise levels of the currents do not influence a successful identification (ModelRun.v) *)
From Coq Require Import String.
From Coq Require Import Bool Arith List ZArith Lia.
From Verif Require Import BasePy BaseFld BaseOrd BaseSum BaseMat BaseNumpy ModelMatrixOps ModelPrior ModelFit
  ModelLS ModelIdent ModelRun SpecRun SpecIdentify SpecBayes ProofRun ProofRunIO ProofIdentify.
Import ListNotations.
Close Scope string_scope.
Local Open Scope nat_scope.

Section Twins.
Context {K : Type}.
(** started from the same files, two programs that both succeed leave the same files and related results *)
Definition twins {A B} (R : A -> B -> Prop) (m1 : io K A) (m2 : io K B) : Prop :=
  forall s s1 s2 a b, m1 s = (s1, Ok a) -> m2 s = (s2, Ok b) -> s1 = s2 /\ R a b.
Lemma tw_lift : forall A B (R : A -> B -> Prop) r1 r2, (forall a b, r1 = Ok a -> r2 = Ok b -> R a b) -> twins R (lift r1) (lift r2).
Proof. intros A B R r1 r2 H s s1 s2 a b H1 H2. apply lift_ok in H1, H2. destruct H1 as [-> H1], H2 as [-> H2]. auto. Qed.
Lemma tw_bind : forall A B C D (R : A -> B -> Prop) (Q : C -> D -> Prop) m1 m2 f1 f2,
  twins R m1 m2 -> (forall a b, R a b -> twins Q (f1 a) (f2 b)) -> twins Q (bind_io m1 f1) (bind_io m2 f2).
Proof.
  intros A B C D R Q m1 m2 f1 f2 H1 H2 s s1 s2 a b E1 E2. apply bind_io_ok in E1, E2.
  destruct E1 as (t1 & x & E1 & F1), E2 as (t2 & y & E2 & F2). destruct (H1 _ _ _ _ _ E1 E2) as [-> r]. exact (H2 x y r _ _ _ _ _ F1 F2).
Qed.
Lemma tw_same : forall A (m : io K A), twins eq m m.
Proof. intros A m s s1 s2 a b E1 E2. rewrite E1 in E2. inversion E2. auto. Qed.
Lemma tw_bind_same : forall A C D (Q : C -> D -> Prop) (m : io K A) f1 f2,
  (forall a, twins Q (f1 a) (f2 a)) -> twins Q (bind_io m f1) (bind_io m f2).
Proof. intros A C D Q m f1 f2 H. apply (tw_bind _ _ _ _ eq); [apply tw_same|]. intros a b ->. apply H. Qed.
End Twins.

Section Ratings.
Context {K : Type} {O : Ops K} {O2 : OrdOps K}.
Notation CK := (cplx K).
Variable pinv : mat CK -> mat CK.
Variable svd : mat CK -> mat CK * list K * mat CK.
Variable spsolve : mat K -> list K -> res (list K).
Variable cabs : CK -> K.
Variable ksqrt : K -> K.
Variables true_cov naive_cov : mat CK -> arg K -> K -> bool -> res (mat K).
Variables (conf : config K) (ma pa : K).
Notation conf2 := (with_current_sd conf ma pa).

Lemma tw_bayesian : forall name v c sv sc1 sc2 r1 r2 y ye lap w n u,
  twins eq (bayesian_eiv spsolve cabs true_cov naive_cov conf name v c sv sc1 r1 y ye lap w n u)
    (bayesian_eiv spsolve cabs true_cov naive_cov conf2 name v c sv sc2 r2 y ye lap w n u).
Proof.
  intros name v c sv sc1 sc2 r1 r2 y ye lap w n u. unfold bayesian_eiv.
  change (eiv_object conf2) with (eiv_object conf). apply tw_bind_same. intros e. destruct (0 <? n)%Z; [|apply tw_same].
  apply (tw_bind _ _ _ _ (fun d1 d2 : mat CK * mat CK * option (mat K) * option (mat K) =>
    fst d1 = fst d2 /\ match snd d1, snd d2 with None, None | Some _, Some _ => True | _, _ => False end)).
  - apply tw_lift. intros d1 d2 H1 H2. unfold eiv_data in H1, H2. destruct (w && u).
    { apply bind_ok in H1, H2. destruct H1 as (s1 & E1 & H1), H2 as (s2 & E2 & H2). rewrite E1 in E2. injection E2 as <-.
      apply bind_ok in H1, H2. destruct H1 as (t1 & _ & H1), H2 as (t2 & _ & H2). injection H1 as <-. injection H2 as <-. split; [reflexivity|exact I]. }
    destruct (w && negb u).
    { apply bind_ok in H1, H2. destruct H1 as (c1 & C1 & H1), H2 as (c2 & C2 & H2). rewrite C1 in C2. injection C2 as <-.
      apply bind_ok in H1, H2. destruct H1 as (s1 & E1 & H1), H2 as (s2 & E2 & H2). rewrite E1 in E2. injection E2 as <-.
      apply bind_ok in H1, H2. destruct H1 as (t1 & _ & H1), H2 as (t2 & _ & H2). injection H1 as <-. injection H2 as <-. split; [reflexivity|exact I]. }
    injection H1 as <-. injection H2 as <-. split; [reflexivity|exact I].
  - intros [[[v1 i1] x1] z1] [[[v2 i2] x2] z2] [E1 E2]. cbn [fst snd] in E1, E2. injection E1 as <- <- <-.
    destruct (centred lap v1 i1) as [cv ci].
    assert (X : eiv_fit spsolve cabs e cv ci x1 z1 y = eiv_fit spsolve cabs e cv ci x1 z2 y) by (destruct z1, z2; try destruct E2; reflexivity).
    rewrite X. apply tw_same.
Qed.
Lemma tw_phase : forall name v c ids sv sc1 sc2 r1 r2 y ye lap w n u yf i,
  twins eq (bayesian_phase spsolve cabs true_cov naive_cov conf name v c ids sv sc1 r1 y ye lap w n u yf i)
    (bayesian_phase spsolve cabs true_cov naive_cov conf2 name v c ids sv sc2 r2 y ye lap w n u yf i).
Proof.
  intros. unfold bayesian_phase. apply tw_bind_same. intros v1. apply tw_bind_same. intros c1.
  apply (tw_bind _ _ _ _ (fun _ _ => True)); [apply tw_lift; auto|]. intros a b _.
  apply tw_bind_same. intros y0. apply tw_bind_same. intros y1.
  apply (tw_bind _ _ _ _ eq); [apply tw_bayesian|]. intros [z its] b' <-. apply tw_same.
Qed.
Lemma tw_bayesian3 : forall name v c ids sv sc1 sc2 r1 r2 y ye lap w n u,
  twins eq (bayesian_eiv_3ph spsolve cabs true_cov naive_cov conf name v c ids sv sc1 r1 y ye lap w n u)
    (bayesian_eiv_3ph spsolve cabs true_cov naive_cov conf2 name v c ids sv sc2 r2 y ye lap w n u).
Proof.
  intros. unfold bayesian_eiv_3ph. destruct (existsb (Z.eqb 0) ids); [|apply tw_same].
  apply (tw_bind _ _ _ _ eq); [apply tw_phase|]. intros [y0 i0] ? <-.
  apply (tw_bind _ _ _ _ eq); [apply tw_phase|]. intros [y1 i1] ? <-.
  apply (tw_bind _ _ _ _ eq); [apply tw_phase|]. intros [y2 i2] ? <-. apply tw_same.
Qed.
Lemma tw_after : forall o f h a1 a2 a3 a4 a5 r1 r2,
  twins eq (after pinv svd spsolve cabs ksqrt true_cov naive_cov conf o f h (a1, a2, a3, a4, a5, r1))
    (after pinv svd spsolve cabs ksqrt true_cov naive_cov conf2 o f h (a1, a2, a3, a4, a5, r2)).
Proof.
  intros. unfold after. cbn [fst snd]. apply tw_bind_same. intros _. unfold rest.
  apply (tw_bind _ _ _ _ eq).
  - destruct (three_phased (phases o)); apply tw_same.
  - intros [[yo yt] yl] ? <-. apply tw_bind_same. intros y0.
    apply (tw_bind _ _ _ _ eq); [|intros [z its] ? <-; apply tw_same].
    destruct (three_phased (phases o)); [apply tw_bayesian3|apply tw_bayesian].
Qed.
Lemma keep_phase_ratings : forall p (i v j w y : mat CK) r1 r2 h d1 d2,
  keep_phase p i v j w y r1 h = Ok d1 -> keep_phase p i v j w y r2 h = Ok d2 -> fst d1 = fst d2.
Proof.
  intros p i v j w y r1 r2 h d1 d2 H1 H2. unfold keep_phase in H1, H2.
  destruct (negb (three_phased p) && existsb (fun x => negb (x =? 1)%Z) h); [|inversion H1; inversion H2; reflexivity].
  destruct (negb (existsb (Z.eqb (int_of p)) h)); [discriminate|].
  apply bind_ok in H1, H2. destruct H1 as (x1 & E1 & H1), H2 as (x2 & E2 & H2). rewrite E1 in E2. injection E2 as <-.
  apply bind_ok in H1, H2. destruct H1 as (q1 & _ & H1), H2 as (q2 & _ & H2).
  do 4 (apply bind_ok in H1, H2; let y1 := fresh in let y2 := fresh in let E1 := fresh in let E2 := fresh in
    destruct H1 as (y1 & E1 & H1); destruct H2 as (y2 & E2 & H2); rewrite E1 in E2; injection E2 as <-).
  injection H1 as <-. injection H2 as <-. reflexivity.
Qed.

Theorem p_ratings_do_not_matter : forall o (s1 s2 s1' s2' : files K) i v j w y P1 P2 f h,
  s1 (simulation_path (network o)) = Some (Simulation i v j w y P1 f h) ->
  s2 (simulation_path (network o)) = Some (Simulation i v j w y P2 f h) ->
  (forall p, p <> simulation_path (network o) -> s1 p = s2 p) ->
  identify pinv svd spsolve cabs ksqrt true_cov naive_cov conf o s1 = (s1', Ok tt) ->
  identify pinv svd spsolve cabs ksqrt true_cov naive_cov conf2 o s2 = (s2', Ok tt) ->
  forall p, p <> simulation_path (network o) -> s1' p = s2' p.
Proof.
  intros o s1 s2 s1' s2' i v j w y P1 P2 f h F1 F2 AG I1 I2.
  apply identify_ok_inv in I1, I2.
  destruct I1 as (_ & i1 & v1 & j1 & w1 & y1 & p1 & f1 & h1 & d1 & G1 & K1 & A1). rewrite F1 in G1. injection G1 as <- <- <- <- <- <- <- <-.
  destruct I2 as (_ & i2 & v2 & j2 & w2 & y2 & p2 & f2 & h2 & d2 & G2 & K2 & A2). rewrite F2 in G2. injection G2 as <- <- <- <- <- <- <- <-.
  pose proof (keep_phase_ratings _ _ _ _ _ _ _ _ _ _ _ K1 K2) as E.
  destruct d1 as [[[[[a1 a2] a3] a4] a5] r1]. destruct d2 as [[[[[b1 b2] b3] b4] b5] r2]. cbn [fst] in E. injection E as <- <- <- <- <-.
  pose proof (ig_after pinv svd spsolve cabs ksqrt true_cov naive_cov conf2 o f h (a1, a2, a3, a4, a5, r2)) as IG.
  destruct (IG s1 s2 AG) as [R1 R2]. rewrite A2 in R1, R2. cbn [fst snd] in R1, R2.
  destruct (after pinv svd spsolve cabs ksqrt true_cov naive_cov conf2 o f h (a1, a2, a3, a4, a5, r2) s1) as [s3 r3] eqn:A3. cbn [fst snd] in R1, R2. subst r3.
  destruct (tw_after o f h a1 a2 a3 a4 a5 r1 r2 s1 s1' s3 tt tt A1 A3) as [-> _]. exact R2.
Qed.
End Ratings.
