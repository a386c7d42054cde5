(** Lemmas about ModelRun.v: results assembled from the phases *)
From Coq Require Import String.
From Coq Require Import Bool Arith List ZArith Lia Sorted.
From Verif Require Import BasePy BaseFld BaseOrd BaseSum BaseMat BaseNumpy BaseLin SpecMatrix ModelMatrixOps ModelPrior ModelFit
  ModelLS SpecLS ModelIdent ModelRun SpecRun ProofSet ProofMask ProofRun ProofRunIO.
Import ListNotations.
Close Scope string_scope.
Local Open Scope nat_scope.

Section Assemble.
Context {K : Type} {O : Ops K}.
Notation CK := (cplx K).
Variable ids : list Z.
Notation N := (length ids).
Notation mask := (is_phase ids).

(** what is in the matrix after the phases of a list *)
Definition assembled (L : list Z) (est : Z -> mat CK) (m : mat CK) : Prop :=
  shape m N N /\
  (forall p a b, In p L -> nth a (mask p) false = true -> nth b (mask p) false = true -> get m a b = get (est p) (rank (mask p) a) (rank (mask p) b)) /\
  (forall a b, (forall p, In p L -> nth a (mask p) false && nth b (mask p) false = false) -> get m a b = 0%K).

Lemma get_mzeros : forall r c a b, get (mzeros r c : mat CK) a b = 0%K.
Proof.
  intros r c a b. destruct (Nat.lt_ge_cases a r); [destruct (Nat.lt_ge_cases b c)|].
  - unfold mzeros. rewrite get_mk by auto. reflexivity.
  - unfold get, gget, mzeros, mk. cbn [dat]. rewrite (nth_map_range _ _ r a) by auto. rewrite nth_overflow; [reflexivity|].
    rewrite map_length, length_range. lia.
  - unfold get, gget, mzeros, mk. cbn [dat]. rewrite (nth_overflow (map _ _)) by (rewrite map_length, length_range; lia). destruct b; reflexivity.
Qed.
Lemma assembled_nil : forall est, assembled [] est (mzeros N N).
Proof. intro est. split; [apply shape_mk|]. split; [intros p a b []|]. intros a b _. apply get_mzeros. Qed.

Lemma assembled_step : forall L est m p b, assembled L est m -> ~ In p L -> b = est p -> shape b (trues (mask p)) (trues (mask p)) ->
  exists m', mask_assign m (mask p) (flatten b) = Ok m' /\ assembled (p :: L) est m'.
Proof.
  intros L est m p b (Sm & H1 & H2) Hp -> Sb.
  destruct (mask_assign_ok m (est p) (mask p) (0%K : CK)) as (m' & E & S' & G); [rewrite length_is_phase; auto|auto|].
  exists m'. split; [exact E|]. rewrite length_is_phase in S'. split; [exact S'|]. split.
  - intros q a c [<-|Hq] Ha Hc.
    + unfold get at 1. rewrite G, Ha, Hc. reflexivity.
    + unfold get at 1. rewrite G. assert (Ea : nth a (mask p) false = false).
      { destruct (nth a (mask p) false) eqn:Ea; auto. apply nth_is_phase in Ea. apply nth_is_phase in Ha. congruence. }
      rewrite Ea. cbn [andb]. apply (H1 q a c); auto.
  - intros a c Hn. unfold get. rewrite G. rewrite (Hn p) by (left; auto). apply H2. intros q Hq. apply Hn. right; auto.
Qed.

Lemma assembled_block : forall L est m p, assembled L est m -> In p L -> shape (est p) (trues (mask p)) (trues (mask p)) -> block ids p m (est p).
Proof.
  intros L est m p (Sm & H1 & _) Hp Sp idx Hi. apply positions_selected in Hi. subst idx. rewrite length_selected.
  split; [exact Sp|]. intros r s Hr Hs. destruct (rank_nth (mask p) r Hr) as [R1 M1]. destruct (rank_nth (mask p) s Hs) as [R2 M2].
  rewrite (H1 p) by auto. rewrite R1, R2. reflexivity.
Qed.
Lemma assembled_no_cross : forall L est m, assembled L est m -> no_cross ids L m.
Proof.
  intros L est m (Sm & _ & H2) a b p q Ha Hb D. apply H2. intros r Hr. apply andb_false_iff.
  destruct (nth a (mask r) false) eqn:Ea; [|auto]. right. apply nth_is_phase in Ea. assert (p = r) by congruence. subst r.
  destruct (nth b (mask p) false) eqn:Eb; [|auto]. apply nth_is_phase in Eb. destruct D as [D|D]; [|tauto]. congruence.
Qed.

Lemma mask_cols_ok : forall (m : mat CK) p, nc m = N -> mask_cols m (mask p) = Ok (mcols m (selected (mask p))).
Proof. intros m p H. unfold mask_cols. rewrite length_is_phase, H, Nat.eqb_refl. reflexivity. Qed.
Lemma columns_mcols : forall (m b : mat CK) p, columns_of ids p m b <-> b = mcols m (selected (mask p)).
Proof.
  intros m b p. split.
  - intro H. destruct (H (selected (mask p)) ltac:(apply positions_selected; auto)) as [S G].
    apply (gshape_ext _ _ (nr m) (length (selected (mask p)))); [exact S|apply shape_mk|]. intros i j Hi Hj. rewrite G by auto.
    unfold mcols. rewrite get_mk by auto. reflexivity.
  - intros -> idx Hi. apply positions_selected in Hi. subst idx. split; [apply shape_mk|]. intros t s Ht Hs. unfold mcols. rewrite get_mk by auto. reflexivity.
Qed.
End Assemble.

Section Phase.
Context {K : Type} {O : Ops K} {O2 : OrdOps K}.
Notation CK := (cplx K).
Variable pinv : mat CK -> mat CK.
Variable svd : mat CK -> mat CK * list K * mat CK.
Variable spsolve : mat K -> list K -> res (list K).
Variable conf : config K.
Notation standard_estimates := (standard_estimates pinv svd spsolve conf).
Notation standard_phase := (standard_phase pinv svd spsolve conf).
Notation standard_methods_3ph := (standard_methods_3ph pinv svd spsolve conf).

Lemma phase_ok : forall name (v c : mat CK) ids lap n L eo et el yo yt yl p s, nc v = length ids -> nc c = length ids ->
  assembled ids L eo yo -> assembled ids L et yt -> assembled ids L el yl -> ~ In p L ->
  standard_estimates (mcols v (selected (is_phase ids p))) (mcols c (selected (is_phase ids p))) lap n = Ok (eo p, et p, el p) ->
  (forall e, In e [eo p; et p; el p] -> shape e (trues (is_phase ids p)) (trues (is_phase ids p))) ->
  exists o t l, standard_phase name v c ids lap n (yo, yt, yl) p s = (write s (standard_path name) (Standard (eo p) (et p) (el p)), Ok (o, t, l)) /\
    assembled ids (p :: L) eo o /\ assembled ids (p :: L) et t /\ assembled ids (p :: L) el l.
Proof.
  intros name v c ids lap n L eo et el yo yt yl p s Cv Cc Ao At Al Hp E S.
  destruct (assembled_step ids L eo yo p (eo p) Ao Hp eq_refl) as (o & Eo & Ho); [apply S; cbn; auto|].
  destruct (assembled_step ids L et yt p (et p) At Hp eq_refl) as (t & Et & Ht); [apply S; cbn; auto|].
  destruct (assembled_step ids L el yl p (el p) Al Hp eq_refl) as (l & El & Hl); [apply S; cbn; auto|].
  exists o, t, l. split; [|auto].
  unfold ModelRun.standard_phase. rewrite !mask_cols_ok by auto. rewrite !bind_lift. unfold standard_methods.
  unfold bind_io at 1. rewrite bind_lift, E. rewrite bind_save. unfold lift at 1. rewrite !bind_lift, Eo, bind_lift, Et, bind_lift, El. reflexivity.
Qed.

(** run of the three phases *)
Lemma p_three_phases : forall name (v c : mat CK) ids lap n (eo et el : Z -> mat CK) s, nc v = length ids -> nc c = length ids ->
  (forall p V I, In p [0; 1; 2]%Z -> columns_of ids p v V -> columns_of ids p c I -> standard_estimates V I lap n = Ok (eo p, et p, el p)) ->
  (forall p idx, In p [0; 1; 2]%Z -> positions_of ids p idx -> Forall (fun e => shape e (length idx) (length idx)) [eo p; et p; el p]) ->
  exists o t l, (let '(s', r) := standard_methods_3ph name (Some v) c (Some ids) lap n s in r = Ok (o, t, l) /\ s' (standard_path name) = Some (Standard o t l)) /\
    Forall (fun e => shape e (length ids) (length ids) /\ no_cross ids [0; 1; 2]%Z e) [o; t; l] /\
    forall p, In p [0; 1; 2]%Z -> block ids p o (eo p) /\ block ids p t (et p) /\ block ids p l (el p).
Proof.
  intros name v c ids lap n eo et el s Cv Cc E S.
  assert (E' : forall p, In p [0; 1; 2]%Z -> standard_estimates (mcols v (selected (is_phase ids p))) (mcols c (selected (is_phase ids p))) lap n = Ok (eo p, et p, el p)).
  { intros p Hp. apply E; auto; apply columns_mcols; reflexivity. }
  assert (S' : forall p, In p [0; 1; 2]%Z -> forall e, In e [eo p; et p; el p] -> shape e (trues (is_phase ids p)) (trues (is_phase ids p))).
  { intros p Hp e He. specialize (S p (selected (is_phase ids p)) Hp ltac:(apply positions_selected; auto)). rewrite length_selected in S.
    rewrite Forall_forall in S. auto. }
  destruct (phase_ok name v c ids lap n [] eo et el _ _ _ 0%Z s Cv Cc (assembled_nil ids eo) (assembled_nil ids et) (assembled_nil ids el))
    as (o1 & t1 & l1 & R1 & A1 & B1 & C1); [cbn; tauto|apply E'; cbn; auto|apply S'; cbn; auto|].
  destruct (phase_ok name v c ids lap n [0%Z] eo et el _ _ _ 1%Z (write s (standard_path name) (Standard (eo 0%Z) (et 0%Z) (el 0%Z))) Cv Cc A1 B1 C1)
    as (o2 & t2 & l2 & R2 & A2 & B2 & C2); [cbn; intros [H|[]]; discriminate|apply E'; cbn; auto|apply S'; cbn; auto|].
  match type of R2 with _ = (?w, _) => destruct (phase_ok name v c ids lap n [1%Z; 0%Z] eo et el _ _ _ 2%Z w Cv Cc A2 B2 C2)
    as (o & t & l & R3 & A3 & B3 & C3); [cbn; intros [H|[H|[]]]; discriminate|apply E'; cbn; auto|apply S'; cbn; auto|] end.
  assert (P : forall est m, assembled ids [2; 1; 0]%Z est m -> shape m (length ids) (length ids) /\ no_cross ids [0; 1; 2]%Z m).
  { intros est m A. split; [apply A|]. intros a b p q Ha Hb D. apply (assembled_no_cross ids [2; 1; 0]%Z est m A a b p q Ha Hb).
    destruct D as [D|D]; [left; auto|right; cbn in *; tauto]. }
  exists o, t, l. split; [|split].
  - unfold ModelRun.standard_methods_3ph. rewrite Cv. unfold bind_io at 1. unfold bind_io at 1. rewrite R1. unfold bind_io at 1. rewrite R2, R3.
    rewrite bind_save. unfold lift. split; [reflexivity|]. unfold write. rewrite String.eqb_refl. reflexivity.
  - repeat constructor; eapply P; eassumption.
  - intros p Hp. assert (Hp' : In p [2; 1; 0]%Z) by (cbn in *; tauto).
    split; [|split]; (eapply assembled_block; [eassumption|exact Hp'|apply S'; cbn; auto]).
Qed.
End Phase.
