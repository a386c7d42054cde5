(** Lemmas about ModelRun.v: Bayesian results assembled from the phases *)
From Coq Require Import String.
From Coq Require Import Bool Arith List ZArith Lia Sorted.
From Verif Require Import BasePy BaseFld BaseOrd BaseSum BaseMat BaseNumpy BaseLin SpecMatrix ModelMatrixOps ModelPrior ModelFit
  ModelLS SpecLS ModelIdent ModelRun SpecRun SpecIdentify ProofSet ProofMask ProofRun ProofRunIO ProofRunPhase ProofRunThm ProofIdentifyThm.
Import ListNotations.
Close Scope string_scope.
Local Open Scope nat_scope.

Section Bayes.
Context {K : Type} {O : Ops K} {O2 : OrdOps K}.
Notation CK := (cplx K).
Variable spsolve : mat K -> list K -> res (list K).
Variable cabs : CK -> K.
Variables true_cov naive_cov : mat CK -> arg K -> K -> bool -> res (mat K).
Variable conf : config K.
Notation bayesian_eiv := (bayesian_eiv spsolve cabs true_cov naive_cov conf).
Notation bayesian_eiv_3ph := (bayesian_eiv_3ph spsolve cabs true_cov naive_cov conf).
Notation bayesian_phase := (bayesian_phase spsolve cabs true_cov naive_cov conf).

Lemma mask_square_block : forall (m b : mat CK) ids p, shape m (length ids) (length ids) -> block ids p m b -> mask_square m (is_phase ids p) = Ok b.
Proof.
  intros m b ids p (W & R & C) B. unfold mask_square. rewrite length_is_phase, R, C, Nat.eqb_refl. cbn [andb]. f_equal.
  destruct (B (selected (is_phase ids p))) as [S G]; [apply positions_selected; auto|].
  apply (gshape_ext _ _ (length (selected (is_phase ids p))) (length (selected (is_phase ids p)))); [apply shape_mk|exact S|].
  intros r s Hr Hs. rewrite G by auto. unfold mcols, mrows. rewrite get_mk by auto. rewrite get_mk; auto. rewrite C.
  assert (I : In (nth s (selected (is_phase ids p)) 0) (selected (is_phase ids p))) by (apply nth_In; auto).
  unfold selected in I at 2. apply filter_In in I. destruct I as [I _]. apply in_range in I. rewrite length_is_phase in I. exact I.
Qed.

Lemma bayes_phase_ok : forall name (v c : mat CK) ids sv sc r y ye lap w n u L (est : Z -> mat CK * list (status K)) yf p s s1,
  nc v = length ids -> nc c = length ids -> length r = length ids -> shape y (length ids) (length ids) ->
  (forall m, ye = Some m -> shape m (length ids) (length ids)) ->
  assembled ids L (fun p => fst (est p)) yf -> ~ In p L ->
  bayesian_eiv name (mcols v (selected (is_phase ids p))) (mcols c (selected (is_phase ids p))) sv sc (map (vget r) (selected (is_phase ids p)))
    (the_block ids p y) (option_map (the_block ids p) ye) lap w n u s = (s1, Ok (est p)) ->
  shape (fst (est p)) (trues (is_phase ids p)) (trues (is_phase ids p)) ->
  exists y', bayesian_phase name v c ids sv sc r y ye lap w n u yf p s = (s1, Ok (y', snd (est p))) /\
    assembled ids (p :: L) (fun p => fst (est p)) y'.
Proof.
  intros name v c ids sv sc r y ye lap w n u L est yf p s s1 Cv Cc Cr Sy Se A Hp E S.
  destruct (assembled_step ids L (fun p => fst (est p)) yf p (fst (est p)) A Hp eq_refl S) as (y' & Ey & Hy).
  exists y'. split; [|auto]. unfold ModelRun.bayesian_phase. rewrite !mask_cols_ok by auto. rewrite !bind_lift.
  unfold mask_list. rewrite length_is_phase, Cr, Nat.eqb_refl. cbv beta iota. rewrite bind_lift. cbv beta iota.
  rewrite (mask_square_block y (the_block ids p y)) by (auto using the_block_ok). rewrite bind_lift.
  replace (match ye with None => Ok None | Some y0 => m <- mask_square y0 (is_phase ids p) ;; Ok (Some m) end) with (Ok (option_map (the_block ids p) ye) : res (option (mat CK))).
  2:{ destruct ye as [m|]; [|reflexivity]. rewrite (mask_square_block m (the_block ids p m)); auto using the_block_ok. }
  cbv beta iota. unfold bind_io at 1. rewrite E. destruct (est p) as [yp ip]. cbn [fst snd] in *. rewrite bind_lift, Ey. reflexivity.
Qed.

Definition recorded (ids : list Z) (k : nat) (parts : Z -> status K) (s : status K) : Prop :=
  st_it s = k /\ assembled ids [2; 1; 0]%Z (fun p => st_y (parts p)) (st_y s) /\
  st_target s = (0 + st_target (parts 0%Z) + st_target (parts 1%Z) + st_target (parts 2%Z))%K.
Lemma merge_status_ok : forall ids k (parts : Z -> status K),
  (forall p, In p [0; 1; 2]%Z -> shape (st_y (parts p)) (trues (is_phase ids p)) (trues (is_phase ids p))) ->
  exists s, merge_status (length ids, length ids) ids k [(0, parts 0); (1, parts 1); (2, parts 2)]%Z = Ok s /\ recorded ids k parts s.
Proof.
  intros ids k parts S. unfold merge_status. cbn [for_each fst snd st_y st_target].
  destruct (assembled_step ids [] (fun p => st_y (parts p)) (mzeros (length ids) (length ids)) 0%Z _ (assembled_nil ids _) ltac:(cbn; tauto) eq_refl ltac:(apply S; cbn; auto)) as (m0 & E0 & A0).
  destruct (assembled_step ids [0%Z] (fun p => st_y (parts p)) m0 1%Z _ A0 ltac:(cbn; intros [H|[]]; discriminate) eq_refl ltac:(apply S; cbn; auto)) as (m1 & E1 & A1).
  destruct (assembled_step ids [1; 0]%Z (fun p => st_y (parts p)) m1 2%Z _ A1 ltac:(cbn; intros [H|[H|[]]]; discriminate) eq_refl ltac:(apply S; cbn; auto)) as (m2 & E2 & A2).
  rewrite E0. cbn [bind st_y st_target]. rewrite E1. cbn [bind st_y st_target]. rewrite E2. cbn [bind].
  eexists. split; [reflexivity|]. split; [reflexivity|]. split; [exact A2|reflexivity].
Qed.
Definition pick (p : Z) (a b c : list (status K)) : list (status K) := if (p =? 0)%Z then a else if (p =? 1)%Z then b else c.
Lemma merge_from_ok : forall ids a k b c,
  (forall p s, In p [0; 1; 2]%Z -> In s (pick p a b c) -> shape (st_y s) (trues (is_phase ids p)) (trues (is_phase ids p))) ->
  exists l, merge_from (length ids, length ids) ids k a b c = Ok l /\ length l = min (length a) (min (length b) (length c)) /\
    forall i s, nth_error l i = Some s -> exists parts, (forall p, In p [0; 1; 2]%Z -> nth_error (pick p a b c) i = Some (parts p)) /\ recorded ids (k + i) parts s.
Proof.
  intros ids. induction a as [|x a IH]; intros k b c S; cbn [merge_from].
  - exists []. split; auto. split; [reflexivity|]. intros [|i] s H; discriminate.
  - destruct b as [|y b]; [exists []; split; auto; split; [reflexivity|]; intros [|i] s H; discriminate|].
    destruct c as [|z c]; [exists []; split; auto; split; [reflexivity|]; intros [|i] s H; discriminate|].
    destruct (merge_status_ok ids k (fun p => if (p =? 0)%Z then x else if (p =? 1)%Z then y else z)) as (s0 & E0 & R0).
    { intros p [<-|[<-|[<-|[]]]]; apply S; cbn; auto. }
    cbn [Z.eqb Pos.eqb] in E0. rewrite E0. cbn [bind].
    destruct (IH (Datatypes.S k) b c) as (l & El & Ll & Hl).
    { intros p s Hp Hs. apply S; auto. destruct Hp as [<-|[<-|[<-|[]]]]; cbn in *; auto. }
    rewrite El. cbn [bind]. exists (s0 :: l). split; [reflexivity|]. split; [cbn [length]; rewrite Ll; lia|].
    intros [|i] s H.
    + cbn in H. inversion H; subst s. exists (fun p => if (p =? 0)%Z then x else if (p =? 1)%Z then y else z). split.
      * intros p [<-|[<-|[<-|[]]]]; reflexivity.
      * rewrite Nat.add_0_r. exact R0.
    + cbn in H. destruct (Hl i s H) as (parts & H1 & H2). exists parts. split.
      * intros p Hp. specialize (H1 p Hp). destruct Hp as [<-|[<-|[<-|[]]]]; exact H1.
      * replace (k + Datatypes.S i) with (Datatypes.S k + i) by lia. exact H2.
Qed.

Theorem p_three_bayesian : forall name (v c : mat CK) ids sv sc r y ye lap w n u (est : Z -> mat CK * list (status K)) s,
  nc v = length ids -> nc c = length ids -> length r = length ids -> shape y (length ids) (length ids) ->
  (forall m, ye = Some m -> shape m (length ids) (length ids)) -> In 0%Z ids ->
  (forall p vp cp rp yp yep s, In p [0; 1; 2]%Z -> columns_of ids p v vp -> columns_of ids p c cp -> values_of ids p r rp -> block ids p y yp ->
    match ye, yep with None, None => True | Some m, Some b => block ids p m b | _, _ => False end ->
    exists s1, bayesian_eiv name vp cp sv sc rp yp yep lap w n u s = (s1, Ok (est p))) ->
  (forall p idx m, In p [0; 1; 2]%Z -> positions_of ids p idx -> In m (fst (est p) :: map st_y (snd (est p))) -> shape m (length idx) (length idx)) ->
  exists y' its, (let '(s', res) := bayesian_eiv_3ph name v c ids sv sc r y ye lap w n u s in
      res = Ok (y', its) /\ s' (bayesian_path name) = Some (Bayesian y' its)) /\
    (shape y' (length ids) (length ids) /\ no_cross ids [0; 1; 2]%Z y' /\ forall p, In p [0; 1; 2]%Z -> block ids p y' (fst (est p))) /\
    length its = min (length (snd (est 0%Z))) (min (length (snd (est 1%Z))) (length (snd (est 2%Z)))) /\
    forall k st, nth_error its k = Some st ->
      st_it st = k /\ shape (st_y st) (length ids) (length ids) /\ no_cross ids [0; 1; 2]%Z (st_y st) /\
      exists parts, (forall p, In p [0; 1; 2]%Z -> nth_error (snd (est p)) k = Some (parts p) /\ block ids p (st_y st) (st_y (parts p))) /\
        st_target st = (0 + st_target (parts 0%Z) + st_target (parts 1%Z) + st_target (parts 2%Z))%K.
Proof.
  intros name v c ids sv sc r y ye lap w n u est s Cv Cc Cr Sy Se H0 E S.
  assert (S' : forall p m, In p [0; 1; 2]%Z -> In m (fst (est p) :: map st_y (snd (est p))) -> shape m (trues (is_phase ids p)) (trues (is_phase ids p))).
  { intros p m Hp Hm. specialize (S p (selected (is_phase ids p)) m Hp ltac:(apply positions_selected; auto) Hm). rewrite length_selected in S. exact S. }
  assert (E' : forall p s, In p [0; 1; 2]%Z -> exists s1, bayesian_eiv name (mcols v (selected (is_phase ids p))) (mcols c (selected (is_phase ids p))) sv sc
     (map (vget r) (selected (is_phase ids p))) (the_block ids p y) (option_map (the_block ids p) ye) lap w n u s = (s1, Ok (est p))).
  { intros p t Hp. apply E; auto; try (apply columns_mcols; reflexivity); try apply the_block_ok.
    - intros idx Hi. apply positions_selected in Hi. subst idx. reflexivity.
    - destruct ye; cbn; auto using the_block_ok. }
  destruct (E' 0%Z s ltac:(cbn; auto)) as (s1 & E1).
  destruct (bayes_phase_ok name v c ids sv sc r y ye lap w n u [] est (mzeros (length ids) (length ids)) 0%Z s s1 Cv Cc Cr Sy Se (assembled_nil ids _) ltac:(cbn; tauto) E1 ltac:(apply S'; cbn; auto)) as (y1 & R1 & A1).
  destruct (E' 1%Z s1 ltac:(cbn; auto)) as (s2 & E2).
  destruct (bayes_phase_ok name v c ids sv sc r y ye lap w n u [0%Z] est y1 1%Z s1 s2 Cv Cc Cr Sy Se A1 ltac:(cbn; intros [X|[]]; discriminate) E2 ltac:(apply S'; cbn; auto)) as (y2 & R2 & A2).
  destruct (E' 2%Z s2 ltac:(cbn; auto)) as (s3 & E3).
  destruct (bayes_phase_ok name v c ids sv sc r y ye lap w n u [1; 0]%Z est y2 2%Z s2 s3 Cv Cc Cr Sy Se A2 ltac:(cbn; intros [X|[X|[]]]; discriminate) E3 ltac:(apply S'; cbn; auto)) as (y3 & R3 & A3).
  destruct (merge_from_ok ids (snd (est 0%Z)) 0 (snd (est 1%Z)) (snd (est 2%Z))) as (its & Em & Lm & Hm).
  { intros p t Hp Ht. apply S'; auto. right. apply in_map. destruct Hp as [<-|[<-|[<-|[]]]]; exact Ht. }
  assert (P : forall g m, assembled ids [2; 1; 0]%Z g m -> shape m (length ids) (length ids) /\ no_cross ids [0; 1; 2]%Z m).
  { intros g m A. split; [apply A|]. intros a b p q Ha Hb D. apply (assembled_no_cross ids [2; 1; 0]%Z g m A a b p q Ha Hb).
    destruct D as [D|D]; [left; auto|right; cbn in *; tauto]. }
  exists y3, its. split; [|split; [|split]].
  - unfold ModelRun.bayesian_eiv_3ph. replace (existsb (Z.eqb 0) ids) with true.
    2:{ symmetry. apply existsb_exists. exists 0%Z. auto. }
    destruct Sy as (Wy & Ry & Cy). rewrite Ry, Cy. unfold bind_io at 1. rewrite R1. unfold bind_io at 1. rewrite R2. unfold bind_io at 1. rewrite R3.
    destruct A3 as [(_ & Rn & Cn) _]. rewrite Rn, Cn, bind_lift, Em, bind_save. unfold lift. split; [reflexivity|apply write_same].
  - destruct (P _ _ A3) as [P1 P2]. split; [exact P1|]. split; [exact P2|]. intros p Hp.
    apply (assembled_block ids [2; 1; 0]%Z (fun p => fst (est p))); auto; [cbn in *; tauto|]. apply S'; cbn; auto.
  - exact Lm.
  - intros k st Hk. destruct (Hm k st Hk) as (parts & H1 & R). destruct R as (I1 & I2 & I3). destruct (P _ _ I2) as [P1 P2].
    split; [exact I1|]. split; [exact P1|]. split; [exact P2|]. exists parts. split; [|exact I3].
    intros p Hp. assert (N : nth_error (snd (est p)) k = Some (parts p)) by (specialize (H1 p Hp); destruct Hp as [<-|[<-|[<-|[]]]]; exact H1).
    split; [exact N|]. apply (assembled_block ids [2; 1; 0]%Z (fun p => st_y (parts p))); auto; [cbn in *; tauto|].
    apply S'; auto. right. apply in_map. apply nth_error_In in N. exact N.
Qed.
End Bayes.
