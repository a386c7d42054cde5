(** Theorems about ModelRun.v: noise-free data *)
From Coq Require Import String.
From Coq Require Import Bool Arith List ZArith Lia Sorted.
From Verif Require Import BasePy BaseFld BaseOrd BaseSum BaseMat BaseNumpy BaseLin SpecMatrix ModelMatrixOps ModelPrior ModelFit
  ModelLS SpecLS ModelIdent ModelRun SpecRun ProofSet ProofMask ProofRun ProofRunIO ProofRunPhase.
Import ListNotations.
Close Scope string_scope.
Local Open Scope nat_scope.

Section Thm.
Context {K : Type} {O : Ops K} {F : Fld K} {O2 : OrdOps K} {OF : OrdFld K}.
Notation CK := (cplx K).
Add Field CKt : (@k_field CK _ _).

Theorem p_standard_exact : forall pinv svd spsolve (conf : config K) name T n (V Y I : mat CK) c lap N s,
  explained T n n V Y I c -> (lap = true -> (forall j, j < n -> c j = 0%K) /\ zero_column_sums n n Y) -> 0 < n ->
  inj (fst (centred lap V I)) -> routines pinv svd T n n (fst (centred lap V I)) (snd (centred lap V I)) -> (N <= 0)%Z ->
  exists s', standard_methods pinv svd spsolve conf name (Some V) I lap N s = (s', Ok (Y, Y, Y)) /\
    s' (standard_path name) = Some (Standard Y Y Y).
Proof.
  intros pinv svd spsolve conf name T n V Y I c lap N s E L Hn J R HN.
  destruct (estimates_exact pinv svd spsolve conf T n V Y I c lap N E L Hn J R) as (p & Ep).
  replace (0 <? N)%Z with false in Ep by (symmetry; apply Z.ltb_ge; lia).
  unfold standard_methods. rewrite bind_lift, Ep, bind_save. eexists. split; [reflexivity|].
  unfold write. rewrite String.eqb_refl. reflexivity.
Qed.
Theorem p_standard_exact_any : forall pinv svd spsolve (conf : config K) name T n (V Y I : mat CK) c lap N s s' o t l,
  explained T n n V Y I c -> (lap = true -> (forall j, j < n -> c j = 0%K) /\ zero_column_sums n n Y) -> 0 < n ->
  inj (fst (centred lap V I)) -> routines pinv svd T n n (fst (centred lap V I)) (snd (centred lap V I)) ->
  standard_methods pinv svd spsolve conf name (Some V) I lap N s = (s', Ok (o, t, l)) -> o = Y /\ t = Y.
Proof.
  intros pinv svd spsolve conf name T n V Y I c lap N s s' o t l E L Hn J R H.
  destruct (estimates_exact pinv svd spsolve conf T n V Y I c lap N E L Hn J R) as (p & Ep).
  unfold standard_methods in H. rewrite bind_lift, Ep in H. destruct (0 <? N)%Z.
  - destruct (half_sum Y) as [y0|]; cbn [bind] in H; [|discriminate].
    destruct (fit_result _) as [[yl its]|]; cbn [bind] in H; [|discriminate]. rewrite bind_save in H. unfold lift in H. inversion H. auto.
  - rewrite bind_save in H. unfold lift in H. inversion H. auto.
Qed.

(** ** three phases *)
Lemma sumn_selected : forall mask (f : nat -> CK), (forall k, k < length mask -> nth k mask false = false -> f k = 0%K) ->
  sumn (length mask) f = sumn (trues mask) (fun r => f (nth r (selected mask) 0)).
Proof.
  induction mask as [|b m IH]; intros f H; [reflexivity|]. cbn [length trues]. rewrite sumn_S_l.
  rewrite (IH (fun k => f (S k))) by (intros k Hk E; apply (H (S k)); [cbn [length]; lia|exact E]). rewrite selected_cons. destruct b.
  - cbn [Nat.add]. rewrite sumn_S_l. cbn [app nth]. f_equal. apply sumn_ext. intros r Hr.
    rewrite (nth_indep (map S (selected m)) 0 1) by (rewrite map_length, length_selected; lia). rewrite map_nth. reflexivity.
  - cbn [Nat.add app]. rewrite (H 0 (Nat.lt_0_succ _) eq_refl). 
    rewrite (sumn_ext _ (fun r => f (S (nth r (selected m) 0))) (fun r => f (nth r (map S (selected m)) 0))).
    + ring.
    + intros r Hr. rewrite (nth_indep (map S (selected m)) 0 1) by (rewrite map_length, length_selected; lia). rewrite map_nth. reflexivity.
Qed.

Definition the_block (ids : list Z) (p : Z) (m : mat CK) : mat CK :=
  mk (trues (is_phase ids p)) (trues (is_phase ids p)) (fun r s => get m (nth r (selected (is_phase ids p)) 0) (nth s (selected (is_phase ids p)) 0)).

Lemma selected_lt : forall mask r, r < trues mask -> nth r (selected mask) 0 < length mask.
Proof.
  intros mask r H. assert (I : In (nth r (selected mask) 0) (selected mask)) by (apply nth_In; rewrite length_selected; auto).
  unfold selected in I at 2. apply filter_In in I. destruct I as [I _]. apply in_range in I. exact I.
Qed.
Lemma the_block_ok : forall ids p m, block ids p m (the_block ids p m).
Proof.
  intros ids p m idx Hi. apply positions_selected in Hi. subst idx. rewrite length_selected. split; [apply shape_mk|].
  intros r s Hr Hs. unfold the_block. rewrite get_mk by auto. reflexivity.
Qed.
Lemma block_unique : forall ids p (m b1 b2 : mat CK), block ids p m b1 -> block ids p m b2 -> b1 = b2.
Proof.
  intros ids p m b1 b2 H1 H2. destruct (H1 (selected (is_phase ids p))) as [S1 G1]; [apply positions_selected; auto|].
  destruct (H2 (selected (is_phase ids p))) as [S2 G2]; [apply positions_selected; auto|].
  apply (gshape_ext _ _ _ _ S1 S2). intros i j Hi Hj. rewrite G1, G2 by auto. reflexivity.
Qed.
Lemma cross_column : forall ids L (Y : mat CK) p k j, no_cross ids L Y -> j < trues (is_phase ids p) -> k < length ids ->
  nth k (is_phase ids p) false = false -> get Y k (nth j (selected (is_phase ids p)) 0) = 0%K.
Proof.
  intros ids L Y p k j H Hj Hk E. destruct (rank_nth _ j Hj) as [_ M]. apply nth_is_phase in M.
  destruct (nth_error ids k) as [q|] eqn:Eq; [|apply nth_error_None in Eq; lia].
  apply (H _ _ q p Eq M). left. intros ->. apply nth_is_phase in Eq. congruence.
Qed.
Lemma phase_explained : forall ids L T (V Y I : mat CK) c p, explained T (length ids) (length ids) V Y I c -> no_cross ids L Y ->
  explained T (trues (is_phase ids p)) (trues (is_phase ids p)) (mcols V (selected (is_phase ids p))) (the_block ids p Y)
    (mcols I (selected (is_phase ids p))) (fun j => c (nth j (selected (is_phase ids p)) 0)).
Proof.
  intros ids L T V Y I c p ((WV & RV & CV) & (WY & RY & CY) & (WI & RI & CI) & H) NC.
  set (sel := selected (is_phase ids p)) in *. assert (Ls : length sel = trues (is_phase ids p)) by apply length_selected.
  assert (LT : forall r, r < trues (is_phase ids p) -> nth r sel 0 < length ids).
  { intros r Hr. rewrite <- (length_is_phase ids p). apply selected_lt. exact Hr. }
  split; [unfold mcols; rewrite RV, Ls; apply shape_mk|]. split; [apply shape_mk|]. split; [unfold mcols; rewrite RI, Ls; apply shape_mk|].
  intros t j Ht Hj. unfold mcols at 1. rewrite get_mk by lia. rewrite H by auto. f_equal.
  rewrite <- (length_is_phase ids p) at 1. rewrite sumn_selected.
  - fold sel. apply sumn_ext. intros r Hr. unfold mcols. rewrite get_mk by lia. unfold the_block. rewrite get_mk by auto. reflexivity.
  - intros k Hk E. rewrite length_is_phase in Hk. unfold sel. rewrite (cross_column ids L Y p k j) by auto. ring.
Qed.
Lemma phase_zero_sums : forall ids L (Y : mat CK) p, no_cross ids L Y -> zero_column_sums (length ids) (length ids) Y ->
  zero_column_sums (trues (is_phase ids p)) (trues (is_phase ids p)) (the_block ids p Y).
Proof.
  intros ids L Y p NC Z j Hj.
  assert (LT : nth j (selected (is_phase ids p)) 0 < length ids) by (rewrite <- (length_is_phase ids p); apply selected_lt; auto).
  rewrite <- (Z _ LT). rewrite <- (length_is_phase ids p). rewrite sumn_selected.
  - apply sumn_ext. intros r Hr. unfold the_block. rewrite get_mk by auto. reflexivity.
  - intros k Hk E. rewrite length_is_phase in Hk. apply (cross_column ids L Y p k j); auto.
Qed.
Lemma from_blocks : forall ids (o Y : mat CK), shape o (length ids) (length ids) -> shape Y (length ids) (length ids) ->
  no_cross ids [0; 1; 2]%Z o -> no_cross ids [0; 1; 2]%Z Y -> (forall p, In p [0; 1; 2]%Z -> block ids p o (the_block ids p Y)) -> o = Y.
Proof.
  intros ids o Y So SY No NY B. apply (gshape_ext _ _ _ _ So SY). intros a b Ha Hb.
  destruct (nth_error ids a) as [p|] eqn:Ea; [|apply nth_error_None in Ea; lia].
  destruct (nth_error ids b) as [q|] eqn:Eb; [|apply nth_error_None in Eb; lia].
  destruct (Z.eq_dec p q) as [<-|D].
  - destruct (in_dec Z.eq_dec p [0; 1; 2]%Z) as [Hp|Hp].
    + destruct (B p Hp (selected (is_phase ids p))) as [_ G]; [apply positions_selected; auto|].
      apply nth_is_phase in Ea. apply nth_is_phase in Eb. pose proof (rank_lt _ _ Ea) as Ra. pose proof (rank_lt _ _ Eb) as Rb.
      specialize (G (rank (is_phase ids p) a) (rank (is_phase ids p) b)). rewrite length_selected in G. specialize (G Ra Rb).
      rewrite !nth_rank in G by auto. rewrite <- G. unfold the_block. rewrite get_mk by auto. rewrite !nth_rank by auto. reflexivity.
    + rewrite (No a b p p), (NY a b p p); auto.
  - rewrite (No a b p q), (NY a b p q); auto.
Qed.

Theorem p_three_exact : forall pinv svd spsolve (conf : config K) name T ids (V Y I : mat CK) c lap N s,
  explained T (length ids) (length ids) V Y I c ->
  (lap = true -> (forall j, j < length ids -> c j = 0%K) /\ zero_column_sums (length ids) (length ids) Y) ->
  no_cross ids [0; 1; 2]%Z Y ->
  (forall p, In p [0; 1; 2]%Z -> In p ids) ->
  (forall p Vp Ip, In p [0; 1; 2]%Z -> columns_of ids p V Vp -> columns_of ids p I Ip ->
    inj (fst (centred lap Vp Ip)) /\ routines pinv svd T (nc Vp) (nc Vp) (fst (centred lap Vp Ip)) (snd (centred lap Vp Ip))) ->
  (N <= 0)%Z ->
  exists s', standard_methods_3ph pinv svd spsolve conf name (Some V) I (Some ids) lap N s = (s', Ok (Y, Y, Y)) /\
    s' (standard_path name) = Some (Standard Y Y Y).
Proof.
  intros pinv svd spsolve conf name T ids V Y I c lap N s E L NC P R HN.
  pose proof E as ((WV & RV & CV) & SY & (WI & RI & CI) & _).
  destruct (p_three_phases pinv svd spsolve conf name V I ids lap N (fun p => the_block ids p Y) (fun p => the_block ids p Y)
    (fun p => the_block ids p Y) s CV CI) as (o & t & l & Run & Sh & B).
  - intros p Vp Ip Hp HV HI. destruct (R p Vp Ip Hp HV HI) as [J Q].
    apply columns_mcols in HV. apply columns_mcols in HI. subst Vp Ip.
    assert (Cn : nc (mcols V (selected (is_phase ids p))) = trues (is_phase ids p)) by (cbn; apply length_selected). rewrite Cn in Q.
    destruct (estimates_exact pinv svd spsolve conf T (trues (is_phase ids p)) (mcols V (selected (is_phase ids p))) (the_block ids p Y)
      (mcols I (selected (is_phase ids p))) (fun j => c (nth j (selected (is_phase ids p)) 0)) lap N) as (pr & Ep); auto.
    + apply (phase_explained ids [0; 1; 2]%Z); auto.
    + intros ->. destruct (L eq_refl) as [L1 L2]. split; [|apply (phase_zero_sums ids [0; 1; 2]%Z); auto].
      intros j Hj. apply L1. rewrite <- (length_is_phase ids p). apply selected_lt. auto.
    + specialize (P p Hp). apply In_nth_error in P. destruct P as [k Hk]. apply nth_is_phase in Hk. apply rank_lt in Hk. lia.
    + rewrite Ep. replace (0 <? N)%Z with false by (symmetry; apply Z.ltb_ge; lia). reflexivity.
  - intros p idx Hp Hi. apply positions_selected in Hi. subst idx. rewrite length_selected. repeat constructor; apply wf_mk.
  - inversion Sh as [|? ? [S1 N1] Sh2]; subst. inversion Sh2 as [|? ? [S2 N2] Sh3]; subst. inversion Sh3 as [|? ? [S3 N3] _]; subst.
    assert (o = Y) by (apply (from_blocks ids); auto; intros p Hp; apply (B p Hp)).
    assert (t = Y) by (apply (from_blocks ids); auto; intros p Hp; apply (B p Hp)).
    assert (l = Y) by (apply (from_blocks ids); auto; intros p Hp; apply (B p Hp)). subst.
    destruct (standard_methods_3ph _ _ _ _ _ _ _ _ _ _ _) as [s' r]. destruct Run as [-> W]. eauto.
Qed.
End Thm.
