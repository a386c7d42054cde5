(** The arrays of the figures of plot_results.py. *)
From Coq Require Import String.
From Coq Require Import List Reals Bool ZArith Lia Lra Sorted.
From Verif Require Import BasePy BaseFld BaseSum BaseMat BaseNumpy BaseLin BaseReal ModelMatrixOps ModelSet ModelReduce ModelFit ModelIdent ModelRun ModelErrorMetrics ModelLines ModelPlot
  SpecMatrix SpecPlot SpecRun ProofMetrics ProofLines ProofMask ProofMatrixOps ProofElim ProofIdent ProofIdentMain ProofReduce ProofPlotNum ProofPlot ProofPlotRun ProofPlotCase.
Import ListNotations.
Close Scope string_scope.
Local Open Scope nat_scope.

Lemma moduli_picture : forall s name (B : mat C) r c, shape B r c -> s (plot_data_path name) = Some (Array (moduli B)) -> pictures s name B.
Proof.
  intros s name B r c (W & HR & HC) H. exists (moduli B). split; [exact H|]. destruct W as (L & W). unfold moduli. split; [rewrite map_length; exact L|].
  intros i Hi. assert (Hi' : i < length (dat B)) by (rewrite L; exact Hi). change (@nil flt) with (map (fun z : C => Fin (cabs z)) []). rewrite map_nth.
  assert (LL : length (nth i (dat B) []) = nc B). { rewrite Forall_forall in W. apply W. apply nth_In. exact Hi'. }
  split; [rewrite map_length; exact LL|]. intros j Hj.
  rewrite (nth_indep _ NonFinite (Fin (cabs (0%K : C)))) by (rewrite map_length, LL; exact Hj). rewrite (map_nth (fun z : C => Fin (cabs z))). reflexivity.
Qed.
Lemma nth_filter : forall A (f : A -> bool) (l : list A) d, map (fun k => nth k l d) (filter (fun k => f (nth k l d)) (range (length l))) = filter f l.
Proof.
  intros A f l d. induction l as [|x l IH] using rev_ind; [reflexivity|].
  rewrite app_length. cbn [length]. rewrite Nat.add_1_r. unfold range. rewrite seq_S, !filter_app, map_app. cbn [plus]. f_equal.
  - transitivity (map (fun k => nth k l d) (filter (fun k => f (nth k l d)) (range (length l)))); [|exact IH].
    rewrite (filter_ext_in (fun k => f (nth k (l ++ [x]) d)) (fun k => f (nth k l d))).
    + apply map_ext_in. intros k Hk. apply filter_In in Hk. destruct Hk as [Hk _]. apply in_seq in Hk. rewrite app_nth1 by lia. reflexivity.
    + intros k Hk. apply in_seq in Hk. rewrite app_nth1 by lia. reflexivity.
  - cbn [filter]. rewrite app_nth2, Nat.sub_diag by lia. cbn [nth]. destruct (f x); [|reflexivity]. cbn. rewrite app_nth2, Nat.sub_diag by lia. reflexivity.
Qed.
Lemma map_selected : forall A B (f : A -> bool) (l : list A) d (g : nat -> B) (h : A -> B), (forall k, k < length l -> g k = h (nth k l d)) ->
  map g (selected (map f l)) = map h (filter f l).
Proof.
  intros A B f l d g h H. unfold selected. rewrite map_length. rewrite <- (nth_filter A f l d). rewrite map_map.
  rewrite (filter_ext_in _ (fun k => f (nth k l d))).
  - apply map_ext_in. intros k Hk. apply filter_In in Hk. destruct Hk as [Hk _]. apply in_seq in Hk. apply H. lia.
  - intros k Hk. apply in_seq in Hk. rewrite (nth_indep _ false (f d)) by (rewrite map_length; lia). apply map_nth.
Qed.
Lemma nodup_pairs : forall lap n, NoDup (pairs lap n).
Proof.
  intros lap n. unfold pairs. assert (G : forall l, NoDup l -> NoDup (flat_map (fun b => map (fun a => (a, b)) (seq (lo lap b) (n - lo lap b))) l)).
  { induction l as [|b l IH]; intro ND; [constructor|]. apply NoDup_cons_iff in ND. destruct ND as (NI & ND). cbn [flat_map]. specialize (IH ND). revert IH. generalize (seq_NoDup (n - lo lap b) (lo lap b)).
    generalize (seq (lo lap b) (n - lo lap b)). intros q NQ IH. induction q as [|a q IHq]; [exact IH|]. apply NoDup_cons_iff in NQ. destruct NQ as (NA & NQ). cbn [map app]. constructor; [|apply IHq; exact NQ].
    rewrite in_app_iff. intros [X|X].
    - apply in_map_iff in X. destruct X as (a' & E & X). injection E as ->. apply NA. exact X.
    - apply in_flat_map in X. destruct X as (b' & Hb & X). apply in_map_iff in X. destruct X as (a' & E & _). injection E as -> ->. apply NI. exact Hb. }
  apply G. apply seq_NoDup.
Qed.
Lemma connected_pairs : forall lap n y, shape y n n -> connected y (filter (connected_pair y) (pairs lap n)).
Proof.
  intros lap n y HY. split; [apply NoDup_filter, nodup_pairs|]. intros a b. rewrite filter_In, in_pairs. rewrite (proj1 (proj2 HY)). unfold connected_pair. cbn [fst snd].
  pose proof (sq_nonneg (get y a b)) as P1. pose proof (sq_nonneg (get y b a)) as P2.
  assert (AB : absent y a b <-> (sq (get y a b) + sq (get y b a) = 0)%R).
  { split; [intros (Z1 & Z2); rewrite Z1, Z2; unfold sq; cbn; ring|]. intro Z. split; apply sq_zero; lra. }
  rewrite AB. destruct (Nat.eq_dec a b) as [->|N]; [split; [intros (_ & X); discriminate X|lia]|]. destruct (Rlt_dec _ _) as [L|L].
  - split; [intros ((L1 & L2) & _); split; [unfold lo in L1; destruct lap; lia|]; split; [assumption|lra]|].
    intros (L1 & L2 & _). split; [|reflexivity]. unfold lo. destruct lap; lia.
  - split; [intros (_ & X); discriminate X|]. intros (_ & _ & X). exfalso. lra.
Qed.
Lemma half_modulus : forall lap (z : C), cabs (psign lap (z / (1 + 1))%K) = (cabs z / 2)%R.
Proof.
  intros lap z. rewrite psign_abs. unfold cabs. destruct z as [a b]. cbn.
  replace (_ + _)%R with ((a * a + b * b) / (2 * 2))%R by field. rewrite sqrt_div_alt by lra. rewrite sqrt_square by lra. reflexivity.
Qed.
Lemma eliminated_entry : forall lap n E (Y : mat C) c k, is_e lap n E -> shape Y n n -> eliminated E Y = Ok c -> k < length (pairs lap n) ->
  Fin (cabs (vget c k)) = middle Y (nth k (pairs lap n) (0, 0)).
Proof.
  intros lap n E Y c k HE HY H Hk. rewrite (eliminated_ok lap n E Y HE HY) in H. injection H as <-. rewrite pv_pairs. change (nr (sym_part n Y)) with n.
  unfold vget. erewrite (nth_indep _ _ _) by (rewrite map_length; exact Hk).
  rewrite (map_nth (fun p => psign lap (get (sym_part n Y) (fst p) (snd p))) (pairs lap n) (0, 0)).
  destruct (nth k (pairs lap n) (0, 0)) as (a & b) eqn:EP. assert (IP : In (a, b) (pairs lap n)) by (rewrite <- EP; apply nth_In; exact Hk).
  apply in_pairs in IP. assert (Ha : a < n) by lia. assert (Hb : b < n) by (unfold lo in IP; destruct lap; lia).
  unfold middle. cbn [fst snd]. unfold sym_part. rewrite get_mk by assumption. f_equal. apply half_modulus.
Qed.

Section Figures.
Variable eigvals : mat C -> list C.
Variable fs : files R.
Lemma kept_by_standard : forall name corr Y s s' r x, standard_section fs name corr Y s = (s', r) -> ~ In x standard_outputs -> s' x = s x.
Proof. intros name corr Y s s' r x HH Hx. apply (standard_writes fs name corr Y s s' r HH). destruct (fs (standard_path name)); [assumption|intros []]. Qed.

Lemma p_figures : forall network q n y p l s s', consistent fs network n y p l -> plot_results eigvals fs network q s = (s', Ok tt) ->
  exists y', shows p q y y' /\ pictures s' "y_bus" y' /\
  (forall o t e, fs (standard_path network) = Some (Standard o t e) -> exists o' t' e', shows p q o o' /\ shows p q t t' /\ shows p q e e' /\
     pictures s' "y_ols" o' /\ pictures s' "y_tls" t' /\ pictures s' "y_lasso" e' /\
     forall yb its, fs (bayesian_path network) = Some (Bayesian yb its) -> exists b' d, shows p q yb b' /\ pictures s' "y_sparse_tls_cov" b' /\
       pictures s' "y_sparse_tls_cov_errors" d /\ shape d n n /\ (forall i j, i < n -> j < n -> get d i j = (get b' i j - get y' i j)%K) /\
       exists ps, connected y' ps /\ s' "simulations_output/plot_data/comparison.npz"%string =
         Some (Array (map (fun pr => [middle o' pr; middle t' pr; middle e' pr; middle b' pr; middle y' pr]) ps))).
Proof.
  intros network q n y p l s s' (HR & HY & Hn & _ & HS & HB) H.
  destruct (plot_inv eigvals fs network q s s' H) as (y0 & p0 & l0 & i & v & j & w & yy & pw & f & h & vol & Sy & st & s2 & R & S & CV & CY & ST & BA).
  rewrite HR in R. injection R as <- <- <-. assert (CY' := correct_shows _ _ _ _ CY). exists Sy. split; [exact CY'|].
  assert (SS := shows_shape _ _ _ _ _ HY CY').
  split.
  { apply (moduli_picture _ _ _ n n SS). rewrite (kept_by_bayesian _ _ _ _ _ _ _ _ _ _ _ BA) by (cbn; intuition discriminate).
    rewrite (kept_by_standard _ _ _ _ _ _ _ ST) by (cbn; intuition discriminate). reflexivity. }
  intros o t e F. destruct (standard_inv _ _ _ _ _ _ _ ST) as [(N & _)|(o1 & t1 & e1 & yo & yt & yl & mm1 & mm2 & mm3 & F' & C1 & C2 & C3 & _ & _ & _ & -> & _ & _ & _ & P1 & P2 & P3)]; [congruence|].
  rewrite F in F'. injection F' as <- <- <-. destruct (HS _ F) as (o1 & t1 & e1 & E1 & Ho & Ht & He). injection E1 as <- <- <-.
  apply correct_shows in C1, C2, C3. exists yo, yt, yl. split; [assumption|]. split; [assumption|]. split; [assumption|].
  assert (So := shows_shape _ _ _ _ _ Ho C1). assert (St := shows_shape _ _ _ _ _ Ht C2). assert (Se := shows_shape _ _ _ _ _ He C3).
  assert (KB : forall x, ~ In x bayesian_outputs -> s' x = s2 x) by (intros x Hx; apply (kept_by_bayesian _ _ _ _ _ _ _ _ _ _ _ BA Hx)).
  split; [apply (moduli_picture _ _ _ n n So); rewrite KB by (cbn; intuition discriminate); exact P1|].
  split; [apply (moduli_picture _ _ _ n n St); rewrite KB by (cbn; intuition discriminate); exact P2|].
  split; [apply (moduli_picture _ _ _ n n Se); rewrite KB by (cbn; intuition discriminate); exact P3|].
  intros yb its FB. destruct (bayesian_inv _ _ _ _ _ _ _ _ _ _ BA) as [(N & _)|D]; [congruence|].
  destruct D as (yb' & its' & est & errs & m & E & off & c & yo' & yt' & yl' & c0 & c1 & c2 & c3 & c4 & m0 & m1 & m2 & m3 & F' & Cb & _ & _ & SE & HE & Hoff & Hc & K0 & K1 & K2 & K3 & K4 & _ & _ & _ & Q1 & _ & _ & Q2 & Q3).
  rewrite FB in F'. injection F' as <- <-. injection SE as <- <- <-. destruct (HB _ FB) as (yb' & its' & E1 & Hb & _). injection E1 as <- <-.
  apply correct_shows in Cb. assert (Sb := shows_shape _ _ _ _ _ Hb Cb). apply e_of_is in HE.
  assert (NN : nc vol = n) by (apply (nodes_fit l n (nc vol) E Sy c4 HE SS K4)). rewrite NN in HE.
  exists est, (mk (nr est) (nc est) (fun i j => (get est i j - get Sy i j)%K)). split; [exact Cb|]. split; [apply (moduli_picture _ _ _ n n Sb); exact Q1|]. destruct Sb as (Wb & Rb & Cb').
  split; [apply (moduli_picture _ _ _ (nr est) (nc est) (shape_mk _ _ _)); exact Q3|]. split; [rewrite Rb, Cb'; apply shape_mk|]. split.
  { intros a b Ha Hb'. rewrite get_mk by congruence. reflexivity. }
  exists (filter (connected_pair Sy) (pairs l n)). split; [apply connected_pairs; exact SS|].
  change (s' (plot_data_path "comparison") = Some (Array (map (fun pr => [middle yo pr; middle yt pr; middle yl pr; middle est pr; middle Sy pr]) (filter (connected_pair Sy) (pairs l n))))).
  rewrite Q2. do 2 f_equal. rewrite (mask_is l n E Sy off c HE SS Hoff Hc). apply (map_selected _ _ _ _ (0, 0)). intros k Hk. cbn [map].
  assert (Sb : shape est n n) by (split; [exact Wb|split; assumption]).
  rewrite (eliminated_entry l n E yo c0 k HE So K0 Hk), (eliminated_entry l n E yt c1 k HE St K1 Hk), (eliminated_entry l n E yl c2 k HE Se K2 Hk), (eliminated_entry l n E est c3 k HE Sb K3 Hk),
    (eliminated_entry l n E Sy c4 k HE SS K4 Hk). reflexivity.
Qed.
End Figures.

Lemma sorted_filter : forall (f : nat -> bool) l, StronglySorted lt l -> StronglySorted lt (filter f l).
Proof.
  intros f l H. induction H as [|x l H IH F]; [constructor|]. cbn. destruct (f x); [|exact IH]. constructor; [exact IH|]. rewrite Forall_forall in *. intros z Hz. apply filter_In in Hz. apply F. apply Hz.
Qed.
Lemma sorted_seq : forall k n, StronglySorted lt (seq k n).
Proof. intros k n. revert k. induction n as [|n IH]; intro k; [constructor|]. cbn. constructor; [apply IH|]. apply Forall_forall. intros z Hz. apply in_seq in Hz. lia. Qed.
Lemma voltage_shows : forall p q h w u, correct_voltage p q h w = Ok u -> shows_voltage p q h w u.
Proof.
  intros p q h w u H. unfold correct_voltage in H. destruct (String.eqb_spec p "012") as [->|N1]; cbn [negb andb] in H.
  - destruct q; cbn [negb andb] in H; [|left; auto]. injection H as <-. right. right. left. split; [left; split; reflexivity|reflexivity].
  - destruct (String.eqb_spec p "123") as [->|N2]; cbn [negb andb] in H.
    + destruct q; [right; left; auto|]. injection H as <-. right. right. left. split; [right; split; reflexivity|reflexivity].
    + right. right. right. split; [assumption|]. split; [assumption|]. unfold delete_cols in H. destruct (forallb _ _); [|discriminate]. injection H as <-. cbn [nr nc mk]. split; [reflexivity|].
      eexists. split; [reflexivity|]. split; [apply sorted_filter, sorted_seq|]. split; [|intros t j Ht Hj; rewrite get_mk by assumption; reflexivity].
      intro k. unfold staying. rewrite filter_In. unfold range. rewrite in_seq. 
      assert (S : mem k (selected (map (fun p => negb (p =? 1)%Z) h)) = true <-> exists z, nth_error h k = Some z /\ z <> 1%Z).
      { rewrite mem_in. unfold selected. rewrite filter_In, map_length. unfold range. rewrite in_seq. split.
        - intros (L & X). rewrite (nth_indep _ false (negb (1 =? 1)%Z)) in X by (rewrite map_length; lia). rewrite (map_nth (fun p => negb (p =? 1)%Z)) in X.
          exists (nth k h 1%Z). split; [apply nth_error_nth'; lia|]. apply negb_true_iff, Z.eqb_neq in X. exact X.
        - intros (z & X & NZ). assert (L : k < length h) by (apply nth_error_Some; congruence). split; [lia|].
          rewrite (nth_indep _ false (negb (1 =? 1)%Z)) by (rewrite map_length; lia). rewrite (map_nth (fun p => negb (p =? 1)%Z)). rewrite (nth_error_nth _ _ _ X). apply negb_true_iff, Z.eqb_neq. exact NZ. }
      destruct (mem k _) eqn:EM.
      * destruct (proj1 S eq_refl) as (z & X & NZ). split; [intros (_ & X'); discriminate X'|]. intros (_ & [X'|X']); congruence.
      * split; [|intros (L & _); split; [lia|reflexivity]]. intros (L & _). split; [lia|]. destruct (nth_error h k) as [z|] eqn:EZ; [|right; reflexivity].
        left. f_equal. destruct (Z.eq_dec z 1) as [->|NZ]; [reflexivity|]. exfalso. assert (false = true) by (apply S; exists z; auto). discriminate.
Qed.
Lemma centred_ok : forall u, is_centred u (centred u).
Proof.
  intro u. split; [apply shape_mk|]. intros j Hj. split.
  - intro Hn. rewrite (sumn_ext (nr u) _ (fun t => get u t j + (- (sumn (nr u) (fun k => get u k j) / knat (nr u))))%K).
    + rewrite sumn_add, sumn_const. assert (NZ : knat (nr u) <> (0%K : C)) by (apply knat_neq0; lia). field. exact NZ.
    + intros t Ht. unfold centred. rewrite get_mk by assumption. ring.
  - intros t t' Ht Ht'. unfold centred. rewrite !get_mk by assumption. ring.
Qed.
Lemma decade_ok : forall z, decade z (flog10 (sqrt (cabs z))).
Proof.
  intro z. unfold decade, flog10. assert (Z : sqrt (cabs z) = 0%R <-> z = 0%K).
  { split; intro H.
    - apply sqrt_eq_0 in H; [|apply cabs_nonneg]. apply sq_zero. rewrite <- cabs_sq, H. ring.
    - subst z. change (0%K : C) with (dflt0 : C). rewrite cabs_0. apply sqrt_0. }
  destruct (Req_EM_T _ 0) as [E|E].
  - split; [reflexivity|]. intro N. exfalso. apply N, Z, E.
  - split; [intro X; exfalso; apply E, Z, X|]. intros _. eexists. split; [reflexivity|].
    assert (P : (0 < sqrt (cabs z))%R) by (pose proof (sqrt_pos (cabs z)); lra). unfold Rpower. assert (L10 : (0 < ln 10)%R) by (rewrite <- ln_1; apply ln_increasing; lra).
    replace (ln (sqrt (cabs z)) / ln 10 * ln 10)%R with (ln (sqrt (cabs z))) by (field; lra). rewrite exp_ln by assumption. apply sqrt_sqrt. apply cabs_nonneg.
Qed.
Lemma p_correlation_values : forall eigvals fs network q s s' y p l i v j w yy pw f h, plot_results eigvals fs network q s = (s', Ok tt) ->
  fs (reference_path network) = Some (Reference y p l) -> fs (simulation_path network) = Some (Simulation i v j w yy pw f h) ->
  exists u V xs, shows_voltage p q h w u /\ is_centred u V /\ Forall2 decade (eigvals (mmul (tr V) V)) xs /\
    s' "simulations_output/plot_data/correlations.npz"%string = Some (Array (map (fun x => [x]) xs)).
Proof.
  intros eigvals fs network q s s' y p l i v j w yy pw f h H HR HS.
  destruct (plot_inv eigvals fs network q s s' H) as (y0 & p0 & l0 & i0 & v0 & j0 & w0 & yy0 & pw0 & f0 & h0 & vol & Sy & st & s2 & R & S & CV & CY & ST & BA).
  rewrite HR in R. injection R as <- <- <-. rewrite HS in S. injection S as <- <- <- <- <- <- <- <-.
  exists vol, (centred vol), (map (fun z => flog10 (sqrt (cabs z))) (eigvals (mmul (tr (centred vol)) (centred vol)))).
  split; [apply voltage_shows; exact CV|]. split; [apply centred_ok|]. split.
  - clear. induction (eigvals _) as [|z zs IH]; [constructor|]. cbn. constructor; [apply decade_ok|exact IH].
  - rewrite (kept_by_bayesian _ _ _ _ _ _ _ _ _ _ _ BA) by (cbn; intuition discriminate).
    rewrite (kept_by_standard _ _ _ _ _ _ _ _ ST) by (cbn; intuition discriminate). reflexivity.
Qed.
