(** What plot_results.py writes. *)
From Coq Require Import String.
From Coq Require Import List Reals Bool ZArith Lia Lra.
From Verif Require Import BasePy BaseFld BaseSum BaseMat BaseNumpy BaseLin BaseReal ModelMatrixOps ModelFit ModelIdent ModelRun ModelErrorMetrics ModelLines ModelPlot
  SpecMatrix SpecPlot ProofMetrics ProofLines ProofMask ProofMatrixOps ProofElim ProofIdent ProofIdentMain ProofPlotNum.
Import ListNotations.
Close Scope string_scope.
Local Open Scope nat_scope.

(** ** writing files *)
Lemma bind_out_ok : forall A B (m : out A) (f : A -> out B) s s' b, bind_out m f s = (s', Ok b) ->
  exists a s1, m s = (s1, Ok a) /\ f a s1 = (s', Ok b).
Proof. intros A B m f s s' b H. unfold bind_out in H. destruct (m s) as [s1 [a|e]]; [eauto|congruence]. Qed.
Lemma pure_ok : forall A (r : res A) s s' a, pure r s = (s', Ok a) -> s' = s /\ r = Ok a.
Proof. intros A r s s' a H. unfold pure in H. injection H as -> ->. auto. Qed.

Definition writes {A} (P : list string) (m : out A) : Prop := forall s s' r, m s = (s', r) -> forall p, ~ In p P -> s' p = s p.
Lemma writes_pure : forall A P (r : res A), writes P (pure r).
Proof. intros A P r s s' x H p _. unfold pure in H. congruence. Qed.
Lemma writes_bind : forall A B P (m : out A) (f : A -> out B), writes P m -> (forall a, writes P (f a)) -> writes P (bind_out m f).
Proof.
  intros A B P m f Hm Hf s s' r H p Hp. unfold bind_out in H. destruct (m s) as [s1 [a|e]] eqn:E.
  - rewrite (Hf a s1 s' r H p Hp). eapply Hm; eauto.
  - injection H as <- _. eapply Hm; eauto.
Qed.
Lemma writes_write : forall P path a, In path P -> writes P (write path a).
Proof.
  intros P path a HI s s' r H p Hp. unfold write in H. injection H as <- _. destruct (String.eqb_spec p path); [subst; contradiction|reflexivity].
Qed.
Lemma writes_print : forall P path l, In path P -> writes P (print path l).
Proof.
  intros P path l HI s s' r H p Hp. unfold print in H. injection H as <- _. destruct (String.eqb_spec p path); [subst; contradiction|reflexivity].
Qed.
Lemma writes_series : forall P m c name labels, In (plot_data_path name) P -> writes P (plot_series m c name labels).
Proof. intros. apply writes_bind; [apply writes_write; assumption|intro; apply writes_pure]. Qed.
Lemma writes_sub : forall A P Q (m : out A), (forall p, In p P -> In p Q) -> writes P m -> writes Q m.
Proof. intros A P Q m HS Hm s s' r H p Hp. apply (Hm s s' r H). auto. Qed.

Ltac inlist := cbn; repeat (first [left; reflexivity|right]).
Ltac wr := repeat first [apply writes_pure | apply writes_bind; [|intro] | apply writes_write; solve [inlist] | apply writes_print; solve [inlist] | apply writes_series; solve [inlist]].

(** ** the sparsity report *)
Lemma pv_pairs : forall T (OT : Ops T) lap (M : mat T), pv lap M = map (fun p => psign lap (get M (fst p) (snd p))) (pairs lap (nr M)).
Proof.
  intros T OT lap M. unfold pv, pairs. rewrite map_flat_map. destruct lap; [unfold ve|unfold vech];
    (apply flat_map_ext; intro b; rewrite map_map; reflexivity).
Qed.
Definition connected_pair (y : mat C) (p : nat * nat) : bool :=
  if Nat.eq_dec (fst p) (snd p) then false else if Rlt_dec 0 (sq (get y (fst p) (snd p)) + sq (get y (snd p) (fst p))) then true else false.

Definition off_mask (c : list R) : list bool := map (fun x => if Rlt_dec 0 (Rabs x) then true else false) c.
Lemma modulus_pos : forall z : C, (0 < cabs z <-> 0 < sq z)%R.
Proof. intro z. rewrite <- cabs_sq. pose proof (cabs_nonneg z). split; intro H1; nra. Qed.
Lemma mask_is : forall lap n E (y : mat C) o c, is_e lap n E -> shape y n n -> off_diagonal_moduli y = Ok o ->
  eliminated_real E o = Ok c -> off_mask c = map (connected_pair y) (pairs lap n).
Proof.
  intros lap n E y o c HE (W & Hr & Hc) Ho H. unfold off_diagonal_moduli in Ho. rewrite Hr, Hc, Nat.eqb_refl in Ho. injection Ho as <-.
  set (M := mk n n (fun i j => cabs (if i =? j then (get y i j - get y i j)%K else get y i j))) in *.
  unfold eliminated_real, matvec in H. destruct (_ =? _); [|discriminate]. injection H as <-.
  change (off_mask (mvmul E (vectorize_matrix M)) = map (connected_pair y) (pairs lap n)). rewrite (proj2 HE M) by apply shape_mk. rewrite pv_pairs. change (nr (sym_part n M)) with n. unfold off_mask. rewrite map_map.
  apply map_ext_in. intros (a & b) Hp. apply in_pairs in Hp. cbn [fst snd].
  assert (Ha : a < n) by lia. assert (Hb : b < n) by (unfold lo in Hp; destruct lap; lia).
  replace (Rabs (psign lap (get (sym_part n M) a b))) with (Rabs (get (sym_part n M) a b)) by (destruct lap; cbn; [symmetry; apply Rabs_Ropp|reflexivity]).
  unfold sym_part. rewrite get_mk by assumption. unfold M. rewrite !get_mk by assumption. unfold connected_pair. cbn [fst snd].
  destruct (Nat.eq_dec a b) as [->|Hne].
  - rewrite Nat.eqb_refl. replace (get y b b - get y b b)%K with (dflt0 : C) by (apply cplx_eq; cbn; ring). rewrite cabs_0.
    destruct (Rlt_dec _ _) as [L|L]; [|reflexivity]. exfalso. revert L. cbn. rewrite Rabs_right; lra.
  - rewrite (proj2 (Nat.eqb_neq a b)) by assumption. rewrite (proj2 (Nat.eqb_neq b a)) by auto.
    pose proof (cabs_nonneg (get y a b)) as A1. pose proof (cabs_nonneg (get y b a)) as A2.
    assert (B1 := modulus_pos (get y a b)). assert (B2 := modulus_pos (get y b a)).
    pose proof (sq_nonneg (get y a b)). pose proof (sq_nonneg (get y b a)).
    change ((cabs (get y a b) + cabs (get y b a)) / (1 + 1))%K with ((cabs (get y a b) + cabs (get y b a)) / (1 + 1))%R.
    rewrite Rabs_right by lra.
    destruct (Rlt_dec 0 _) as [L|L]; destruct (Rlt_dec 0 _) as [L'|L']; try reflexivity; exfalso.
    + apply L'. destruct (Rle_lt_or_eq_dec _ _ A1) as [Q|Q]; [apply B1 in Q; lra|]. assert (Q2 : (0 < cabs (get y b a))%R) by lra. apply B2 in Q2. lra.
    + apply L. destruct (Rle_lt_or_eq_dec _ _ (sq_nonneg (get y a b))) as [Q|Q]; [apply B1 in Q; lra|]. assert (Q2 : (0 < sq (get y b a))%R) by lra. apply B2 in Q2. lra.
Qed.
Lemma connected_iff : forall lap n y a b, shape y n n -> lo lap b <= a -> a < n -> (negb (connected_pair y (a, b)) = true <-> in_sparsity lap y a b).
Proof.
  intros lap n y a b HY Hlo Ha. unfold connected_pair, in_sparsity, absent. cbn [fst snd]. destruct (Nat.eq_dec a b) as [->|Hne].
  - cbn. split; [|reflexivity]. intros _. right. split; [|reflexivity]. destruct lap; [unfold lo in Hlo; lia|reflexivity].
  - pose proof (sq_nonneg (get y a b)). pose proof (sq_nonneg (get y b a)). destruct (Rlt_dec _ _) as [L|L]; cbn.
    + split; [discriminate|]. intros [(_ & Z1 & Z2)|(_ & E)]; [|contradiction]. exfalso. apply sq_zero in Z1. apply sq_zero in Z2. lra.
    + split; [|reflexivity]. intros _. left. split; [unfold lo in Hlo; destruct lap; lia|]. split; apply sq_zero; lra.
Qed.
Lemma doubled_is : forall lap n E (Y : mat C) c (F : nat * nat -> bool), is_e lap n E -> shape Y n n -> eliminated E Y = Ok c ->
  doubled (map F (pairs lap n)) c = map (fun p => psign lap (both Y (fst p) (snd p))) (filter F (pairs lap n)).
Proof.
  intros lap n E Y c F HE HY H. rewrite (eliminated_ok lap n E Y HE HY) in H. injection H as <-.
  rewrite pv_pairs. change (nr (sym_part n Y)) with n. unfold doubled. rewrite select_map, map_map. apply map_ext_in. intros (a & b) Hp.
  apply filter_In in Hp. destruct Hp as [Hp _]. apply in_pairs in Hp. cbn [fst snd].
  assert (Ha : a < n) by lia. assert (Hb : b < n) by (unfold lo in Hp; destruct lap; lia).
  unfold sym_part. rewrite get_mk by assumption. unfold both. destruct lap; cbn [psign]; field; intro Z; injection Z; lra.
Qed.
Lemma psign_sq : forall lap (z : C), sq (psign lap z) = sq z.
Proof. intros [|] z; [|reflexivity]. unfold sq. cbn. ring. Qed.
Lemma psign_sub : forall lap (x y : C), (psign lap x - psign lap y)%K = psign lap (x - y)%K.
Proof. intros [|] x y; [|reflexivity]. cbn [psign]. ring. Qed.
Lemma psign_abs : forall lap (z : C), cabs (psign lap z) = cabs z.
Proof. intros [|] z; [|reflexivity]. unfold cabs. cbn. f_equal. ring. Qed.
Lemma sum_marked : forall lap n y w (f : nat -> nat -> C), shape y n n -> marks lap y w ->
  lsum (map (fun p => sq (f (fst p) (snd p))) (filter (fun p => negb (connected_pair y p)) (pairs lap n))) = over_pairs n w f.
Proof.
  intros lap n y w f HY Hw. rewrite lsum_filter, sum_pairs. unfold over_pairs. apply sumn_ext. intros a Ha. apply sumn_ext. intros b Hb.
  destruct (Hw a b) as (W1 & W0); [rewrite (proj1 (proj2 HY)); assumption|rewrite (proj1 (proj2 HY)); assumption|].
  destruct (Nat.leb_spec (lo lap b) a) as [L|L].
  - assert (CI := connected_iff lap n y a b HY L Ha). cbn [fst snd]. destruct (negb (connected_pair y (a, b))) eqn:E.
    + rewrite W1 by (apply CI; reflexivity). ring.
    + rewrite W0; [ring|]. intro I. apply CI in I. discriminate.
  - rewrite W0; [ring|]. intros [(I & _)|(I & J)]; unfold lo in L; destruct lap; try lia; discriminate.
Qed.
Lemma sparsity_value : forall lap n E (y est : mat C) o c ce cy m, is_e lap n E -> shape y n n -> shape est n n -> off_diagonal_moduli y = Ok o ->
  eliminated_real E o = Ok c -> eliminated E est = Ok ce -> eliminated E y = Ok cy ->
  error_metrics (doubled (map negb (off_mask c)) ce) (doubled (map negb (off_mask c)) cy) = Ok m -> sparsity_of lap y est m.
Proof.
  intros lap n E y est o c ce cy m HE HY Hest Ho Hc He Hy Hm w Hw d.
  rewrite (mask_is lap n E y o c HE HY Ho Hc), map_map in Hm.
  rewrite (doubled_is lap n E est ce _ HE Hest He), (doubled_is lap n E y cy _ HE HY Hy) in Hm.
  set (P := filter (fun p => negb (connected_pair y p)) (pairs lap n)) in *.
  assert (NE : P <> []) by (intro Z; rewrite Z in Hm; discriminate).
  destruct (metrics_of_lists (map (fun p => psign lap (both est (fst p) (snd p))) P) (map (fun p => psign lap (both y (fst p) (snd p))) P)) as (m' & Hm' & F0 & F1 & M0 & M1 & P1 & P2).
  { rewrite !map_length. reflexivity. }
  { intro Z. apply map_eq_nil in Z. contradiction. }
  rewrite Hm in Hm'. injection Hm' as <-. rewrite (proj1 (proj2 HY)).
  assert (N : forall (Q : mat C) k, k < length P -> nth k (map (fun p => psign lap (both Q (fst p) (snd p))) P) dflt0 = psign lap (both Q (fst (nth k P (0, 0))) (snd (nth k P (0, 0))))).
  { intros Q k Hk. rewrite (nth_map_lt _ _ _ (0, 0)) by assumption. reflexivity. }
  assert (G : forall k, k < length P -> csub (nth k (map (fun p => psign lap (both est (fst p) (snd p))) P) dflt0) (nth k (map (fun p => psign lap (both y (fst p) (snd p))) P) dflt0)
      = psign lap (d (fst (nth k P (0, 0))) (snd (nth k P (0, 0))))).
  { intros k Hk. rewrite !N by assumption. apply psign_sub. }
  assert (S1 : lsize2 (map (fun p => psign lap (both est (fst p) (snd p))) P) = over_pairs n w (both est)).
  { rewrite <- (sum_marked lap n y w (both est) HY Hw). fold P. rewrite (lsum_list_sumn (0, 0)). unfold lsize2. rewrite map_length. apply sumn_ext. intros k Hk.
    rewrite N by assumption. apply psign_sq. }
  assert (S2 : lgap2 (map (fun p => psign lap (both est (fst p) (snd p))) P) (map (fun p => psign lap (both y (fst p) (snd p))) P) = over_pairs n w d).
  { rewrite <- (sum_marked lap n y w d HY Hw). fold P. rewrite (lsum_list_sumn (0, 0)). unfold lgap2. rewrite map_length. apply sumn_ext. intros k Hk.
    rewrite G by assumption. apply psign_sq. }
  assert (S3 : lgap2_present (map (fun p => psign lap (both est (fst p) (snd p))) P) (map (fun p => psign lap (both y (fst p) (snd p))) P)
      = over_pairs n w (fun a b => if Req_EM_T (sq (both est a b)) 0 then 0%K else d a b)).
  { rewrite <- (sum_marked lap n y w _ HY Hw). fold P. rewrite (lsum_list_sumn (0, 0)). unfold lgap2_present. rewrite map_length. apply sumn_ext. intros k Hk.
    rewrite G by assumption. rewrite N by assumption. rewrite !psign_sq. destruct (Req_EM_T _ _); [|reflexivity]. symmetry. apply sq_zero. reflexivity. }
  rewrite S1, S2 in P1. rewrite S1, S3 in P2. rewrite S2 in F1. split; [exact F0|]. split; [exact F1|]. split; [exact P1|]. split; [exact P2|].
  assert (I : forall a b, In (a, b) P <-> in_sparsity lap y a b /\ a < n /\ b < n).
  { intros a b. unfold P. rewrite filter_In, in_pairs. split.
    - intros ((H1 & H2) & H3). split; [apply (connected_iff lap n y a b HY H1 H2); assumption|]. split; [assumption|]. unfold lo in H1. destruct lap; lia.
    - intros (H1 & H2 & H3). assert (L : lo lap b <= a) by (unfold lo; destruct H1 as [(Q & _)|(-> & ->)]; [destruct lap; lia|lia]).
      split; [split; assumption|]. apply (connected_iff lap n y a b HY L H2). assumption. }
  split.
  - destruct M0 as (k & Hk & EM). rewrite map_length in Hk. rewrite G, psign_abs in EM by assumption.
    destruct (nth k P (0, 0)) as (a & b) eqn:EK. assert (HI : In (a, b) P) by (rewrite <- EK; apply nth_In; assumption). apply I in HI. exists a, b. tauto.
  - intros a b Ha Hb Hs. assert (HI : In (a, b) P) by (apply I; tauto). apply (In_nth _ _ (0, 0)) in HI. destruct HI as (k & Hk & EK).
    specialize (M1 k). rewrite map_length in M1. specialize (M1 Hk). rewrite G, psign_abs, EK in M1 by assumption. exact M1.
Qed.

Lemma marks_exist : forall lap n y, shape y n n -> exists w, marks lap y w.
Proof.
  intros lap n y HY. exists (fun a b => if (lo lap b <=? a) && negb (connected_pair y (a, b)) then 1%R else 0%R).
  intros a b Ha Hb. rewrite (proj1 (proj2 HY)) in Ha, Hb. destruct (Nat.leb_spec (lo lap b) a) as [L|L]; cbn [andb].
  - assert (CI := connected_iff lap n y a b HY L Ha). destruct (negb (connected_pair y (a, b))); split; intro I; try reflexivity.
    + exfalso. apply I. apply CI. reflexivity.
    + apply CI in I. discriminate.
  - split; [|reflexivity]. intros [(I & _)|(I & J)]; unfold lo in L; destruct lap; try lia; discriminate.
Qed.
Lemma p_hundred_percent : forall n y est m, shape y n n -> sparsity_of true y est m ->
  (em_fro m = 0%R /\ em_rrms m = NonFinite /\ em_map m = NonFinite) \/ (em_rrms m = Fin 100 /\ em_map m = Fin 100).
Proof.
  intros n y est m HY H. destruct (marks_exist true n y HY) as (w & Hw). destruct (H w Hw) as (F0 & F1 & P1 & P2 & _).
  assert (Z : forall f g : nat -> nat -> C, (forall a b, in_sparsity true y a b -> sq (f a b) = sq (g a b)) -> over_pairs (nr y) w f = over_pairs (nr y) w g).
  { intros f g E. apply sumn_ext. intros a Ha. apply sumn_ext. intros b Hb. destruct (Hw a b Ha Hb) as (W1 & W0).
    destruct (Req_EM_T (w a b) 0) as [->|NZ]; [ring|]. rewrite E; [reflexivity|].
    destruct (Compare_dec.lt_dec b a) as [L|L]; [|exfalso; apply NZ, W0; intros [(Q & _)|(Q & _)]; [lia|discriminate]].
    assert (LL : lo true b <= a) by (cbn; lia). rewrite (proj1 (proj2 HY)) in Ha.
    apply (connected_iff true n y a b HY LL Ha). destruct (negb (connected_pair y (a, b))) eqn:Q; [reflexivity|]. exfalso. apply NZ, W0.
    intro I. apply (connected_iff true n y a b HY LL Ha) in I. congruence. }
  assert (B : forall a b, in_sparsity true y a b -> both y a b = dflt0).
  { intros a b [(_ & Z1 & Z2)|(Q & _)]; [|discriminate]. unfold both. rewrite Z1, Z2. apply cplx_eq; cbn; ring. }
  set (S := over_pairs (nr y) w (both est)) in *.
  rewrite (Z _ (both est)) in F1, P1 by (intros a b I; rewrite (B a b I); unfold sq; cbn; ring).
  rewrite (Z _ (both est)) in P2.
  2:{ intros a b I. destruct (Req_EM_T (sq (both est a b)) 0) as [E|E]; [rewrite E; apply sq_zero; reflexivity|]. rewrite (B a b I). unfold sq. cbn. ring. }
  fold S in F1, P1, P2. destruct (Req_EM_T S 0) as [S0|S0].
  - left. split; [nra|]. split; [apply P1|apply P2]; assumption.
  - right. assert (Hs : forall x, percentage S S x -> x = Fin 100).
    { intros x (_ & X). destruct (X S0) as (r & -> & R0 & R1). f_equal. assert (r * r = 100 * 100)%R by (apply (Rmult_eq_reg_r S); [lra|assumption]). nra. }
    split; [apply Hs, P1|apply Hs, P2].
Qed.

Section P.
Variable eigvals : mat C -> list C.
Variable fs : files R.

Lemma standard_writes : forall name corr y, writes (match fs (standard_path name) with None => [] | _ => standard_outputs end) (standard_section fs name corr y).
Proof.
  intros name corr y. unfold standard_section. destruct (fs (standard_path name)) as [[]|]; wr.
Qed.
Lemma bayesian_writes : forall name corr y l n st, writes (match fs (bayesian_path name) with None => [] | _ => bayesian_outputs end) (bayesian_section fs name corr y l n st).
Proof.
  intros name corr y l n st. unfold bayesian_section. destruct (fs (bayesian_path name)) as [[]|]; unfold plot_heatmap, plot_scatter, sparsity_lines; wr.
  destruct st as [[[? ?] ?]|]; wr.
Qed.
Lemma plot_writes : forall network q, writes (network_outputs ++ (match fs (standard_path network) with None => [] | _ => standard_outputs end) ++
  (match fs (bayesian_path network) with None => [] | _ => bayesian_outputs end)) (plot_results eigvals fs network q).
Proof.
  intros network q. unfold plot_results, plot_heatmap. apply writes_bind; [apply writes_pure|intros [[y p] l]]. apply writes_bind; [apply writes_pure|intros [v ids]].
  wr.
  - eapply writes_sub; [|apply standard_writes]. intros p' Hp. apply in_or_app. right. apply in_or_app. left. exact Hp.
  - eapply writes_sub; [|apply bayesian_writes]. intros p' Hp. apply in_or_app. right. apply in_or_app. right. exact Hp.
Qed.

Ltac bi H := let a := fresh "a" in let s1 := fresh "s" in let E := fresh "E" in apply bind_out_ok in H; destruct H as (a & s1 & E & H).
Ltac bp H := let a := fresh "a" in let s1 := fresh "s" in let E := fresh "E" in let F := fresh "F" in
  apply bind_out_ok in H; destruct H as (a & s1 & E & H); apply pure_ok in E; destruct E as [F E]; subst s1.
Ltac bw H := let a := fresh "a" in let s1 := fresh "s" in let E := fresh "E" in
  apply bind_out_ok in H; destruct H as (a & s1 & E & H); injection E as <-; subst || idtac.
Ltac sl H := let a := fresh "a" in let s1 := fresh "s" in let E := fresh "E" in
  apply bind_out_ok in H; destruct H as (a & s1 & E & H); bw E; bp E; injection E as <-.
Ltac pu H := apply pure_ok in H; let E := fresh "E" in destruct H as [E H]; subst.

Lemma report_inv : forall y est text name s s' u, report y est text name s = (s', Ok u) ->
  exists m, matrix_metrics y est = Ok m /\
    s' = fun p => if String.eqb p (plot_data_path name) then Some (Array (moduli est)) else if String.eqb p text then Some (Text [Metrics m]) else s p.
Proof.
  intros y est text name s s' u H. unfold report in H. bp H. bw H. unfold plot_heatmap, write in H. injection H as <-.
  exists a. split; [assumption|reflexivity].
Qed.
Ltac br H m := let a := fresh "a" in let s1 := fresh "s" in let E := fresh "E" in
  apply bind_out_ok in H; destruct H as (a & s1 & E & H); apply report_inv in E; destruct E as (m & E & ->).
Lemma standard_inv : forall name corr y s s' r, standard_section fs name corr y s = (s', Ok r) ->
  (fs (standard_path name) = None /\ s' = s /\ r = None) \/
  exists o t l yo yt yl m1 m2 m3, fs (standard_path name) = Some (Standard o t l) /\ corr o = Ok yo /\ corr t = Ok yt /\ corr l = Ok yl /\
    matrix_metrics y yo = Ok m1 /\ matrix_metrics y yt = Ok m2 /\ matrix_metrics y yl = Ok m3 /\ r = Some (yo, yt, yl) /\
    reports s' "ols_error_metrics.txt" m1 /\ reports s' "tls_error_metrics.txt" m2 /\ reports s' "lasso_error_metrics.txt" m3 /\
    s' (plot_data_path "y_ols") = Some (Array (moduli yo)) /\ s' (plot_data_path "y_tls") = Some (Array (moduli yt)) /\ s' (plot_data_path "y_lasso") = Some (Array (moduli yl)).
Proof.
  intros name corr y s s' r H. unfold standard_section in H. destruct (fs (standard_path name)) as [[]|] eqn:EF; try (pu H; discriminate).
  - right. bp H. bp H. bp H.
    br H m1. br H m2. br H m3.
    pu H. injection H as <-. exists o, t, l, a, a0, a1, m1, m2, m3. repeat (split; [solve [reflexivity|assumption]|]). reflexivity.
  - left. pu H. injection H as <-. auto.
Qed.

Lemma bayesian_inv : forall name corr y lap n st s s' u, bayesian_section fs name corr y lap n st s = (s', Ok u) ->
  (fs (bayesian_path name) = None /\ s' = s) \/
  exists yb its est errs m E off c yo yt yl c0 c1 c2 c3 c4 m0 m1 m2 m3, fs (bayesian_path name) = Some (Bayesian yb its) /\ corr yb = Ok est /\
    mapM (fun i => f <- corr (st_y i) ;; matrix_rrms y f) its = Ok errs /\ matrix_metrics y est = Ok m /\ st = Some (yo, yt, yl) /\
    e_of n lap = Ok E /\ off_diagonal_moduli y = Ok off /\ eliminated_real E off = Ok c /\
    eliminated E yo = Ok c0 /\ eliminated E yt = Ok c1 /\ eliminated E yl = Ok c2 /\ eliminated E est = Ok c3 /\ eliminated E y = Ok c4 /\
    (let out_idx := map negb (off_mask c) in
     error_metrics (doubled out_idx c0) (doubled out_idx c4) = Ok m0 /\ error_metrics (doubled out_idx c1) (doubled out_idx c4) = Ok m1 /\
     error_metrics (doubled out_idx c2) (doubled out_idx c4) = Ok m2 /\ error_metrics (doubled out_idx c3) (doubled out_idx c4) = Ok m3) /\
    reports s' "sparse_tls_error_metrics.txt" m /\
    s' "sparsity_metrics.txt"%string = Some (Text [Title "OLS"; Metrics m0; Title "TLS"; Metrics m1; Title "Lasso"; Metrics m2; Title "MLE"; Metrics m3]) /\
    s' (plot_data_path "y_sparse_tls_cov") = Some (Array (moduli est)) /\
    s' (plot_data_path "errors") = Some (Array (column errs)) /\
    s' (plot_data_path "targets") = Some (Array (column (map (fun i => Fin (st_target i)) (tl its)))) /\
    s' (plot_data_path "comparison") = Some (Array (map (fun k => map (fun c => Fin (cabs (vget c k))) [c0; c1; c2; c3; c4]) (selected (off_mask c)))) /\
    s' (plot_data_path "y_sparse_tls_cov_errors") = Some (Array (moduli (mk (nr est) (nc est) (fun i j => (get est i j - get y i j)%K)))).
Proof.
  intros name corr y lap n st s s' u H. unfold bayesian_section in H. destruct (fs (bayesian_path name)) as [[]|] eqn:EF; try (pu H; discriminate).
  - right. bp H. bp H. bp H. bw H. bw H. bw H.
    bw H. bw H. bp H. bp H. bp H.
    destruct st as [[[yo yt] yl]|]; [|pu H; discriminate].
    bp H. bp H. bp H. bp H. bp H. bw H. bw H.
    unfold sparsity_lines in H. sl H.
    sl H.
    sl H.
    bw H. bp H. injection H as <-.
    do 20 eexists.
    repeat match goal with
    | |- (let _ := _ in _) /\ _ => cbv zeta; split; [split; [eassumption|split; [eassumption|split; eassumption]]|]
    | |- _ /\ _ => split; [solve [eassumption|reflexivity]|]
    end. reflexivity.
  - left. pu H. auto.
Qed.

Lemma plot_inv : forall network q s s', plot_results eigvals fs network q s = (s', Ok tt) ->
  exists y p l i v j w yy pw f h vol Sy st s2, fs (reference_path network) = Some (Reference y p l) /\ fs (simulation_path network) = Some (Simulation i v j w yy pw f h) /\
    correct_voltage p q h w = Ok vol /\ correct_component p q y = Ok Sy /\
    let meaned := centred vol in
    let s1 := fun x => if String.eqb x (plot_data_path "y_bus") then Some (Array (moduli Sy))
      else if String.eqb x (plot_data_path "correlations") then Some (Array (column (map (fun z => flog10 (sqrt (cabs z))) (eigvals (mmul (tr meaned) meaned))))) else s x in
    standard_section fs network (correct_component p q) Sy s1 = (s2, Ok st) /\
    bayesian_section fs network (correct_component p q) Sy l (nc vol) st s2 = (s', Ok tt).
Proof.
  intros network q s s' H. unfold plot_results in H. bp H. destruct a as [[y p] l]. bp H. destruct a as [w h]. bp H. bp H.
  destruct (fs (reference_path network)) as [[]|] eqn:E3; try discriminate. injection E as <- <- <-.
  destruct (fs (simulation_path network)) as [[]|] eqn:E4; try discriminate. injection E0 as <- <-.
  unfold plot_series, plot_heatmap in H. bw H. bw H. bi H.
  exists y0, p0, l0, i, v, j, w0, y, p, f, h0, a, a0, a1, s0. cbv zeta. repeat (split; [solve [reflexivity|assumption]|]). exact H.
Qed.

Lemma described : forall p q n (y est Sy Se : mat C) m, shape y n n -> shape est n n -> correct_component p q y = Ok Sy -> correct_component p q est = Ok Se ->
  matrix_metrics Sy Se = Ok m -> describes p q y est m.
Proof.
  intros p q n y est Sy Se m HY HE H1 H2 Hm. apply correct_shows in H1. apply correct_shows in H2.
  assert (S1 := shows_shape p q y Sy n HY H1). assert (S2 := shows_shape p q est Se n HE H2).
  destruct (matrix_metrics_inv Sy Se m Hm) as (_ & _ & Pos). specialize (Pos (proj1 S1)). rewrite (proj1 (proj2 S1)) in Pos.
  destruct (matrix_metrics_ok Sy Se n n S1 S2) as (m' & Hm' & O & En); [lia|lia|]. rewrite Hm in Hm'. injection Hm' as <-.
  split; [apply (shows_overall p q y Sy est Se n m); assumption|]. exists Sy, Se. auto.
Qed.
Lemma rrms_described : forall p q n (y est Sy Se : mat C) x, 0 < n -> shape y n n -> shape est n n -> correct_component p q y = Ok Sy -> correct_component p q est = Ok Se ->
  matrix_rrms Sy Se = Ok x -> percentage (size2 y) (gap2 y est) x.
Proof.
  intros p q n y est Sy Se x Hn HY HE H1 H2 Hm. assert (C1 := H1). assert (C2 := H2). apply correct_shows in H1. apply correct_shows in H2.
  assert (S1 := shows_shape p q y Sy n HY H1). assert (S2 := shows_shape p q est Se n HE H2).
  destruct (matrix_metrics_ok Sy Se n n S1 S2 Hn Hn) as (m & M & _). assert (D := described p q n y est Sy Se m HY HE C1 C2 M).
  assert (X : em_rrms m = x).
  { unfold matrix_metrics in M. unfold matrix_rrms in Hm. destruct (same_size Sy Se); [|discriminate]. unfold error_metrics in M. rewrite Hm in M.
    destruct (fro_error _ _); [|discriminate]. destruct (max_error _ _); [|discriminate]. cbn [bind] in M. destruct (map_error _ _); [|discriminate].
    cbn [bind] in M. injection M as <-. reflexivity. }
  rewrite <- X. apply D.
Qed.

Lemma kept_by_bayesian : forall name corr y l n st s s' r p, bayesian_section fs name corr y l n st s = (s', r) -> ~ In p bayesian_outputs -> s' p = s p.
Proof.
  intros name corr y l n st s s' r p H Hp. apply (bayesian_writes name corr y l n st s s' r H). destruct (fs (bayesian_path name)); [assumption|intros []].
Qed.
Ltac notin := cbn; intuition discriminate.

Lemma p_standard_reports : forall network q s s' y p l o t e n, plot_results eigvals fs network q s = (s', Ok tt) ->
  fs (reference_path network) = Some (Reference y p l) -> fs (standard_path network) = Some (Standard o t e) ->
  shape y n n -> shape o n n -> shape t n n -> shape e n n ->
  exists m1 m2 m3, reports s' "ols_error_metrics.txt" m1 /\ describes p q y o m1 /\ reports s' "tls_error_metrics.txt" m2 /\ describes p q y t m2 /\
    reports s' "lasso_error_metrics.txt" m3 /\ describes p q y e m3.
Proof.
  intros network q s s' y p l o t e n H HR HS Hy Ho Ht He. destruct (plot_inv network q s s' H) as (y0 & p0 & l0 & i & v & j & w & yy & pw & f & h & vol & Sy & st & s2 & R & S & CV & CY & ST & BA).
  rewrite HR in R. injection R as <- <- <-.
  destruct (standard_inv _ _ _ _ _ _ ST) as [(N & _)|(o' & t' & e' & yo & yt & yl & m1 & m2 & m3 & F & C1 & C2 & C3 & M1 & M2 & M3 & _ & R1 & R2 & R3 & _)]; [congruence|].
  rewrite HS in F. injection F as <- <- <-. exists m1, m2, m3. unfold reports.
  rewrite !(kept_by_bayesian _ _ _ _ _ _ _ _ _ _ BA) by notin.
  split; [exact R1|]. split; [apply (described p q n y o Sy yo); assumption|]. split; [exact R2|]. split; [apply (described p q n y t Sy yt); assumption|].
  split; [exact R3|]. apply (described p q n y e Sy yl); assumption.
Qed.
Lemma p_bayesian_reports : forall network q s s' y p l yb its n, plot_results eigvals fs network q s = (s', Ok tt) ->
  fs (reference_path network) = Some (Reference y p l) -> fs (bayesian_path network) = Some (Bayesian yb its) ->
  shape y n n -> shape yb n n -> (forall it, In it its -> shape (st_y it) n n) ->
  (exists m, reports s' "sparse_tls_error_metrics.txt" m /\ describes p q y yb m) /\
  (exists errs, s' "simulations_output/plot_data/errors.npz"%string = Some (Array (map (fun x => [x]) errs)) /\
    Forall2 (fun it x => percentage (size2 y) (gap2 y (st_y it)) x) its errs) /\
  s' "simulations_output/plot_data/targets.npz"%string = Some (Array (map (fun it => [Fin (st_target it)]) (tl its))).
Proof.
  intros network q s s' y p l yb its n H HR HB Hy Hb Hits. destruct (plot_inv network q s s' H) as (y0 & p0 & l0 & i & v & j & w & yy & pw & f & h & vol & Sy & st & s2 & R & S & CV & CY & ST & BA).
  rewrite HR in R. injection R as <- <- <-.
  destruct (bayesian_inv _ _ _ _ _ _ _ _ _ BA) as [(N & _)|D]; [congruence|].
  destruct D as (yb' & its' & est & errs & m & E & off & c & yo & yt & yl & c0 & c1 & c2 & c3 & c4 & m0 & m1 & m2 & m3 & F & C1 & C2 & M & D).
  rewrite HB in F. injection F as <- <-. destruct D as (_ & _ & _ & _ & _ & _ & _ & _ & _ & _ & R1 & _ & _ & R2 & R3 & _).
  split; [exists m; split; [exact R1|]; apply (described p q n y yb Sy est); assumption|].
  assert (Pos : 0 < n).
  { destruct (matrix_metrics_inv Sy est m M) as (_ & _ & Pos). assert (S1 := shows_shape p q y Sy n Hy (correct_shows _ _ _ _ CY)).
    specialize (Pos (proj1 S1)). rewrite (proj1 (proj2 S1)) in Pos. lia. }
  split; [|etransitivity; [exact R3|]; unfold column; rewrite map_map; reflexivity].
  exists errs. split; [exact R2|]. clear -C2 Hits Hy CY Pos. revert errs C2. induction its as [|it its IH]; intros errs C2; cbn [mapM] in C2.
  - injection C2 as <-. constructor.
  - destruct (correct_component p q (st_y it)) as [Se|] eqn:E1; [|discriminate]. cbn [bind] in C2.
    destruct (matrix_rrms Sy Se) as [x|] eqn:E2; [|discriminate]. cbn [bind] in C2.
    destruct (mapM _ its) as [xs|] eqn:E3; [|discriminate]. cbn [bind] in C2. injection C2 as <-.
    constructor; [|apply IH; [intros it' Hin; apply Hits; right; assumption|reflexivity]].
    apply (rrms_described p q n y (st_y it) Sy Se); auto. apply Hits. left. reflexivity.
Qed.

Lemma square_inj : forall a b, a * a = b * b -> a = b.
Proof. intros a b H. nia. Qed.
Lemma nodes_fit : forall lap n n' E (Y : mat C) c, is_e lap n' E -> shape Y n n -> eliminated E Y = Ok c -> n' = n.
Proof.
  intros lap n n' E Y c HE (W & Hr & Hc) H. unfold eliminated, matvec in H. rewrite length_vectorize, Hr, Hc in H.
  replace (nc (cmat E)) with (n' * n') in H by (symmetry; apply (proj1 HE)). destruct (Nat.eqb_spec (n' * n') (n * n)) as [Q|Q]; [|discriminate].
  apply square_inj. assumption.
Qed.
Lemma e_of_is : forall n lap E, e_of n lap = Ok E -> is_e lap n E.
Proof. intros n lap E H. destruct (ProofIdentMain.e_is n lap) as (E' & H' & HE). rewrite H in H'. injection H' as <-. exact HE. Qed.

Lemma p_sparsity : forall network q s s' y p l yb its o t e n, plot_results eigvals fs network q s = (s', Ok tt) ->
  fs (reference_path network) = Some (Reference y p l) -> fs (bayesian_path network) = Some (Bayesian yb its) -> fs (standard_path network) = Some (Standard o t e) ->
  shape y n n -> shape yb n n -> shape o n n -> shape t n n -> shape e n n ->
  exists y' o' t' e' b' m0 m1 m2 m3, shows p q y y' /\ shows p q o o' /\ shows p q t t' /\ shows p q e e' /\ shows p q yb b' /\ shape y' n n /\
    s' "sparsity_metrics.txt"%string = Some (Text [Title "OLS"; Metrics m0; Title "TLS"; Metrics m1; Title "Lasso"; Metrics m2; Title "MLE"; Metrics m3]) /\
    sparsity_of l y' o' m0 /\ sparsity_of l y' t' m1 /\ sparsity_of l y' e' m2 /\ sparsity_of l y' b' m3.
Proof.
  intros network q s s' y p l yb its o t e n H HR HB HS Hy Hb Ho Ht He. destruct (plot_inv network q s s' H) as (y0 & p0 & l0 & i & v & j & w & yy & pw & f & h & vol & Sy & st & s2 & R & S & CV & CY & ST & BA).
  rewrite HR in R. injection R as <- <- <-.
  destruct (standard_inv _ _ _ _ _ _ ST) as [(N & _)|(o' & t' & e' & yo & yt & yl & mm1 & mm2 & mm3 & F & C1 & C2 & C3 & M1 & M2 & M3 & -> & _)]; [congruence|].
  rewrite HS in F. injection F as <- <- <-.
  destruct (bayesian_inv _ _ _ _ _ _ _ _ _ BA) as [(N & _)|D]; [congruence|].
  destruct D as (yb' & its' & est & errs & m & E & off & c & yo' & yt' & yl' & c0 & c1 & c2 & c3 & c4 & m0 & m1 & m2 & m3 & F & Cb & _ & _ & SE & HE & Hoff & Hc & K0 & K1 & K2 & K3 & K4 & (Q0 & Q1 & Q2 & Q3) & _ & RS & _).
  rewrite HB in F. injection F as <- <-. injection SE as <- <- <-.
  apply correct_shows in CY, C1, C2, C3, Cb.
  assert (Ss := fun A B HA Hs => shows_shape p q A B n HA Hs). apply e_of_is in HE. assert (SY := Ss y Sy Hy CY).
  assert (L : nc vol = n) by (apply (nodes_fit l n (nc vol) E Sy c4); auto). rewrite L in HE.
  exists Sy, yo, yt, yl, est, m0, m1, m2, m3. repeat (split; [solve [eauto]|]).
  split; [apply (sparsity_value l n E Sy yo off c c0 c4); eauto|]. split; [apply (sparsity_value l n E Sy yt off c c1 c4); eauto|].
  split; [apply (sparsity_value l n E Sy yl off c c2 c4); eauto|apply (sparsity_value l n E Sy est off c c3 c4); eauto].
Qed.
End P.
