(** When plot_results.py finishes and when it fails. *)
From Coq Require Import String.
From Coq Require Import List Reals Bool ZArith Lia Lra.
From Verif Require Import BasePy BaseFld BaseSum BaseMat BaseNumpy BaseLin BaseReal ModelMatrixOps ModelSet ModelReduce ModelFit ModelIdent ModelRun ModelErrorMetrics ModelLines ModelPlot
  SpecMatrix SpecPlot SpecRun ProofMetrics ProofLines ProofMask ProofMatrixOps ProofElim ProofIdent ProofIdentMain ProofReduce ProofPlotNum ProofPlot.
Import ListNotations.
Close Scope string_scope.
Local Open Scope nat_scope.

(** ** the voltages *)
Lemma length_filter_nth : forall A (f : A -> bool) (l : list A) d, length (filter (fun k => f (nth k l d)) (range (length l))) = length (filter f l).
Proof.
  intros A f l d. induction l as [|x l IH] using rev_ind; [reflexivity|].
  rewrite app_length. cbn [length]. rewrite Nat.add_1_r. unfold range. rewrite seq_S, filter_app, filter_app, !app_length. cbn [plus]. f_equal.
  - rewrite <- IH. f_equal. apply filter_ext_in. intros k Hk. apply in_seq in Hk. rewrite app_nth1 by lia. reflexivity.
  - cbn [filter]. rewrite app_nth2, Nat.sub_diag by lia. cbn [nth]. destruct (f x); reflexivity.
Qed.
Lemma count_filter : forall (h : list Z) v, count_occ Z.eq_dec h v = length (filter (fun x => (x =? v)%Z) h).
Proof.
  induction h as [|x h IH]; intro v; [reflexivity|]. cbn. destruct (Z.eq_dec x v) as [->|N].
  - rewrite Z.eqb_refl. cbn. rewrite IH. reflexivity.
  - rewrite (proj2 (Z.eqb_neq x v) N). apply IH.
Qed.
Lemma mem_in : forall x l, mem x l = true <-> In x l.
Proof.
  intros x l. rewrite ProofReduce.mem_existsb, existsb_exists. split.
  - intros (z & H1 & H2). apply Nat.eqb_eq in H2. subst z. assumption.
  - intro H. exists x. split; [assumption|apply Nat.eqb_refl].
Qed.
Lemma ones_stay : forall h : list Z, staying (length h) (selected (map (fun p => negb (p =? 1)%Z) h)) = filter (fun k => (nth k h 0 =? 1)%Z) (range (length h)).
Proof.
  intro h. unfold staying. apply filter_ext_in. intros k Hk. apply in_seq in Hk.
  assert (M : mem k (selected (map (fun p => negb (p =? 1)%Z) h)) = negb (nth k h 0 =? 1)%Z).
  { destruct (mem k _) eqn:E.
    - apply mem_in in E. apply in_selected in E. rewrite (nth_map_lt _ _ _ 0%Z) in E by lia. auto.
    - destruct (nth k h 0 =? 1)%Z eqn:E2; [reflexivity|]. exfalso. assert (In k (selected (map (fun p => negb (p =? 1)%Z) h))).
      { apply in_selected. rewrite (nth_map_lt _ _ _ 0%Z) by lia. rewrite E2. reflexivity. }
      apply mem_in in H. congruence. }
  rewrite M, negb_involutive. reflexivity.
Qed.
Lemma voltage_fits : forall p q n h w, fits p n h w -> exists vol, correct_voltage p q h w = Ok vol /\ nc vol = n.
Proof.
  intros p q n h w [(P & Hn & M)|((P1 & P2) & HL & HC)]; unfold correct_voltage.
  - assert (K : nc w = (n / 3 * 3)) by (rewrite Hn; pose proof (Nat.div_mod n 3); lia).
    replace (negb (String.eqb p "012") && negb (String.eqb p "123")) with false by (destruct P as [-> | ->]; reflexivity).
    destruct (String.eqb p "012" && negb q); [|destruct (String.eqb p "123" && q)].
    + eexists. split; [apply (meas_to_phase_eq (n / 3)); assumption|]. transitivity (n / 3 * 3); [apply (shape_TA (n / 3))|congruence].
    + eexists. split; [apply (meas_to_seq_eq (n / 3)); assumption|]. transitivity (n / 3 * 3); [apply (shape_TS (n / 3))|congruence].
    + exists w. auto.
  - rewrite (proj2 (String.eqb_neq _ _) P1), (proj2 (String.eqb_neq _ _) P2). cbn [negb andb]. unfold delete_cols.
    replace (forallb _ _) with true.
    2:{ symmetry. apply forallb_forall. intros k Hk. apply in_selected in Hk. apply Nat.ltb_lt. rewrite <- HL.
        destruct (Compare_dec.lt_dec k (length h)) as [L|L]; [assumption|]. rewrite nth_overflow in Hk by (rewrite map_length; lia). discriminate. }
    eexists. split; [reflexivity|]. cbn [nc mk]. rewrite <- HL, ones_stay.
    rewrite (length_filter_nth Z (fun x => (x =? 1)%Z) h 0%Z), <- count_filter. assumption.
Qed.

Lemma shows_defined : forall p q n h w A, fits p n h w -> shape A n n -> exists B, correct_component p q A = Ok B /\ shows p q A B /\ shape B n n.
Proof.
  intros p q n h w A HF HA. assert (X : exists B, shows p q A B).
  { destruct HF as [(P & Hn & M)|((P1 & P2) & _)].
    - apply (shown_exists p q A (n / 3)). replace (n / 3 * 3) with n by (pose proof (Nat.div_mod n 3); lia). assumption.
    - exists A. right. right. split; [intros (E & _); contradiction|]. split; [intros (E & _); contradiction|reflexivity]. }
  destruct X as (B & HB). exists B. split; [apply shows_correct; assumption|]. split; [assumption|]. apply (shows_shape p q A B); assumption.
Qed.

(** ** running *)
Lemma bind_pure : forall A B (a : A) (f : A -> out B) s, bind_out (pure (Ok a)) f s = f a s.
Proof. reflexivity. Qed.
Lemma bind_write : forall B path x (f : unit -> out B) s, bind_out (write path x) f s = f tt (fun p => if String.eqb p path then Some x else s p).
Proof. reflexivity. Qed.
Lemma bind_eq : forall A B (m : out A) (f : A -> out B) s s1 a, m s = (s1, Ok a) -> bind_out m f s = f a s1.
Proof. intros A B m f s s1 a H. unfold bind_out. rewrite H. reflexivity. Qed.
Lemma bind_err : forall A B (m : out A) (f : A -> out B) s s1 e, m s = (s1, Err e) -> bind_out m f s = (s1, Err e).
Proof. intros A B m f s s1 a H. unfold bind_out. rewrite H. reflexivity. Qed.

Section P.
Variable eigvals : mat C -> list C.
Variable fs : files R.

Lemma report_runs : forall n y est text name s, shape y n n -> shape est n n -> 0 < n -> exists s', report y est text name s = (s', Ok tt).
Proof.
  intros n y est text name s HY HE Hn. destruct (matrix_metrics_ok y est n n HY HE Hn Hn) as (m & Hm & _). eexists. unfold report. rewrite Hm, bind_pure. reflexivity.
Qed.
Lemma standard_runs : forall network p q n y h w s, fits p n h w -> shape y n n -> 0 < n ->
  (forall o t e, fs (standard_path network) = Some (Standard o t e) -> shape o n n /\ shape t n n /\ shape e n n) ->
  (forall c, fs (standard_path network) = Some c -> exists o t e, c = Standard o t e) ->
  exists s' st, standard_section fs network (correct_component p q) y s = (s', Ok st) /\
    ((fs (standard_path network) = None /\ st = None) \/ fs (standard_path network) <> None /\ exists yo yt yl, st = Some (yo, yt, yl) /\ shape yo n n /\ shape yt n n /\ shape yl n n).
Proof.
  intros network p q n y h w s HF HY Hn HS HS2. unfold standard_section. destruct (fs (standard_path network)) as [c|] eqn:E.
  - destruct (HS2 c eq_refl) as (o & t & e & ->). destruct (HS o t e eq_refl) as (Ho & Ht & He).
    destruct (shows_defined p q n h w o HF Ho) as (yo & -> & _ & So). destruct (shows_defined p q n h w t HF Ht) as (yt & -> & _ & St).
    destruct (shows_defined p q n h w e HF He) as (ye & -> & _ & Se). rewrite !bind_pure.
    destruct (report_runs n y yo "ols_error_metrics.txt" "y_ols" s HY So Hn) as (s1 & R1). rewrite (bind_eq _ _ _ _ _ _ _ R1).
    destruct (report_runs n y yt "tls_error_metrics.txt" "y_tls" s1 HY St Hn) as (s2 & R2). rewrite (bind_eq _ _ _ _ _ _ _ R2).
    destruct (report_runs n y ye "lasso_error_metrics.txt" "y_lasso" s2 HY Se Hn) as (s3 & R3). rewrite (bind_eq _ _ _ _ _ _ _ R3).
    exists s3, (Some (yo, yt, ye)). split; [reflexivity|]. right. split; [discriminate|]. exists yo, yt, ye. auto.
  - exists s, None. split; [reflexivity|]. left. auto.
Qed.
Lemma errors_run : forall p q n h w (y : mat C) (its : list (status R)), fits p n h w -> shape y n n -> (forall it, In it its -> shape (st_y it) n n) ->
  exists errs, mapM (fun i => f <- correct_component p q (st_y i) ;; matrix_rrms y f) its = Ok errs.
Proof.
  intros p q n h w y its HF HY. induction its as [|it its IH]; intro H; [exists []; reflexivity|]. cbn [mapM].
  destruct (shows_defined p q n h w (st_y it) HF) as (B & -> & _ & SB); [apply H; left; reflexivity|]. cbn [bind].
  destruct IH as (errs & ->); [intros it' HI; apply H; right; assumption|].
  unfold matrix_rrms, same_size. destruct (proj2 HY) as (-> & ->), (proj2 SB) as (R2 & C2). rewrite R2, C2, !Nat.eqb_refl. cbn [andb].
  unfold rrms_error. rewrite fro_error_ok by (rewrite (length_flatten y n n HY), (length_flatten B n n SB); reflexivity). cbn [bind].
  eexists. reflexivity.
Qed.

(** the Bayesian part up to the place where the estimates of the standard methods are used *)
Lemma bayesian_runs : forall network p q n h w y l yb its st s, fits p n h w -> shape y n n -> 0 < n -> fs (bayesian_path network) = Some (Bayesian yb its) ->
  shape yb n n -> (forall it, In it its -> shape (st_y it) n n) ->
  exists est m s1 E off c, correct_component p q yb = Ok est /\ shape est n n /\ matrix_metrics y est = Ok m /\ e_of n l = Ok E /\
    off_diagonal_moduli y = Ok off /\ eliminated_real E off = Ok c /\
    bayesian_section fs network (correct_component p q) y l n st s =
    match st with
    | None => (s1, Err UnboundLocalError)
    | Some (yo, yt, yl) =>
       (c0 <~ pure (eliminated E yo) ;;; c1 <~ pure (eliminated E yt) ;;; c2 <~ pure (eliminated E yl) ;;;
          c3 <~ pure (eliminated E est) ;;; c4 <~ pure (eliminated E y) ;;;
          _ <~ plot_scatter (map (fun k => map (fun c => Fin (cabs (vget c k))) [c0; c1; c2; c3; c4]) (selected (off_mask c))) "comparison" ;;;
          _ <~ write "sparsity_metrics.txt" (Text []) ;;;
          let out_idx := map negb (off_mask c) in
          _ <~ sparsity_lines "OLS" out_idx c0 c4 ;;;
          _ <~ sparsity_lines "TLS" out_idx c1 c4 ;;;
          _ <~ sparsity_lines "Lasso" out_idx c2 c4 ;;;
          sparsity_lines "MLE" out_idx c3 c4) s1
    end /\ reports s1 "sparse_tls_error_metrics.txt" m /\ s1 "sparsity_metrics.txt"%string = s "sparsity_metrics.txt"%string.
Proof.
  intros network p q n h w y l yb its st s HF HY Hn HB Hb Hits. unfold bayesian_section. rewrite HB.
  destruct (shows_defined p q n h w yb HF Hb) as (est & E1 & _ & SE). rewrite E1, bind_pure.
  destruct (errors_run p q n h w y its HF HY Hits) as (errs & E2). rewrite E2, bind_pure.
  destruct (matrix_metrics_ok y est n n HY SE Hn Hn) as (m & Hm & _). rewrite Hm, bind_pure.
  unfold plot_series, plot_heatmap.
  destruct (ProofIdentMain.e_is n l) as (E & HE & IE).
  assert (HO : exists off, off_diagonal_moduli y = Ok off /\ shape off n n).
  { unfold off_diagonal_moduli. rewrite (proj1 (proj2 HY)), (proj2 (proj2 HY)), Nat.eqb_refl. eexists. split; [reflexivity|apply shape_mk]. }
  destruct HO as (off & HO & SO).
  assert (HC : exists c, eliminated_real E off = Ok c).
  { unfold eliminated_real, matvec. rewrite length_vectorize. destruct SO as (_ & -> & ->). rewrite (proj2 (proj2 (proj1 IE))), Nat.eqb_refl. eexists. reflexivity. }
  destruct HC as (c & HC). exists est, m. eexists. exists E, off, c.
  split; [reflexivity|]. split; [exact SE|]. split; [exact Hm|]. split; [exact HE|]. split; [exact HO|]. split; [exact HC|].
  rewrite HE, HO. unfold bind_out, pure, write. cbn iota beta. rewrite HC. split; [destruct st as [[[yo yt] yl]|]; reflexivity|]. split; reflexivity.
Qed.

Lemma prelude_runs : forall network q n y p l s, consistent fs network n y p l -> exists h w Sy s1, fits p n h w /\ correct_component p q y = Ok Sy /\ shows p q y Sy /\ shape Sy n n /\
  (forall x, ~ In x network_outputs -> s1 x = s x) /\
  plot_results eigvals fs network q s = (standard <~ standard_section fs network (correct_component p q) Sy ;;; bayesian_section fs network (correct_component p q) Sy l n standard) s1.
Proof.
  intros network q n y p l s (HR & HY & Hn & (i & v & j & w & yy & pw & f & h & HS & HF) & _).
  destruct (shows_defined p q n h w y HF HY) as (Sy & E1 & Sh & SSy). destruct (voltage_fits p q n h w HF) as (vol & E2 & NV).
  exists h, w, Sy. eexists. split; [exact HF|]. split; [exact E1|]. split; [exact Sh|]. split; [exact SSy|].
  split; [|unfold plot_results; rewrite HR, bind_pure, HS, bind_pure, E2, bind_pure, E1, bind_pure, NV; unfold plot_series, plot_heatmap; reflexivity].
  intros x Hx. cbn beta. destruct (String.eqb_spec x (plot_data_path "y_bus")) as [->|_]; [exfalso; apply Hx; cbn; auto|].
  destruct (String.eqb_spec x (plot_data_path "correlations")) as [->|_]; [exfalso; apply Hx; cbn; auto|]. reflexivity.
Qed.

Lemma sparsity_runs : forall title lap n E (y est : mat C) o c ce cy s, is_e lap n E -> shape y n n -> shape est n n -> off_diagonal_moduli y = Ok o ->
  eliminated_real E o = Ok c -> eliminated E est = Ok ce -> eliminated E y = Ok cy ->
  ((exists a b, a < n /\ b < n /\ in_sparsity lap y a b) -> exists s', sparsity_lines title (map negb (off_mask c)) ce cy s = (s', Ok tt)) /\
  ((forall a b, a < n -> b < n -> ~ in_sparsity lap y a b) -> sparsity_lines title (map negb (off_mask c)) ce cy s =
     ((fun p => if String.eqb p "sparsity_metrics.txt" then Some (Text (match s "sparsity_metrics.txt"%string with Some (Text t) => t ++ [Title title] | _ => [Title title] end)) else s p), Err ValueError)).
Proof.
  intros title lap n E y est o c ce cy s HE HY Hest Ho Hc He Hy. unfold sparsity_lines.
  rewrite (mask_is lap n E y o c HE HY Ho Hc), map_map.
  rewrite (doubled_is lap n E est ce _ HE Hest He), (doubled_is lap n E y cy _ HE HY Hy).
  set (P := filter (fun p => negb (connected_pair y p)) (pairs lap n)).
  assert (I : forall a b, In (a, b) P <-> in_sparsity lap y a b /\ a < n /\ b < n).
  { intros a b. unfold P. rewrite filter_In, in_pairs. split.
    - intros ((H1 & H2) & H3). split; [apply (connected_iff lap n y a b HY H1 H2); assumption|]. split; [assumption|]. unfold lo in H1. destruct lap; lia.
    - intros (H1 & H2 & H3). assert (L : lo lap b <= a) by (unfold lo; destruct H1 as [(Q & _)|(-> & ->)]; [destruct lap; lia|lia]).
      split; [split; assumption|]. apply (connected_iff lap n y a b HY L H2). assumption. }
  split.
  - intros (a & b & Ha & Hb & Hs). assert (HP : P <> []) by (intro Z; assert (X : In (a, b) P) by (apply I; auto); rewrite Z in X; contradiction).
    destruct (metrics_of_lists (map (fun p => psign lap (both est (fst p) (snd p))) P) (map (fun p => psign lap (both y (fst p) (snd p))) P)) as (m & Hm & _).
    { rewrite !map_length. reflexivity. }
    { intro Z. apply map_eq_nil in Z. contradiction. }
    rewrite Hm. eexists. reflexivity.
  - intro N. assert (HP : P = []).
    { destruct P as [|(a, b) r]; [reflexivity|]. exfalso. destruct (proj1 (I a b)) as (H1 & H2 & H3); [left; reflexivity|]. apply (N a b); assumption. }
    rewrite HP. reflexivity.
Qed.
Lemma eliminated_runs : forall lap n E (Y : mat C), is_e lap n E -> shape Y n n -> exists c, eliminated E Y = Ok c.
Proof. intros lap n E Y HE HY. eexists. apply (eliminated_ok lap n E Y HE HY). Qed.

Lemma sections_run : forall network q n y p l s, consistent fs network n y p l -> exists Sy s2 st, shows p q y Sy /\ shape Sy n n /\
  (forall x, ~ In x network_outputs -> ~ In x standard_outputs -> s2 x = s x) /\
  ((fs (standard_path network) = None /\ st = None) \/ fs (standard_path network) <> None /\ exists yo yt yl, st = Some (yo, yt, yl) /\ shape yo n n /\ shape yt n n /\ shape yl n n) /\
  plot_results eigvals fs network q s = bayesian_section fs network (correct_component p q) Sy l n st s2 /\ exists h w, fits p n h w.
Proof.
  intros network q n y p l s HC. destruct (prelude_runs network q n y p l s HC) as (h & w & Sy & s1 & HF & E1 & Sh & SS & Fr & ->).
  destruct HC as (_ & _ & Hn & _ & HS & _).
  destruct (standard_runs network p q n Sy h w s1 HF SS Hn) as (s2 & st & R & D).
  { intros o t e F. destruct (HS _ F) as (o' & t' & e' & Q & ?). injection Q as -> -> ->. assumption. }
  { intros c F. destruct (HS _ F) as (o' & t' & e' & Q & _). eauto. }
  exists Sy, s2, st. split; [exact Sh|]. split; [exact SS|]. split.
  - intros x X1 X2. rewrite <- (Fr x X1). apply (standard_writes fs network (correct_component p q) Sy s1 s2 _ R). destruct (fs (standard_path network)); [assumption|intros []].
  - split; [exact D|]. split; [exact (bind_eq _ _ _ _ _ _ _ R)|eauto].
Qed.

Lemma p_finishes : forall network q n y p l s, consistent fs network n y p l ->
  (fs (bayesian_path network) <> None -> fs (standard_path network) <> None /\ forall y', shows p q y y' -> exists a b, a < n /\ b < n /\ in_sparsity l y' a b) ->
  exists s', plot_results eigvals fs network q s = (s', Ok tt).
Proof.
  intros network q n y p l s HC HB. destruct (sections_run network q n y p l s HC) as (Sy & s2 & st & Sh & SS & _ & D & -> & h & w & HF).
  destruct HC as (_ & HY & Hn & _ & _ & HBC). destruct (fs (bayesian_path network)) as [c|] eqn:EB.
  2:{ unfold bayesian_section. rewrite EB. eexists. reflexivity. }
  destruct HB as (HS & HI); [discriminate|]. destruct (HBC c eq_refl) as (yb & its & -> & Hb & Hits).
  destruct (bayesian_runs network p q n h w Sy l yb its st s2 HF SS Hn EB Hb Hits) as (est & m & s3 & E & off & cc & _ & Sest & _ & HE & HO & HCC & -> & _).
  destruct D as [(N & _)|(_ & yo & yt & yl & -> & S1 & S2 & S3)]; [congruence|]. apply e_of_is in HE.
  destruct (eliminated_runs l n E yo HE S1) as (c0 & K0). destruct (eliminated_runs l n E yt HE S2) as (c1 & K1). destruct (eliminated_runs l n E yl HE S3) as (c2 & K2).
  destruct (eliminated_runs l n E est HE Sest) as (c3 & K3). destruct (eliminated_runs l n E Sy HE SS) as (c4 & K4).
  rewrite K0, bind_pure, K1, bind_pure, K2, bind_pure, K3, bind_pure, K4, bind_pure. unfold plot_scatter. rewrite !bind_write. cbv zeta. specialize (HI Sy Sh).
  match goal with |- exists s', bind_out _ _ ?S = _ => destruct (proj1 (sparsity_runs "OLS" l n E Sy yo off cc c0 c4 S HE SS S1 HO HCC K0 K4) HI) as (s4 & R4) end.
  rewrite (bind_eq _ _ _ _ _ _ _ R4).
  destruct (proj1 (sparsity_runs "TLS" l n E Sy yt off cc c1 c4 s4 HE SS S2 HO HCC K1 K4) HI) as (s5 & R5). rewrite (bind_eq _ _ _ _ _ _ _ R5).
  destruct (proj1 (sparsity_runs "Lasso" l n E Sy yl off cc c2 c4 s5 HE SS S3 HO HCC K2 K4) HI) as (s6 & R6). rewrite (bind_eq _ _ _ _ _ _ _ R6).
  exact (proj1 (sparsity_runs "MLE" l n E Sy est off cc c3 c4 s6 HE SS Sest HO HCC K3 K4) HI).
Qed.
Lemma p_no_absent_line : forall network q n y p l s, consistent fs network n y p l -> fs (bayesian_path network) <> None -> fs (standard_path network) <> None ->
  (forall y' a b, shows p q y y' -> a < n -> b < n -> ~ in_sparsity l y' a b) ->
  exists s' m, plot_results eigvals fs network q s = (s', Err ValueError) /\ reports s' "sparse_tls_error_metrics.txt" m /\
    s' "sparsity_metrics.txt"%string = Some (Text [Title "OLS"]).
Proof.
  intros network q n y p l s HC HB HS HN. destruct (sections_run network q n y p l s HC) as (Sy & s2 & st & Sh & SS & _ & D & -> & h & w & HF).
  destruct HC as (_ & HY & Hn & _ & _ & HBC). destruct (fs (bayesian_path network)) as [c|] eqn:EB; [|congruence].
  destruct (HBC c eq_refl) as (yb & its & -> & Hb & Hits).
  destruct (bayesian_runs network p q n h w Sy l yb its st s2 HF SS Hn EB Hb Hits) as (est & m & s3 & E & off & cc & _ & Sest & _ & HE & HO & HCC & -> & RR & _).
  destruct D as [(N & _)|(_ & yo & yt & yl & -> & S1 & S2 & S3)]; [congruence|]. apply e_of_is in HE.
  destruct (eliminated_runs l n E yo HE S1) as (c0 & K0). destruct (eliminated_runs l n E yt HE S2) as (c1 & K1). destruct (eliminated_runs l n E yl HE S3) as (c2 & K2).
  destruct (eliminated_runs l n E est HE Sest) as (c3 & K3). destruct (eliminated_runs l n E Sy HE SS) as (c4 & K4).
  rewrite K0, bind_pure, K1, bind_pure, K2, bind_pure, K3, bind_pure, K4, bind_pure. unfold plot_scatter. rewrite !bind_write. cbv zeta.
  match goal with |- exists s' m, bind_out _ _ ?S = _ /\ _ => pose proof (proj2 (sparsity_runs "OLS" l n E Sy yo off cc c0 c4 S HE SS S1 HO HCC K0 K4) (fun a b => HN Sy a b Sh)) as R4 end.
  rewrite (bind_err _ _ _ _ _ _ _ R4). eexists. exists m. split; [reflexivity|]. split; [exact RR|reflexivity].
Qed.
Lemma p_bayesian_alone : forall network q n y p l s, consistent fs network n y p l -> fs (bayesian_path network) <> None -> fs (standard_path network) = None ->
  exists s' m, plot_results eigvals fs network q s = (s', Err UnboundLocalError) /\ reports s' "sparse_tls_error_metrics.txt" m /\
    s' "sparsity_metrics.txt"%string = s "sparsity_metrics.txt"%string.
Proof.
  intros network q n y p l s HC HB HS. destruct (sections_run network q n y p l s HC) as (Sy & s2 & st & Sh & SS & Fr & D & -> & h & w & HF).
  destruct HC as (_ & HY & Hn & _ & _ & HBC). destruct (fs (bayesian_path network)) as [c|] eqn:EB; [|congruence].
  destruct (HBC c eq_refl) as (yb & its & -> & Hb & Hits).
  destruct (bayesian_runs network p q n h w Sy l yb its st s2 HF SS Hn EB Hb Hits) as (est & m & s3 & E & off & cc & _ & Sest & _ & HE & HO & HCC & -> & RR & RS).
  assert (st = None) as -> by (destruct D as [(_ & ->)|(D & _)]; [reflexivity|contradiction]).
  exists s3, m. split; [reflexivity|]. split; [exact RR|]. rewrite RS. apply Fr; cbn; intuition discriminate.
Qed.

(** ** files of other networks *)
Lemma p_stale : forall network q s s' r x, plot_results eigvals fs network q s = (s', r) ->
  (In x standard_outputs -> fs (standard_path network) = None -> s' x = s x) /\ (In x bayesian_outputs -> fs (bayesian_path network) = None -> s' x = s x) /\
  (~ In x (network_outputs ++ standard_outputs ++ bayesian_outputs) -> s' x = s x).
Proof.
  intros network q s s' r x H. assert (W := plot_writes eigvals fs network q s s' r H x).
  split; [|split].
  - intros HI HN. apply W. rewrite HN. cbn [app]. intro J. apply in_app_or in J. revert HI J. destruct (fs (bayesian_path network)); cbn; intuition (subst; discriminate).
  - intros HI HN. apply W. rewrite HN. intro J. rewrite app_nil_r in J. apply in_app_or in J. revert HI J. destruct (fs (standard_path network)); cbn; intuition (subst; discriminate).
  - intro HI. apply W. intro J. apply HI. apply in_app_or in J. apply in_or_app. destruct J as [J|J]; [left; exact J|]. right. apply in_app_or in J. apply in_or_app.
    destruct J as [J|J]; [left; destruct (fs (standard_path network)); [exact J|destruct J]|right; destruct (fs (bayesian_path network)); [exact J|destruct J]].
Qed.
End P.

(** ** the correlations *)
Lemma single_voltage : forall p q h (w w' : mat C), p <> "012"%string -> p <> "123"%string -> length h = nc w -> nr w = nr w' -> nc w = nc w' ->
  (forall t k, t < nr w -> nth_error h k = Some 1%Z -> get w t k = get w' t k) -> correct_voltage p q h w = correct_voltage p q h w'.
Proof.
  intros p q h w w' P1 P2 HL HR HC H. unfold correct_voltage. rewrite (proj2 (String.eqb_neq _ _) P1), (proj2 (String.eqb_neq _ _) P2). cbn [negb andb].
  unfold delete_cols. rewrite <- HC, <- HR, <- HL, ones_stay. destruct (forallb _ _); [|reflexivity]. cbv zeta. f_equal. apply mk_ext. intros i j Hi Hj.
  apply H; [assumption|]. set (k := nth j _ 0). assert (K : In k (filter (fun k => (nth k h 0 =? 1)%Z) (range (length h)))) by (apply nth_In; assumption).
  apply filter_In in K. destruct K as (K1 & K2). apply in_seq in K1. apply Z.eqb_eq in K2. rewrite (nth_error_nth' h 0%Z) by lia. congruence.
Qed.
Lemma p_correlations : forall eigvals (fs1 fs2 : files R) n1 n2 q1 q2 s1 s2 s1' s2' y1 y2 p1 p2 l1 l2 i1 v1 j1 w1 yy1 pw1 f1 i2 v2 j2 w2 yy2 pw2 f2 h,
  plot_results eigvals fs1 n1 q1 s1 = (s1', Ok tt) -> plot_results eigvals fs2 n2 q2 s2 = (s2', Ok tt) ->
  fs1 (reference_path n1) = Some (Reference y1 p1 l1) -> fs2 (reference_path n2) = Some (Reference y2 p2 l2) ->
  fs1 (simulation_path n1) = Some (Simulation i1 v1 j1 w1 yy1 pw1 f1 h) -> fs2 (simulation_path n2) = Some (Simulation i2 v2 j2 w2 yy2 pw2 f2 h) ->
  (p1 <> "012" /\ p1 <> "123" /\ p2 <> "012" /\ p2 <> "123")%string -> length h = nc w1 -> nr w1 = nr w2 -> nc w1 = nc w2 ->
  (forall t k, t < nr w1 -> nth_error h k = Some 1%Z -> get w1 t k = get w2 t k) ->
  s1' "simulations_output/plot_data/correlations.npz"%string = s2' "simulations_output/plot_data/correlations.npz"%string.
Proof.
  intros eigvals fs1 fs2 n1 n2 q1 q2 s1 s2 s1' s2' y1 y2 p1 p2 l1 l2 i1 v1 j1 w1 yy1 pw1 f1 i2 v2 j2 w2 yy2 pw2 f2 h H1 H2 R1 R2 S1 S2 (P1 & P2 & P3 & P4) HL HR HC H.
  assert (V : correct_voltage p1 q1 h w1 = correct_voltage p2 q2 h w2).
  { rewrite (single_voltage p1 q1 h w1 w2) by assumption. unfold correct_voltage.
    rewrite (proj2 (String.eqb_neq _ _) P1), (proj2 (String.eqb_neq _ _) P2), (proj2 (String.eqb_neq _ _) P3), (proj2 (String.eqb_neq _ _) P4). reflexivity. }
  destruct (plot_inv _ _ _ _ _ _ H1) as (y & p & l & i & v & j & w & yy & pw & f & h' & vol & Sy & st & t1 & A1 & A2 & A3 & _ & B1 & B2).
  rewrite R1 in A1. rewrite S1 in A2. injection A1 as <- <- <-. injection A2 as <- <- <- <- <- <- <- <-.
  destruct (plot_inv _ _ _ _ _ _ H2) as (y' & p' & l' & i' & v' & j' & w' & yy' & pw' & f' & h' & vol' & Sy' & st' & t2 & A1 & A2 & A4 & _ & B3 & B4).
  rewrite R2 in A1. rewrite S2 in A2. injection A1 as <- <- <-. injection A2 as <- <- <- <- <- <- <- <-.
  rewrite A3, A4 in V. injection V as <-.
  rewrite (kept_by_bayesian _ _ _ _ _ _ _ _ _ _ _ B2) by (cbn; intuition discriminate). rewrite (kept_by_bayesian _ _ _ _ _ _ _ _ _ _ _ B4) by (cbn; intuition discriminate).
  assert (KS : forall fs name corr Y s s' r x, standard_section fs name corr Y s = (s', r) -> ~ In x standard_outputs -> s' x = s x).
  { intros fs name corr Y s s' r x HH Hx. apply (standard_writes fs name corr Y s s' r HH). destruct (fs (standard_path name)); [assumption|intros []]. }
  rewrite (KS _ _ _ _ _ _ _ _ B1) by (cbn; intuition discriminate). rewrite (KS _ _ _ _ _ _ _ _ B3) by (cbn; intuition discriminate). reflexivity.
Qed.
