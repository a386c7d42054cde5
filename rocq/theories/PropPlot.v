(** Properties C90 to C97: the error reports written by plot_results.py. *)
From Coq Require Import String.
From Coq Require Import List Reals Bool ZArith Lia Lra.
From Verif Require Import BasePy BaseFld BaseSum BaseMat BaseNumpy BaseLin BaseReal ModelFit ModelRun ModelErrorMetrics ModelLines ModelPlot
  SpecMatrix SpecPlot ProofPlotNum ProofPlot ProofPlotRun ProofPlotCase ProofPlotFig.
Import ListNotations.
Close Scope string_scope.
Local Open Scope nat_scope.

(** * C90 the reports describe the errors of the saved estimates *)
Theorem C90_standard_reports : forall eigvals fs network q s s' y p l o t e n, plot_results eigvals fs network q s = (s', Ok tt) ->
  fs (reference_path network) = Some (Reference y p l) -> fs (standard_path network) = Some (Standard o t e) ->
  shape y n n -> shape o n n -> shape t n n -> shape e n n ->
  exists m1 m2 m3, reports s' "ols_error_metrics.txt" m1 /\ describes p q y o m1 /\ reports s' "tls_error_metrics.txt" m2 /\ describes p q y t m2 /\
    reports s' "lasso_error_metrics.txt" m3 /\ describes p q y e m3.
Proof. exact p_standard_reports. Qed.
Theorem C90_bayesian_reports : forall eigvals fs network q s s' y p l yb its n, plot_results eigvals fs network q s = (s', Ok tt) ->
  fs (reference_path network) = Some (Reference y p l) -> fs (bayesian_path network) = Some (Bayesian yb its) ->
  shape y n n -> shape yb n n -> (forall it, In it its -> shape (st_y it) n n) ->
  (exists m, reports s' "sparse_tls_error_metrics.txt" m /\ describes p q y yb m) /\
  (exists errs, s' "simulations_output/plot_data/errors.npz"%string = Some (Array (map (fun x => [x]) errs)) /\
    Forall2 (fun it x => percentage (size2 y) (gap2 y (st_y it)) x) its errs) /\
  s' "simulations_output/plot_data/targets.npz"%string = Some (Array (map (fun it => [Fin (st_target it)]) (tl its))).
Proof. exact p_bayesian_reports. Qed.
Theorem C90_figures : forall eigvals fs network q n y p l s s', consistent fs network n y p l -> plot_results eigvals fs network q s = (s', Ok tt) ->
  exists y', shows p q y y' /\ pictures s' "y_bus" y' /\
  (forall o t e, fs (standard_path network) = Some (Standard o t e) -> exists o' t' e', shows p q o o' /\ shows p q t t' /\ shows p q e e' /\
     pictures s' "y_ols" o' /\ pictures s' "y_tls" t' /\ pictures s' "y_lasso" e' /\
     forall yb its, fs (bayesian_path network) = Some (Bayesian yb its) -> exists b' d, shows p q yb b' /\ pictures s' "y_sparse_tls_cov" b' /\
       pictures s' "y_sparse_tls_cov_errors" d /\ shape d n n /\ (forall i j, i < n -> j < n -> get d i j = (get b' i j - get y' i j)%K) /\
       exists ps, connected y' ps /\ s' "simulations_output/plot_data/comparison.npz"%string =
         Some (Array (map (fun pr => [middle o' pr; middle t' pr; middle e' pr; middle b' pr; middle y' pr]) ps))).
Proof. exact p_figures. Qed.
Theorem C90_zero_error : forall p q n y est m, shape y n n -> shape est n n -> describes p q y est m -> (em_fro m = 0%R <-> est = y).
Proof. exact p_zero_error. Qed.
Print Assumptions C90_standard_reports.
Print Assumptions C90_bayesian_reports.
Print Assumptions C90_figures.
Print Assumptions C90_zero_error.
(** three nodes in a row, estimated by the identity *)
Example C90_ex : forall eigvals s, exists s' m, plot_results eigvals c_done "a" false s = (s', Ok tt) /\
  reports s' "ols_error_metrics.txt" m /\ describes "1" false c_chain c_est m /\ (em_fro m * em_fro m = 5)%R.
Proof.
  intros eigvals s. destruct (c_done_runs eigvals false s) as (s' & R). exists s'.
  destruct (C90_standard_reports eigvals c_done "a" false s s' c_chain "1" true c_est c_est c_est 3 R eq_refl eq_refl) as (m & _ & _ & A & B & _); try apply shape_mk.
  exists m. split; [exact R|]. split; [exact A|]. split; [exact B|]. destruct B as ((_ & B & _) & _). rewrite B.
  unfold gap2. change (nr c_chain) with 3. change (nc c_chain) with 3. cbn [sumn]. unfold sq, c_chain, c_est, one. rewrite !get_mk by lia. cbn. ring.
Qed.

(** the lines of the network are shown in the comparison *)
Example C90_figures_ex : consistent c_done "a" 3 c_chain "1" true /\ connected c_chain [(1, 0); (2, 1)].
Proof.
  split; [exact c_done_ok|]. split; [repeat constructor; cbn; intuition discriminate|]. intros a b. split.
  - intros [X|[X|[]]]; injection X as <- <-; (split; [lia|]; split; [cbn; lia|]); intros (Z & _); apply (f_equal re) in Z; cbn in Z; lra.
  - intros (L1 & L2 & N). change (nr c_chain) with 3 in L2. assert (D : (a = 1 /\ b = 0) \/ (a = 2 /\ b = 1) \/ (a = 2 /\ b = 0)) by lia.
    destruct D as [(-> & ->)|[(-> & ->)|(-> & ->)]]; [left; reflexivity|right; left; reflexivity|]. exfalso. apply N. split; reflexivity.
Qed.

(** * C91 the overall errors do not depend on whether phases or sequences are shown *)
Theorem C91_overall_errors : forall eigvals fs network q q' n y p l s t s' t' path m m', consistent fs network n y p l ->
  plot_results eigvals fs network q s = (s', Ok tt) -> plot_results eigvals fs network q' t = (t', Ok tt) ->
  (In path ["ols_error_metrics.txt"; "tls_error_metrics.txt"; "lasso_error_metrics.txt"]%string /\ fs (standard_path network) <> None \/
   path = "sparse_tls_error_metrics.txt"%string /\ fs (bayesian_path network) <> None) ->
  reports s' path m -> reports t' path m' -> em_fro m = em_fro m' /\ em_rrms m = em_rrms m'.
Proof. exact p_view. Qed.
Theorem C91_largest_error_refuted : forall eigvals s, exists fs network y phases o t e s1 s2 m1 m2,
  consistent fs network 3 y phases true /\ fs (standard_path network) = Some (Standard o t e) /\
  plot_results eigvals fs network false s = (s1, Ok tt) /\ plot_results eigvals fs network true s = (s2, Ok tt) /\
  reports s1 "ols_error_metrics.txt" m1 /\ reports s2 "ols_error_metrics.txt" m2 /\ (em_max m1 < em_max m2)%R.
Proof. exact p_view_max. Qed.
Print Assumptions C91_overall_errors.
Print Assumptions C91_largest_error_refuted.
Example C91_ex : forall eigvals s, exists s1 s2 m1 m2,
  plot_results eigvals (d_files d_y d_est "123" true d_w [1; 1; 1]%Z) "a" false s = (s1, Ok tt) /\ plot_results eigvals (d_files d_y d_est "123" true d_w [1; 1; 1]%Z) "a" true s = (s2, Ok tt) /\
  reports s1 "ols_error_metrics.txt" m1 /\ reports s2 "ols_error_metrics.txt" m2 /\ em_fro m1 = em_fro m2.
Proof.
  intros eigvals s. set (fs := d_files _ _ _ _ _ _).
  assert (CO : consistent fs "a" 3 d_y "123" true) by (apply d_consistent_a; [apply d_shape_y|apply d_shape_est|lia|apply d_fits]).
  assert (R : forall q, exists s', plot_results eigvals fs "a" q s = (s', Ok tt)) by (intro q; apply (p_finishes eigvals fs "a" q 3 d_y "123" true s CO); intro X; exfalso; apply X; reflexivity).
  destruct (R false) as (s1 & R1), (R true) as (s2 & R2). exists s1, s2.
  destruct (C90_standard_reports _ _ _ _ _ _ _ _ _ _ _ _ 3 R1 (proj1 CO) eq_refl d_shape_y d_shape_est d_shape_est d_shape_est) as (m1 & _ & _ & A1 & _).
  destruct (C90_standard_reports _ _ _ _ _ _ _ _ _ _ _ _ 3 R2 (proj1 CO) eq_refl d_shape_y d_shape_est d_shape_est d_shape_est) as (m2 & _ & _ & A2 & _).
  exists m1, m2. split; [exact R1|]. split; [exact R2|]. split; [exact A1|]. split; [exact A2|].
  apply (C91_overall_errors _ _ _ _ _ _ _ _ _ _ _ _ _ "ols_error_metrics.txt" _ _ CO R1 R2); [left; split; [left; reflexivity|discriminate]|exact A1|exact A2].
Qed.

(** * C92 the report on the pairs of nodes without a line *)
Theorem C92_sparsity_report : forall eigvals fs network q s s' y p l yb its o t e n, plot_results eigvals fs network q s = (s', Ok tt) ->
  fs (reference_path network) = Some (Reference y p l) -> fs (bayesian_path network) = Some (Bayesian yb its) -> fs (standard_path network) = Some (Standard o t e) ->
  shape y n n -> shape yb n n -> shape o n n -> shape t n n -> shape e n n ->
  exists y' o' t' e' b' m0 m1 m2 m3, shows p q y y' /\ shows p q o o' /\ shows p q t t' /\ shows p q e e' /\ shows p q yb b' /\ shape y' n n /\
    s' "sparsity_metrics.txt"%string = Some (Text [Title "OLS"; Metrics m0; Title "TLS"; Metrics m1; Title "Lasso"; Metrics m2; Title "MLE"; Metrics m3]) /\
    sparsity_of l y' o' m0 /\ sparsity_of l y' t' m1 /\ sparsity_of l y' e' m2 /\ sparsity_of l y' b' m3.
Proof. exact p_sparsity. Qed.
(** for Laplacian matrices the relative errors say nothing *)
Theorem C92_hundred_percent : forall n y est m, shape y n n -> sparsity_of true y est m ->
  (em_fro m = 0%R /\ em_rrms m = NonFinite /\ em_map m = NonFinite) \/ (em_rrms m = Fin 100 /\ em_map m = Fin 100).
Proof. exact p_hundred_percent. Qed.
Print Assumptions C92_sparsity_report.
Print Assumptions C92_hundred_percent.
Example C92_ex : forall eigvals s, exists s' m0 r, plot_results eigvals c_done "a" false s = (s', Ok tt) /\
  s' "sparsity_metrics.txt"%string = Some (Text (Title "OLS" :: Metrics m0 :: r)) /\ sparsity_of true c_chain c_est m0 /\ in_sparsity true c_chain 2 0.
Proof.
  intros eigvals s. destruct (c_done_runs eigvals false s) as (s' & R). exists s'.
  destruct (C92_sparsity_report eigvals c_done "a" false s s' c_chain "1" true c_est [St 0 c_est 0%R; St 1 c_est 2%R] c_est c_est c_est 3 R eq_refl eq_refl eq_refl)
    as (y' & o' & t' & e' & b' & m0 & m1 & m2 & m3 & S1 & S2 & _ & _ & _ & _ & A & B & _); try apply shape_mk.
  apply c_single in S1, S2. subst y' o'. exists m0. eexists. split; [exact R|]. split; [exact A|]. split; [exact B|]. left. split; [lia|]. split; reflexivity.
Qed.

(** * C93 when the program finishes *)
Theorem C93_finishes : forall eigvals fs network q n y p l s, consistent fs network n y p l ->
  (fs (bayesian_path network) <> None -> fs (standard_path network) <> None /\ forall y', shows p q y y' -> exists a b, a < n /\ b < n /\ in_sparsity l y' a b) ->
  exists s', plot_results eigvals fs network q s = (s', Ok tt).
Proof. exact p_finishes. Qed.
(** every pair of nodes has a line *)
Theorem C93_no_absent_line : forall eigvals fs network q n y p l s, consistent fs network n y p l -> fs (bayesian_path network) <> None -> fs (standard_path network) <> None ->
  (forall y' a b, shows p q y y' -> a < n -> b < n -> ~ in_sparsity l y' a b) ->
  exists s' m, plot_results eigvals fs network q s = (s', Err ValueError) /\ reports s' "sparse_tls_error_metrics.txt" m /\
    s' "sparsity_metrics.txt"%string = Some (Text [Title "OLS"]).
Proof. exact p_no_absent_line. Qed.
Print Assumptions C93_finishes.
Print Assumptions C93_no_absent_line.
Example C93_finishes_ex : consistent c_done "a" 3 c_chain "1" true /\ forall y', shows "1" false c_chain y' -> exists a b, a < 3 /\ b < 3 /\ in_sparsity true y' a b.
Proof. split; [exact c_done_ok|exact (c_done_absent false)]. Qed.
Example C93_no_absent_line_ex : forall eigvals s, exists s' m,
  plot_results eigvals (c_files (Some c_est2) (Some c_est2) c_full "1" true (c_w 2) (repeat 1%Z 2)) "a" false s = (s', Err ValueError) /\
  reports s' "sparse_tls_error_metrics.txt" m /\ s' "sparsity_metrics.txt"%string = Some (Text [Title "OLS"]).
Proof.
  intros eigvals s. apply (C93_no_absent_line eigvals _ "a" false 2 c_full "1" true); [|discriminate|discriminate|exact (c_full_connected false)].
  apply c_consistent; [apply shape_mk| | |lia|apply c_fits]; intros e X; injection X as <-; apply shape_mk.
Qed.

(** * C94 Bayesian results cannot be reported without those of the standard methods *)
Theorem C94_bayesian_alone : forall eigvals fs network q n y p l s, consistent fs network n y p l -> fs (bayesian_path network) <> None -> fs (standard_path network) = None ->
  exists s' m, plot_results eigvals fs network q s = (s', Err UnboundLocalError) /\ reports s' "sparse_tls_error_metrics.txt" m /\
    s' "sparsity_metrics.txt"%string = s "sparsity_metrics.txt"%string.
Proof. exact p_bayesian_alone. Qed.
Print Assumptions C94_bayesian_alone.
Example C94_ex : forall eigvals s, exists s' m,
  plot_results eigvals (c_files None (Some c_est) c_chain "1" true (c_w 3) (repeat 1%Z 3)) "a" true s = (s', Err UnboundLocalError) /\
  reports s' "sparse_tls_error_metrics.txt" m /\ s' "sparsity_metrics.txt"%string = s "sparsity_metrics.txt"%string.
Proof.
  intros eigvals s. apply (C94_bayesian_alone eigvals _ "a" true 3 c_chain "1" true); [|discriminate|reflexivity].
  apply c_consistent; [apply shape_mk| | |lia|apply c_fits]; intros e X; [discriminate X|injection X as <-; apply shape_mk].
Qed.

(** * C95 results that are not there leave the old reports *)
Theorem C95_old_reports : forall eigvals fs network q s s' r x, plot_results eigvals fs network q s = (s', r) ->
  (In x standard_outputs -> fs (standard_path network) = None -> s' x = s x) /\
  (In x bayesian_outputs -> fs (bayesian_path network) = None -> s' x = s x) /\
  (~ In x (network_outputs ++ standard_outputs ++ bayesian_outputs) -> s' x = s x).
Proof. exact p_stale. Qed.
Theorem C95_reports_of_the_network_refuted : forall eigvals s, exists fs network1 network2 y1 y2 p1 p2 o t e s1 s2 m,
  consistent fs network1 3 y1 p1 true /\ consistent fs network2 3 y2 p2 true /\ y1 <> y2 /\
  fs (standard_path network1) = Some (Standard o t e) /\ fs (standard_path network2) = None /\
  plot_results eigvals fs network1 false s = (s1, Ok tt) /\ plot_results eigvals fs network2 false s1 = (s2, Ok tt) /\
  reports s2 "ols_error_metrics.txt" m /\ describes p1 false y1 o m.
Proof. exact p_stale_case. Qed.
Print Assumptions C95_old_reports.
Print Assumptions C95_reports_of_the_network_refuted.
Example C95_ex : forall eigvals s s' r, plot_results eigvals (c_files None None c_chain "1" true (c_w 3) (repeat 1%Z 3)) "a" false s = (s', r) ->
  s' "ols_error_metrics.txt"%string = s "ols_error_metrics.txt"%string /\ s' "sparsity_metrics.txt"%string = s "sparsity_metrics.txt"%string.
Proof.
  intros eigvals s s' r H. split.
  - exact (proj1 (C95_old_reports _ _ _ _ _ _ _ _ H) (or_introl eq_refl) eq_refl).
  - exact (proj1 (proj2 (C95_old_reports _ _ _ _ _ _ _ _ H)) (or_intror (or_introl eq_refl)) eq_refl).
Qed.

(** * C96 the correlations of a single phase are always those of phase 1 *)
Theorem C96_correlations : forall eigvals (fs1 fs2 : files R) n1 n2 q1 q2 s1 s2 s1' s2' y1 y2 p1 p2 l1 l2 i1 v1 j1 w1 yy1 pw1 f1 i2 v2 j2 w2 yy2 pw2 f2 h,
  plot_results eigvals fs1 n1 q1 s1 = (s1', Ok tt) -> plot_results eigvals fs2 n2 q2 s2 = (s2', Ok tt) ->
  fs1 (reference_path n1) = Some (Reference y1 p1 l1) -> fs2 (reference_path n2) = Some (Reference y2 p2 l2) ->
  fs1 (simulation_path n1) = Some (Simulation i1 v1 j1 w1 yy1 pw1 f1 h) -> fs2 (simulation_path n2) = Some (Simulation i2 v2 j2 w2 yy2 pw2 f2 h) ->
  (p1 <> "012" /\ p1 <> "123" /\ p2 <> "012" /\ p2 <> "123")%string -> length h = nc w1 -> nr w1 = nr w2 -> nc w1 = nc w2 ->
  (forall t k, t < nr w1 -> nth_error h k = Some 1%Z -> get w1 t k = get w2 t k) ->
  s1' "simulations_output/plot_data/correlations.npz"%string = s2' "simulations_output/plot_data/correlations.npz"%string.
Proof. exact p_correlations. Qed.
(** what is shown: logarithms of the roots of the eigenvalues of the matrix of the centred voltages *)
Theorem C96_values : forall eigvals fs network q s s' y p l i v j w yy pw f h, plot_results eigvals fs network q s = (s', Ok tt) ->
  fs (reference_path network) = Some (Reference y p l) -> fs (simulation_path network) = Some (Simulation i v j w yy pw f h) ->
  exists u V xs, shows_voltage p q h w u /\ is_centred u V /\ Forall2 decade (eigvals (mmul (tr V) V)) xs /\
    s' "simulations_output/plot_data/correlations.npz"%string = Some (Array (map (fun x => [x]) xs)).
Proof. exact p_correlation_values. Qed.
Print Assumptions C96_correlations.
Print Assumptions C96_values.
(** phase 2 was identified and only the voltages of phase 2 differ *)
Definition w_two (z : C) : mat C := mk 2 4 (fun t k => if (k mod 2 =? 0) then (if (t =? k) then one else 0%K) else z).
Example C96_ex : forall eigvals s, exists s1 s2,
  plot_results eigvals (c_files None None c_full "2" true (w_two 0%K) [1; 2; 1; 2]%Z) "a" false s = (s1, Ok tt) /\
  plot_results eigvals (c_files None None c_full "2" true (w_two one) [1; 2; 1; 2]%Z) "a" false s = (s2, Ok tt) /\
  s1 "simulations_output/plot_data/correlations.npz"%string = s2 "simulations_output/plot_data/correlations.npz"%string.
Proof.
  intros eigvals s.
  assert (R : forall z, exists s', plot_results eigvals (c_files None None c_full "2" true (w_two z) [1; 2; 1; 2]%Z) "a" false s = (s', Ok tt)).
  { intro z. apply (C93_finishes eigvals _ "a" false 2 c_full "2" true); [|intro X; exfalso; apply X; reflexivity].
    apply c_consistent; [apply shape_mk|discriminate|discriminate|lia|]. right. split; [split; discriminate|]. split; reflexivity. }
  destruct (R 0%K) as (s1 & R1), (R one) as (s2 & R2). exists s1, s2. split; [exact R1|]. split; [exact R2|].
  eapply (C96_correlations eigvals _ _ _ _ _ _ _ _ s1 s2); [exact R1|exact R2|reflexivity|reflexivity|reflexivity|reflexivity| | | | |];
    [repeat split; discriminate|reflexivity|reflexivity|reflexivity|].
  intros t k Ht Hk. change (nr (w_two 0%K)) with 2 in Ht. destruct k as [|[|[|[|k]]]]; try discriminate Hk; [| |destruct k; discriminate Hk];
    unfold w_two; rewrite !get_mk by lia; reflexivity.
Qed.

(** * C97 colours and labels of the figures *)
Theorem C97_colours : forall known cmap arg k, (arg = ByList [] -> k = 0) -> exists l, map_color_colormap known cmap arg k = Ok l /\ length l = k /\
  (forall c, arg = ByList c -> (k <= length c -> l = firstn k c) /\ (length c < k -> forall x, In x l -> hd_error c = Some x)).
Proof. exact p_colours. Qed.
Theorem C97_labels_fail : forall m columns name l s, 0 < columns -> length l = columns ->
  exists s', plot_series m columns name (Some l) s = (s', Err AttributeError) /\ s' (plot_data_path name) = Some (Array m).
Proof. exact p_labels. Qed.
Print Assumptions C97_colours.
Print Assumptions C97_labels_fail.
Example C97_colours_ex : map_color_colormap [] (fun _ _ _ => EmptyString) (ByList ["red"; "blue"]%string) 3 = Ok ["red"; "red"; "red"]%string.
Proof. reflexivity. Qed.
Example C97_labels_ex : forall s, snd (plot_series [[Fin 1%R; Fin 2%R]] 2 "errors" (Some ["one"; "two"]%string) s) = Err AttributeError.
Proof. reflexivity. Qed.
