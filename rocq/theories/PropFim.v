(** C105: the analysis of the uncertainty. *)
From Coq Require Import Arith ZArith Lia List Bool Reals Lra.
From Verif Require Import BasePy BaseFld BaseSum BaseMat BaseNumpy BaseOrd BaseReal BaseLin ModelMatrixOps ProofMatrixOps ModelErrorMetrics ModelNoiseCov SpecNoise ProofNoiseCov
  SpecFit ModelFisher SpecFisher ProofFisher ModelRun ModelFim SpecFim ProofFim ProofFimRun.
Import ListNotations.
Local Open Scope R_scope.

(** the numbers of Y: real parts column by column, then imaginary parts *)
Definition parameters (n : nat) (Y : mat C) (y : list R) : Prop := length y = (2 * (n * n))%nat /\ forall k, (k < 2 * (n * n))%nat -> vget y k = y_real n Y k.
Definition sample_number (ns : option nat) : nat := match ns with None => (100 * 100)%nat | Some k => k end.

(** with noise on the currents the analysis works exactly if the voltages are informative; what is computed and saved *)
Theorem C105_analysis : forall St (seeded : St) mvn file v i vsd csd ratings Y ns laplacian T n x,
  (0 < n * T)%nat -> shape v T n -> shape i T n -> shape Y n n -> length ratings = n -> re csd <> 0 -> im csd <> 0 -> (forall k, (k < n)%nat -> vget ratings k <> 0) ->
  centred_data laplacian v x ->
  exists Xs X Zs Z W y,
    average_true_noise_covariance v (SdFloat (re vsd)) (im vsd) false = Ok Xs /\ finite Xs X /\
    average_true_noise_covariance i (SdArray (map (fun r => re csd * r) ratings)) (im csd) false = Ok Zs /\ finite Zs Z /\
    swapped_inverse (n * T) (used_cov T n Y X Z) W /\ psd (2 * (n * T)) W /\ parameters n Y y /\
    let G := mmul (tr (split_regressor x)) (mmul W (split_regressor x)) in
    psd (2 * (n * n)) G /\
    (informative T n x -> exists V, shape V (2 * (n * n)) (2 * (n * n)) /\ mmul G V = meye (2 * (n * n)) /\
      match mvn y V (sample_number ns) seeded with
      | (Ok s, g) => eiv_fim seeded mvn file (Some v) (Some i) vsd csd ratings Y ns laplacian = Some (g, Some (mkFim Y v i G V (err_std s y)), Ok (G, V, err_std s y))
      | (Err e, g) => eiv_fim seeded mvn file (Some v) (Some i) vsd csd ratings Y ns laplacian = Some (g, file, Err e)
      end) /\
    (~ informative T n x -> eiv_fim seeded mvn file (Some v) (Some i) vsd csd ratings Y ns laplacian = Some (seeded, file, Err LinAlgError)).
Proof.
  intros. destruct (p_analysis seeded mvn file v i vsd csd ratings Y ns laplacian T n x) as (Xs & X & Zs & Z & W & y & A1 & A2 & A3 & A4 & A5 & A6 & A7 & A8 & A9 & A10 & A11); auto.
  exists Xs, X, Zs, Z, W, y. unfold parameters. auto 20.
Qed.
Print Assumptions C105_analysis.

(** the number reported is at most the root mean square of the relative errors; they agree only if there are no errors at all *)
Theorem C105_reported_error : forall St (seeded : St) mvn file v i vsd csd ratings Y ns laplacian g f G V e n, shape Y n n ->
  eiv_fim seeded mvn file (Some v) (Some i) vsd csd ratings Y ns laplacian = Some (g, f, Ok (G, V, e)) ->
  exists y samples, parameters n Y y /\ mvn y V (sample_number ns) seeded = (Ok samples, g) /\
    (samples <> [] -> size y <> 0 -> (forall s, In s samples -> length s = length y) ->
     exists r, e = Fin r /\ 0 <= r /\ r * r = rms_error samples y * rms_error samples y - mean_error samples y * mean_error samples y /\
       r <= rms_error samples y /\ (r = rms_error samples y <-> forall s, In s samples -> s = y)).
Proof.
  intros St seeded mvn file v i vsd csd ratings Y ns laplacian g f G V e n HY H. exists (make_real_vector (vectorize_matrix Y)). unfold eiv_fim in H.
  destruct (bind _ _) as [[Xs Zs]|e0]; [|discriminate H].
  assert (E : exists s, mvn (make_real_vector (vectorize_matrix Y)) V (sample_number ns) seeded = (Ok s, g) /\ e = err_std s (make_real_vector (vectorize_matrix Y))).
  { destruct laplacian; (destruct (fisher_info _ _ _ _ Y) as [[G' V'|]|e0]; [|discriminate H|discriminate H]); fold (sample_number ns) in H;
    destruct (mvn _ V' _ _) as [[s|e0] g'] eqn:EM; try discriminate H; injection H; intros; subst; exists s; auto. }
  destruct E as (s & ES & ->). exists s. split; [split; [rewrite length_make_real_vector, length_vectorize; destruct HY as (_ & -> & ->); lia|intros; apply y_real_vec; auto]|].
  split; [exact ES|]. intros N Sy L. apply p_reported; auto.
Qed.
Print Assumptions C105_reported_error.

(** samples that are all equally wrong are reported as no error *)
Theorem C105_equal_errors : forall samples y d, samples <> [] -> size y <> 0 -> (forall s, In s samples -> length s = length y /\ distance s y = d) ->
  err_std samples y = Fin 0 /\ mean_error samples y = d / size y /\ rms_error samples y = d / size y.
Proof.
  intros samples y d N Sy H.
  assert (Sp : 0 < size y) by (assert (0 <= size y) by (unfold size; apply sqrt_pos); lra).
  assert (Hn : 0 < INR (length samples)) by (apply lt_0_INR; destruct samples; [congruence|cbn; lia]).
  assert (Hd : 0 <= d) by (destruct samples as [|s l]; [congruence|]; destruct (H s (or_introl eq_refl)) as [_ <-]; apply sqrt_pos).
  assert (Dk : forall k, (k < length samples)%nat -> distance (nth k samples []) y = d) by (intros k Hk; apply H; apply nth_In; auto).
  assert (M : mean_error samples y = d / size y).
  { unfold mean_error. rewrite (sumn_ext _ _ (fun _ => d / size y)) by (intros k Hk; cbv beta; rewrite Dk by auto; reflexivity). rewrite sumR_const. field. lra. }
  assert (Q : rms_error samples y = d / size y).
  { unfold rms_error. rewrite (sumn_ext _ _ (fun _ => (d / size y) * (d / size y))) by (intros k Hk; cbv beta; rewrite Dk by auto; reflexivity). rewrite sumR_const.
    replace (INR (length samples) * (d / size y * (d / size y)) / INR (length samples)) with (d / size y * (d / size y)) by (field; lra).
    apply sqrt_square. apply Rmult_le_pos; [exact Hd|left; apply Rinv_0_lt_compat; exact Sp]. }
  split; [|auto]. destruct (p_reported samples y N Sy (fun s Hs => proj1 (H s Hs))) as (e & E & E0 & E1 & _). rewrite E. f_equal. rewrite M, Q in E1. apply sq_zero. lra.
Qed.
Print Assumptions C105_equal_errors.

(** saved results are read back; they are the last ones computed under the name *)
Theorem C105_read_back : forall St (seeded : St) mvn file v i vsd csd ratings Y ns laplacian g f G V e voltage current vsd' csd' ratings' Y' ns' laplacian',
  eiv_fim seeded mvn file (Some v) (Some i) vsd csd ratings Y ns laplacian = Some (g, f, Ok (G, V, e)) -> voltage = None \/ current = None ->
  eiv_fim seeded mvn f voltage current vsd' csd' ratings' Y' ns' laplacian' = Some (seeded, f, Ok (G, V, e)).
Proof.
  intros St seeded mvn file v i vsd csd ratings Y ns laplacian g f G V e voltage current vsd' csd' ratings' Y' ns' laplacian' H D.
  assert (E : f = Some (mkFim Y v i G V e)).
  { unfold eiv_fim in H. destruct (bind _ _) as [[Xs Zs]|e0]; [|discriminate H].
    destruct laplacian; (destruct (fisher_info _ _ _ _ Y) as [[G' V'|]|e0]; [|discriminate H|discriminate H]);
    destruct (mvn _ V' _ _) as [[s|e0] g'] eqn:EM; try discriminate H; injection H; intros; subst; reflexivity. }
  subst f. destruct D as [-> | ->]; [reflexivity|]. destruct voltage; reflexivity.
Qed.
Print Assumptions C105_read_back.

(** two measurements of one node *)
Definition f_v : mat C := mk 2 1 (fun t _ => match t with 0%nat => Cx 1 1 | _ => Cx 3 3 end).
Definition f_i : mat C := mk 2 1 (fun t _ => match t with 0%nat => Cx 1 0 | _ => Cx 2 0 end).
Definition f_Y : mat C := mk 1 1 (fun _ _ => Cx 3 4).
Definition f_sd : C := Cx (1/100) (1/100).
(** a sampler whose samples are alternately zero and twice the mean *)
Definition f_mvn (y : list R) (V : mat R) (k : nat) (g : unit) : res (list (list R)) * unit :=
  (Ok (map (fun j => if Nat.even j then vscal 0 y else vscal 2 y) (range k)), g).
Lemma f_centred : centred_data false f_v (minus_col_means f_v).
Proof. apply (centred_exists false). cbn. lia. Qed.
Lemma f_informative : informative 2 1 (minus_col_means f_v).
Proof.
  assert (E : get (minus_col_means f_v) 0 0 = Cx (-1) (-1)).
  { unfold minus_col_means. rewrite get_mk by (cbn; lia). unfold mean_col. change (nr f_v) with 2%nat. unfold f_v. rewrite !sumn_S_l. cbn [sumn]. rewrite !get_mk by lia.
    apply cplx_eq; cbn; field. }
  split; intros u H k Hk; replace k with 0%nat by lia; specialize (H 0%nat ltac:(lia)); cbv beta in H; rewrite sumn_S_l in H; rewrite E in H; cbn [re im sumn kmul kadd k0 R_ops] in *; lra.
Qed.
Lemma f_runs : exists G V e y, parameters 1 f_Y y /\ f_mvn y V 2 tt = (Ok [vscal 0 y; vscal 2 y], tt) /\ e = err_std [vscal 0 y; vscal 2 y] y /\
  eiv_fim tt f_mvn None (Some f_v) (Some f_i) f_sd f_sd [1] f_Y (Some 2%nat) false = Some (tt, Some (mkFim f_Y f_v f_i G V e), Ok (G, V, e)).
Proof.
  destruct (C105_analysis unit tt f_mvn None f_v f_i f_sd f_sd [1] f_Y (Some 2%nat) false 2 1 (minus_col_means f_v)) as (Xs & X & Zs & Z & W & y & _ & _ & _ & _ & _ & _ & Py & _ & A & _);
    [lia|apply shape_mk|apply shape_mk|apply shape_mk|reflexivity|cbn; lra|cbn; lra|intros k Hk; replace k with 0%nat by lia; cbn; lra|exact f_centred|].
  destruct (A f_informative) as (V & _ & _ & R). cbn [f_mvn sample_number range seq map Nat.even] in R. eexists. exists V, (err_std [vscal 0 y; vscal 2 y] y), y.
  split; [exact Py|]. split; [reflexivity|]. split; [reflexivity|]. exact R.
Qed.
Lemma f_size : forall y, parameters 1 f_Y y -> size y = 5 /\ forall s, In s [vscal 0 y; vscal 2 y] -> length s = length y /\ distance s y = 5.
Proof.
  intros y (L & P). cbn [Nat.mul Nat.add] in *. pose proof (P 0%nat ltac:(lia)) as P0. pose proof (P 1%nat ltac:(lia)) as P1. change (vget y 0 = 3) in P0. change (vget y 1 = 4) in P1.
  assert (S5 : forall a b, a * a + b * b = 25 -> sqrt (a * a + b * b) = 5) by (intros a b ->; replace 25 with (5 * 5) by ring; apply sqrt_square; lra).
  split.
  - unfold size. rewrite L, !sumR_S, sumR_0. rewrite Rplus_0_l. apply S5. rewrite P0, P1. ring.
  - intros s [<-|[<-|[]]]; (split; [apply length_vscal|]); unfold distance; rewrite L, !sumR_S, sumR_0, Rplus_0_l, !vget_vscal by lia; apply S5; cbn [kmul R_ops]; rewrite P0, P1; ring.
Qed.
(** an exception leaves the file as it was; without data the only exception is that of a missing file *)
Theorem C105_exceptions : forall St (seeded : St) mvn file voltage current vsd csd ratings Y ns laplacian g f e,
  eiv_fim seeded mvn file voltage current vsd csd ratings Y ns laplacian = Some (g, f, Err e) ->
  f = file /\ (voltage = None \/ current = None -> file = None /\ e = FileNotFoundError /\ g = seeded).
Proof.
  intros St seeded mvn file voltage current vsd csd ratings Y ns laplacian g f e H. unfold eiv_fim in H.
  destruct voltage as [v|], current as [i|]; [|destruct file; [discriminate H|]; assert (g = seeded /\ f = None /\ e = FileNotFoundError) as (-> & -> & ->) by (repeat split; congruence); auto..].
  split; [|intros [H0|H0]; discriminate H0]. destruct (bind _ _) as [[Xs Zs]|e0]; [|congruence].
  destruct laplacian; (destruct (fisher_info _ _ _ _ Y) as [[G' V'|]|e0]; [|discriminate H|congruence]); destruct (mvn _ V' _ _) as [[s|e0] g'] eqn:EM; try discriminate H; congruence.
Qed.
Print Assumptions C105_exceptions.
Example C105_exceptions_ex : eiv_fim tt (fun _ _ _ s => (Ok [], s)) None None None (Cx 1 1) (Cx 1 1) [1] (mk 1 1 (fun _ _ => Cx 1 1)) None true = Some (tt, None, Err FileNotFoundError).
Proof. reflexivity. Qed.

(** the errors of all samples are as large as the parameters, and the reported number is 0 *)
Theorem C105_expected_error_refuted : exists (mvn : list R -> mat R -> nat -> unit -> res (list (list R)) * unit) file v i vsd csd ratings Y ns laplacian g f G V e y samples,
  eiv_fim tt mvn file (Some v) (Some i) vsd csd ratings Y ns laplacian = Some (g, f, Ok (G, V, e)) /\ parameters (nr Y) Y y /\ size y <> 0 /\
  mvn y V (sample_number ns) tt = (Ok samples, g) /\ samples <> [] /\ e = Fin 0 /\ mean_error samples y = 1 /\ rms_error samples y = 1.
Proof.
  destruct f_runs as (G & V & e & y & Py & M & -> & E). destruct (f_size y Py) as [S H].
  destruct (C105_equal_errors [vscal 0 y; vscal 2 y] y 5 ltac:(discriminate) ltac:(rewrite S; lra) H) as (E0 & E1 & E2).
  exists f_mvn, None, f_v, f_i, f_sd, f_sd, [1], f_Y, (Some 2%nat), false, tt. eexists. exists G, V. eexists. exists y, [vscal 0 y; vscal 2 y].
  split; [exact E|]. split; [exact Py|]. split; [rewrite S; lra|]. split; [exact M|]. split; [discriminate|]. split; [exact E0|]. rewrite E1, E2, S. split; lra.
Qed.
Print Assumptions C105_expected_error_refuted.
(** hypotheses of the theorems above *)
Example C105_analysis_ex : shape f_v 2 1 /\ centred_data false f_v (minus_col_means f_v) /\ informative 2 1 (minus_col_means f_v) /\ re f_sd <> 0.
Proof. split; [apply shape_mk|]. split; [exact f_centred|]. split; [exact f_informative|]. cbn. lra. Qed.
Example C105_equal_errors_ex : exists y, parameters 1 f_Y y /\ size y <> 0 /\ forall s, In s [vscal 0 y; vscal 2 y] -> length s = length y /\ distance s y = 5.
Proof. destruct f_runs as (_ & _ & _ & y & Py & _). exists y. destruct (f_size y Py) as [S H]. split; [exact Py|]. split; [rewrite S; lra|exact H]. Qed.
Example C105_read_back_ex : exists f r, eiv_fim tt f_mvn None (Some f_v) (Some f_i) f_sd f_sd [1] f_Y (Some 2%nat) false = Some (tt, f, Ok r) /\
  eiv_fim tt f_mvn f None None f_sd f_sd [] f_Y None true = Some (tt, f, Ok r).
Proof.
  destruct f_runs as (G & V & e & y & _ & _ & _ & E). eexists. eexists. split; [exact E|]. eapply C105_read_back; [exact E|]. left. reflexivity.
Qed.
(** one constant voltage is not informative: the analysis fails *)
Example C105_constant_ex : eiv_fim tt f_mvn None (Some (mk 2 1 (fun _ _ => Cx 1 1))) (Some f_i) f_sd f_sd [1] f_Y None false = Some (tt, None, Err LinAlgError).
Proof.
  set (v := mk 2 1 (fun _ _ => Cx 1 1)).
  destruct (C105_analysis unit tt f_mvn None v f_i f_sd f_sd [1] f_Y None false 2 1 (minus_col_means v)) as (Xs & X & Zs & Z & W & y & _ & _ & _ & _ & _ & _ & _ & _ & _ & A);
    [lia|apply shape_mk|apply shape_mk|apply shape_mk|reflexivity|cbn; lra|cbn; lra|intros k Hk; replace k with 0%nat by lia; cbn; lra|apply (centred_exists false); cbn; lia|].
  apply A. intros [I _]. assert (B : 1 = 0); [|lra]. refine (I (fun _ => 1) _ 0%nat _); [|lia]. intros t Ht. rewrite sumn_S_l. cbn [sumn].
  unfold minus_col_means. rewrite get_mk by (cbn; lia). unfold mean_col. change (nr v) with 2%nat. unfold v. rewrite !sumn_S_l. cbn [sumn]. rewrite !get_mk by lia. cbn. field.
Qed.
