(** Further facts on the reports of plot_results.py, the colours and the labels of utils.py, and concrete files. *)
From Coq Require Import String.
From Coq Require Import List Reals Bool ZArith Lia Lra.
From Verif Require Import BasePy BaseFld BaseSum BaseMat BaseNumpy BaseLin BaseReal ModelMatrixOps ModelSet ModelReduce ModelFit ModelIdent ModelRun ModelErrorMetrics ModelLines ModelPlot
  SpecMatrix SpecPlot SpecRun ProofMetrics ProofLines ProofMask ProofMatrixOps ProofElim ProofIdent ProofIdentMain ProofReduce ProofPlotNum ProofPlot ProofPlotRun.
Import ListNotations.
Close Scope string_scope.
Local Open Scope nat_scope.

(** ** an error of zero *)
Lemma sq_nonneg : forall z, (0 <= sq z)%R. Proof. intro z. unfold sq. nra. Qed.
Lemma sq_zero : forall z, sq z = 0%R -> z = 0%K.
Proof. intros [a b] H. unfold sq in H. cbn in H. apply cplx_eq; cbn; nra. Qed.
Lemma sumr_nonneg : forall n (f : nat -> R), (forall i, i < n -> (0 <= f i)%R) -> (0 <= sumn n f)%R.
Proof. induction n as [|n IH]; intros f H; [cbn; lra|]. cbn [sumn]. assert (A := IH f (fun i Hi => H i (Nat.lt_lt_succ_r _ _ Hi))). assert (B := H n (Nat.lt_succ_diag_r n)). cbn. lra. Qed.
Lemma sumr_zero : forall n (f : nat -> R), (forall i, i < n -> (0 <= f i)%R) -> sumn n f = 0%R -> forall i, i < n -> f i = 0%R.
Proof.
  induction n as [|n IH]; intros f H E i Hi; [lia|]. cbn [sumn] in E. assert (A := sumr_nonneg n f (fun i Hi => H i (Nat.lt_lt_succ_r _ _ Hi))).
  assert (B := H n (Nat.lt_succ_diag_r n)). cbn in E. destruct (Nat.eq_dec i n) as [->|N]; [lra|].
  apply IH; [intros; apply H; lia|lra|lia].
Qed.
Lemma gap2_zero : forall n (A B : mat C), shape A n n -> shape B n n -> gap2 A B = 0%R -> B = A.
Proof.
  intros n A B HA HB H. apply (gshape_ext _ _ n n HB HA). intros i j Hi Hj. unfold gap2 in H. destruct HA as (_ & R1 & C1). rewrite R1, C1 in H.
  assert (Z := sumr_zero n _ (fun i _ => sumr_nonneg n _ (fun j _ => sq_nonneg _)) H i Hi). cbv beta in Z.
  assert (Z' := sumr_zero n _ (fun j _ => sq_nonneg _) Z j Hj). cbv beta in Z'. apply sq_zero in Z'.
  replace (get A i j) with ((get A i j - get B i j) + get B i j)%K by ring. rewrite Z'. ring.
Qed.
Lemma sumr_0 : forall n (f : nat -> R), (forall i, i < n -> f i = 0%R) -> sumn n f = 0%R.
Proof. induction n as [|n IH]; intros f H; [reflexivity|]. cbn [sumn]. rewrite IH by (intros; apply H; lia). rewrite H by lia. cbn. ring. Qed.
Lemma gap2_self : forall A, gap2 A A = 0%R.
Proof.
  intro A. unfold gap2. apply sumr_0. intros i Hi. apply sumr_0. intros j Hj. unfold sq.
  replace (get A i j - get A i j)%K with (0%K : C) by ring. cbn. ring.
Qed.
Lemma p_zero_error : forall p q n y est m, shape y n n -> shape est n n -> describes p q y est m -> (em_fro m = 0%R <-> est = y).
Proof.
  intros p q n y est m HY HE ((H0 & H1 & _) & _). split.
  - intro Z. rewrite Z in H1. apply (gap2_zero n); try assumption. lra.
  - intros ->. rewrite gap2_self in H1. nra.
Qed.

(** ** colours and labels *)
Lemma p_colours : forall known cmap arg k, (arg = ByList [] -> k = 0) -> exists l, map_color_colormap known cmap arg k = Ok l /\ length l = k /\
  (forall c, arg = ByList c -> (k <= length c -> l = firstn k c) /\ (length c < k -> forall x, In x l -> hd_error c = Some x)).
Proof.
  intros known cmap arg k H. assert (LM : forall (f : nat -> string), length (map f (range k)) = k) by (intro f; rewrite map_length; apply seq_length).
  destruct arg as [s|c|s]; cbn [map_color_colormap].
  - destruct (existsb _ _); (eexists; split; [reflexivity|]; split; [apply LM|discriminate]).
  - destruct (k <=? length c) eqn:E.
    + apply Nat.leb_le in E. eexists. split; [reflexivity|]. split; [apply LM|]. intros c' X. injection X as <-. split; [|lia]. intros _.
      clear H LM. revert k E. induction c as [|x c IH]; intros k E; cbn in E.
      * replace k with 0 by lia. reflexivity.
      * destruct k as [|k]; [reflexivity|]. unfold range. cbn [firstn seq map nth]. f_equal. rewrite <- seq_shift, map_map. apply IH. lia.
    + apply Nat.leb_gt in E. destruct c as [|x c]; [specialize (H eq_refl); cbn in E; lia|]. eexists. split; [reflexivity|]. split; [apply LM|].
      intros c' X. injection X as <-. split; [lia|]. intros _ z Hz. apply in_map_iff in Hz. destruct Hz as (_ & <- & _). reflexivity.
  - eexists. split; [reflexivity|]. split; [apply LM|discriminate].
Qed.
Lemma p_no_colours : forall known cmap k, map_color_colormap known cmap (ByList []) (S k) = Err IndexError.
Proof. reflexivity. Qed.
Lemma p_labels : forall m columns name l s, 0 < columns -> length l = columns ->
  exists s', plot_series m columns name (Some l) s = (s', Err AttributeError) /\ s' (plot_data_path name) = Some (Array m).
Proof.
  intros m columns name l s H1 H2. unfold plot_series. rewrite bind_write. rewrite H2, Nat.eqb_refl. rewrite (proj2 (Nat.ltb_lt _ _) H1).
  eexists. split; [reflexivity|]. cbv beta. rewrite String.eqb_refl. reflexivity.
Qed.

(** ** concrete files *)
Definition one : C := (Cx 1 0)%R.
Definition d_y : mat C := mk 3 3 (fun i j => if (i =? j) then one else 0%K).
Definition d_est : mat C := mk 3 3 (fun i j => if (i =? j) then (one + one)%K else one).
Definition d_w : mat C := mk 2 3 (fun t k => if (t =? k) then one else 0%K).
(** a network "a" with results, and a network "b" without *)
Definition d_files (y est : mat C) (p : string) (lap : bool) (w : mat C) (h : list Z) : files R := fun x =>
  if String.eqb x (reference_path "a") then Some (Reference y p lap)
  else if String.eqb x (simulation_path "a") then Some (Simulation w w w w y [] 1%R h)
  else if String.eqb x (standard_path "a") then Some (Standard est est est)
  else if String.eqb x (reference_path "b") then Some (Reference est p lap)
  else if String.eqb x (simulation_path "b") then Some (Simulation w w w w est [] 1%R h)
  else None.
Lemma d_consistent_a : forall y est p lap w h n, shape y n n -> shape est n n -> 0 < n -> fits p n h w -> consistent (d_files y est p lap w h) "a" n y p lap.
Proof.
  intros y est p lap w h n HY HE Hn HF. split; [reflexivity|]. split; [assumption|]. split; [assumption|]. split.
  - do 8 eexists. split; [reflexivity|assumption].
  - split; intros c X; [|discriminate X]. injection X as <-. do 3 eexists. split; [reflexivity|]. repeat split; apply HE.
Qed.
Lemma d_consistent_b : forall y est p lap w h n, shape y n n -> shape est n n -> 0 < n -> fits p n h w -> consistent (d_files y est p lap w h) "b" n est p lap.
Proof.
  intros y est p lap w h n HY HE Hn HF. split; [reflexivity|]. split; [assumption|]. split; [assumption|]. split.
  - do 8 eexists. split; [reflexivity|assumption].
  - split; intros c X; discriminate X.
Qed.
Lemma d_shape_y : shape d_y 3 3. Proof. apply shape_mk. Qed.
Lemma d_shape_est : shape d_est 3 3. Proof. apply shape_mk. Qed.
Lemma d_fits : fits "123" 3 [1; 1; 1]%Z d_w. Proof. left. split; [right; reflexivity|]. split; reflexivity. Qed.

(** the largest error depends on what is shown *)
Lemma first_entry : forall M : mat C, shape M 3 3 -> forall Z, admittance_phase_to_sequence M = Ok Z ->
  get Z 0 0 = (sumn 3 (fun l => sumn 3 (fun k => get M k l)) * (Cx (1 / 3) 0)%R)%K.
Proof.
  intros M HM Z E. rewrite (phase_to_seq_eq 1 M HM) in E. injection E as <-. destruct HM as (_ & HR & HC).
  rewrite get_mmul by (cbn; lia). change (nc (mmul (TS 1) M)) with (nc M). rewrite HC. rewrite (sumn_three 3) by reflexivity. rewrite (sumn_three 3 (fun l => sumn 3 _)) by reflexivity.
  rewrite !get_mmul by (cbn; lia). change (nc (TS 1)) with 3. rewrite !(sumn_three 3) by reflexivity.
  unfold TS, TA. rewrite !get_mkron' by (cbn; lia). change (nr block_012) with 3. change (nc block_012) with 3. change (nr block_abc) with 3. change (nc block_abc) with 3.
  cbn [Nat.div Nat.modulo Nat.divmod fst snd Nat.sub]. rewrite !get_abc, !get_012 by lia. rewrite !get_meye by lia. unfold w3, v3.
  cbn [Nat.mul Nat.add Nat.div Nat.modulo Nat.divmod fst snd Nat.sub Nat.eqb].
  destruct (get M 0 0), (get M 0 1), (get M 0 2), (get M 1 0), (get M 1 1), (get M 1 2), (get M 2 0), (get M 2 1), (get M 2 2).
  apply cplx_eq; cbn; field.
Qed.
Lemma cabs_real : forall x, (0 <= x)%R -> cabs (Cx x 0)%R = x.
Proof. intros x H. unfold cabs. cbn. replace (x * x + 0 * 0)%R with (x * x)%R by ring. apply sqrt_square. assumption. Qed.
Lemma p_view_max : forall eigvals s, exists fs network y phases o t e s1 s2 m1 m2,
  consistent fs network 3 y phases true /\ fs (standard_path network) = Some (Standard o t e) /\
  plot_results eigvals fs network false s = (s1, Ok tt) /\ plot_results eigvals fs network true s = (s2, Ok tt) /\
  reports s1 "ols_error_metrics.txt" m1 /\ reports s2 "ols_error_metrics.txt" m2 /\ (em_max m1 < em_max m2)%R.
Proof.
  intros eigvals s. set (fs := d_files d_y d_est "123" true d_w [1; 1; 1]%Z).
  assert (CO : consistent fs "a" 3 d_y "123" true) by (apply d_consistent_a; [apply d_shape_y|apply d_shape_est|lia|apply d_fits]).
  assert (F : fs (standard_path "a") = Some (Standard d_est d_est d_est)) by reflexivity.
  assert (NB : forall q, fs (bayesian_path "a") <> None -> fs (standard_path "a") <> None /\ forall y', shows "123" q d_y y' -> exists a b, a < 3 /\ b < 3 /\ in_sparsity true y' a b)
    by (intros q X; exfalso; apply X; reflexivity).
  destruct (p_finishes eigvals fs "a" false 3 d_y "123" true s CO (NB false)) as (s1 & R1).
  destruct (p_finishes eigvals fs "a" true 3 d_y "123" true s CO (NB true)) as (s2 & R2).
  destruct (p_standard_reports eigvals fs "a" false s s1 d_y "123" true _ _ _ 3 R1 (proj1 CO) F d_shape_y d_shape_est d_shape_est d_shape_est) as (m1 & _ & _ & A1 & (_ & y1 & e1 & B1 & B2 & (i & j & Hi & Hj & B3) & _) & _).
  destruct (p_standard_reports eigvals fs "a" true s s2 d_y "123" true _ _ _ 3 R2 (proj1 CO) F d_shape_y d_shape_est d_shape_est d_shape_est) as (m2 & _ & _ & A2 & (_ & y2 & e2 & D1 & D2 & _ & D3 & _) & _).
  exists fs, "a"%string, d_y, "123"%string, d_est, d_est, d_est, s1, s2, m1, m2.
  split; [assumption|]. split; [assumption|]. split; [assumption|]. split; [assumption|]. split; [assumption|]. split; [assumption|].
  assert (M1 : em_max m1 = 1%R).
  { assert (N1 : y1 = d_y) by (destruct B1 as [(X & _)|[(_ & X & _)|(_ & _ & X)]]; [discriminate X|discriminate X|assumption]).
    assert (N2 : e1 = d_est) by (destruct B2 as [(X & _)|[(_ & X & _)|(_ & _ & X)]]; [discriminate X|discriminate X|assumption]).
    subst y1 e1. rewrite B3. change (nr d_y) with 3 in Hi. change (nc d_y) with 3 in Hj. unfold d_y, d_est. rewrite !get_mk by assumption.
    replace (_ - _)%K with (Cx (-1) 0 : C)%R.
    - unfold cabs. cbn. replace (-1 * -1 + 0 * 0)%R with 1%R by ring. apply sqrt_1.
    - destruct (i =? j); apply cplx_eq; cbn; ring. }
  assert (M2 : (3 <= em_max m2)%R).
  { assert (N1 : admittance_phase_to_sequence d_y = Ok y2) by (destruct D1 as [(X & _)|[(_ & _ & X)|(_ & X & _)]]; [discriminate X|assumption|exfalso; apply X; split; reflexivity]).
    assert (N2 : admittance_phase_to_sequence d_est = Ok e2) by (destruct D2 as [(X & _)|[(_ & _ & X)|(_ & X & _)]]; [discriminate X|assumption|exfalso; apply X; split; reflexivity]).
    destruct (to_seq_size 1 _ _ d_shape_y N1) as ((_ & S1 & S2) & _). rewrite S1, S2 in D3. specialize (D3 0 0 ltac:(lia) ltac:(lia)).
    rewrite (first_entry _ d_shape_y _ N1), (first_entry _ d_shape_est _ N2) in D3. rewrite !(sumn_three 3) in D3 by reflexivity. unfold d_y, d_est in D3. rewrite !get_mk in D3 by lia.
    cbn [Nat.eqb] in D3. replace (_ - _)%K with (Cx (-3) 0 : C)%R in D3 by (apply cplx_eq; cbn; field).
    replace (cabs (Cx (-3) 0)%R) with 3%R in D3; [assumption|]. unfold cabs. cbn. replace (-3 * -3 + 0 * 0)%R with (3 * 3)%R by ring. rewrite sqrt_square by lra. reflexivity. }
  lra.
Qed.
(** a second network, whose results are not there: the reports are the ones of the first network *)
Lemma p_stale_case : forall eigvals s, exists fs network1 network2 y1 y2 p1 p2 o t e s1 s2 m,
  consistent fs network1 3 y1 p1 true /\ consistent fs network2 3 y2 p2 true /\ y1 <> y2 /\
  fs (standard_path network1) = Some (Standard o t e) /\ fs (standard_path network2) = None /\
  plot_results eigvals fs network1 false s = (s1, Ok tt) /\ plot_results eigvals fs network2 false s1 = (s2, Ok tt) /\
  reports s2 "ols_error_metrics.txt" m /\ describes p1 false y1 o m.
Proof.
  intros eigvals s. set (fs := d_files d_y d_est "123" true d_w [1; 1; 1]%Z).
  assert (CA : consistent fs "a" 3 d_y "123" true) by (apply d_consistent_a; [apply d_shape_y|apply d_shape_est|lia|apply d_fits]).
  assert (CB : consistent fs "b" 3 d_est "123" true) by (apply d_consistent_b; [apply d_shape_y|apply d_shape_est|lia|apply d_fits]).
  assert (F : fs (standard_path "a") = Some (Standard d_est d_est d_est)) by reflexivity. assert (F' : fs (standard_path "b") = None) by reflexivity.
  destruct (p_finishes eigvals fs "a" false 3 d_y "123" true s CA) as (s1 & R1); [intro X; exfalso; apply X; reflexivity|].
  destruct (p_finishes eigvals fs "b" false 3 d_est "123" true s1 CB) as (s2 & R2); [intro X; exfalso; apply X; reflexivity|].
  destruct (p_standard_reports eigvals fs "a" false s s1 d_y "123" true _ _ _ 3 R1 (proj1 CA) F d_shape_y d_shape_est d_shape_est d_shape_est) as (m & _ & _ & A1 & A2 & _).
  exists fs, "a"%string, "b"%string, d_y, d_est, "123"%string, "123"%string, d_est, d_est, d_est, s1, s2, m.
  split; [assumption|]. split; [assumption|]. split; [intro X; apply (f_equal (fun M : mat C => re (get M 0 0))) in X; cbn in X; lra|].
  repeat (split; [assumption|]). split; [|assumption]. unfold reports in *. rewrite <- A1.
  exact (proj1 (p_stale eigvals fs "b" false s1 s2 (Ok tt) _ R2) (or_introl eq_refl) F').
Qed.

(** ** the overall errors do not depend on what is shown *)
Lemma percentage_unique : forall s d x y, percentage s d x -> percentage s d y -> x = y.
Proof.
  intros s d x y (A1 & A2) (B1 & B2). destruct (Req_EM_T s 0) as [Z|Z]; [rewrite A1, B1 by assumption; reflexivity|].
  destruct (A2 Z) as (r & -> & P1 & E1). destruct (B2 Z) as (r' & -> & P2 & E2). f_equal.
  assert ((r - r') * (r + r') = 0)%R.
  { apply (Rmult_eq_reg_r s); [|assumption]. rewrite Rmult_0_l. replace ((r - r') * (r + r') * s)%R with (r * r * s - r' * r' * s)%R by ring. lra. }
  nra.
Qed.
Lemma overall_unique : forall y est m m', overall y est m -> overall y est m' -> em_fro m = em_fro m' /\ em_rrms m = em_rrms m'.
Proof.
  intros y est m m' (A1 & A2 & A3) (B1 & B2 & B3). split; [|apply (percentage_unique _ _ _ _ A3 B3)].
  assert ((em_fro m - em_fro m') * (em_fro m + em_fro m') = 0)%R by (ring_simplify; nra). nra.
Qed.
Lemma p_view : forall eigvals fs network q q' n y p l s t s' t' path m m', consistent fs network n y p l ->
  plot_results eigvals fs network q s = (s', Ok tt) -> plot_results eigvals fs network q' t = (t', Ok tt) ->
  (In path ["ols_error_metrics.txt"; "tls_error_metrics.txt"; "lasso_error_metrics.txt"]%string /\ fs (standard_path network) <> None \/
   path = "sparse_tls_error_metrics.txt"%string /\ fs (bayesian_path network) <> None) ->
  reports s' path m -> reports t' path m' -> em_fro m = em_fro m' /\ em_rrms m = em_rrms m'.
Proof.
  intros eigvals fs network q q' n y p l s t s' t' path m m' (HR & HY & Hn & _ & HS & HB) R1 R2 D M M'.
  assert (F : forall a path, reports s' path a -> reports s' path m -> a = m) by (unfold reports; intros; congruence).
  assert (F' : forall a path, reports t' path a -> reports t' path m' -> a = m') by (unfold reports; intros; congruence).
  destruct D as [(P & N)|(P & N)].
  - destruct (fs (standard_path network)) as [c|] eqn:E; [|congruence]. destruct (HS c eq_refl) as (o & b & e & -> & H1 & H2 & H3).
    destruct (p_standard_reports _ _ _ _ _ _ _ _ _ _ _ _ _ R1 HR E HY H1 H2 H3) as (m1 & m2 & m3 & A1 & (B1 & _) & A2 & (B2 & _) & A3 & (B3 & _)).
    destruct (p_standard_reports _ _ _ _ _ _ _ _ _ _ _ _ _ R2 HR E HY H1 H2 H3) as (m1' & m2' & m3' & A1' & (B1' & _) & A2' & (B2' & _) & A3' & (B3' & _)).
    destruct P as [<-|[<-|[<-|[]]]].
    + rewrite <- (F _ _ A1 M), <- (F' _ _ A1' M'). apply (overall_unique y o); assumption.
    + rewrite <- (F _ _ A2 M), <- (F' _ _ A2' M'). apply (overall_unique y b); assumption.
    + rewrite <- (F _ _ A3 M), <- (F' _ _ A3' M'). apply (overall_unique y e); assumption.
  - subst path. destruct (fs (bayesian_path network)) as [c|] eqn:E; [|congruence]. destruct (HB c eq_refl) as (yb & its & -> & H1 & H2).
    destruct (p_bayesian_reports _ _ _ _ _ _ _ _ _ _ _ _ R1 HR E HY H1 H2) as ((m1 & A1 & (B1 & _)) & _).
    destruct (p_bayesian_reports _ _ _ _ _ _ _ _ _ _ _ _ R2 HR E HY H1 H2) as ((m1' & A1' & (B1' & _)) & _).
    rewrite <- (F _ _ A1 M), <- (F' _ _ A1' M'). apply (overall_unique y yb); assumption.
Qed.

(** ** files of one network *)
Definition c_files (std bay : option (mat C)) (y : mat C) (p : string) (lap : bool) (w : mat C) (h : list Z) : files R := fun x =>
  if String.eqb x (reference_path "a") then Some (Reference y p lap)
  else if String.eqb x (simulation_path "a") then Some (Simulation w w w w y [] 1%R h)
  else if String.eqb x (standard_path "a") then match std with Some e => Some (Standard e e e) | None => None end
  else if String.eqb x (bayesian_path "a") then match bay with Some e => Some (Bayesian e [St 0 e 0%R; St 1 e 2%R]) | None => None end
  else None.
Lemma c_consistent : forall std bay y p lap w h n, shape y n n -> (forall e, std = Some e -> shape e n n) -> (forall e, bay = Some e -> shape e n n) -> 0 < n -> fits p n h w ->
  consistent (c_files std bay y p lap w h) "a" n y p lap.
Proof.
  intros std bay y p lap w h n HY HS HB Hn HF. split; [reflexivity|]. split; [assumption|]. split; [assumption|]. split; [|split].
  - do 8 eexists. split; [reflexivity|assumption].
  - intros c X. change (c_files std bay y p lap w h (standard_path "a")) with (match std with Some e => Some (Standard e e e) | None => None end : option (content R)) in X.
    destruct std as [e|]; [|discriminate X]. injection X as <-. do 3 eexists. split; [reflexivity|]. repeat split; apply (HS e eq_refl).
  - intros c X. change (c_files std bay y p lap w h (bayesian_path "a")) with (match bay with Some e => Some (Bayesian e [St 0 e 0%R; St 1 e 2%R]) | None => None end : option (content R)) in X.
    destruct bay as [e|]; [|discriminate X]. injection X as <-. do 2 eexists. split; [reflexivity|]. split; [exact (HB e eq_refl)|].
    intros it [<-|[<-|[]]]; exact (HB e eq_refl).
Qed.
(** lines between neighbours, every pair of nodes connected, an estimate of the first *)
Definition c_chain : mat C := mk 3 3 (fun i j => if (i =? j) then (if (i =? 1) then (one + one)%K else one) else if (i + j =? 2) then 0%K else (- one)%K).
Definition c_full : mat C := mk 2 2 (fun i j => if (i =? j) then one else (- one)%K).
Definition c_est : mat C := mk 3 3 (fun i j => if (i =? j) then one else 0%K).
Definition c_est2 : mat C := mk 2 2 (fun i j => one).
Definition c_w n : mat C := mk 2 n (fun t k => if (t =? k) then one else 0%K).
Lemma c_fits : forall n, fits "1" n (repeat 1%Z n) (c_w n).
Proof.
  intro n. right. split; [split; discriminate|]. split; [apply repeat_length|]. induction n as [|n IH]; [reflexivity|]. cbn [repeat count_occ]. destruct (Z.eq_dec 1 1); [|congruence].
  f_equal. assumption.
Qed.
Lemma c_single : forall q A B, shows "1" q A B -> B = A.
Proof. intros q A B [(X & _)|[(X & _)|(_ & _ & X)]]; [discriminate X|discriminate X|assumption]. Qed.
Definition c_done := c_files (Some c_est) (Some c_est) c_chain "1" true (c_w 3) (repeat 1%Z 3).
Lemma c_done_ok : consistent c_done "a" 3 c_chain "1" true.
Proof. apply c_consistent; [apply shape_mk| | |lia|apply c_fits]; intros e X; injection X as <-; apply shape_mk. Qed.
Lemma c_done_absent : forall q y', shows "1" q c_chain y' -> exists a b, a < 3 /\ b < 3 /\ in_sparsity true y' a b.
Proof. intros q y' X. apply c_single in X. subst y'. exists 2, 0. split; [lia|]. split; [lia|]. left. split; [lia|]. split; reflexivity. Qed.
Lemma c_done_runs : forall eigvals q s, exists s', plot_results eigvals c_done "a" q s = (s', Ok tt).
Proof. intros eigvals q s. apply (p_finishes eigvals c_done "a" q 3 c_chain "1" true s c_done_ok). intros _. split; [discriminate|apply c_done_absent]. Qed.
Lemma c_full_connected : forall q y' a b, shows "1" q c_full y' -> a < 2 -> b < 2 -> ~ in_sparsity true y' a b.
Proof.
  intros q y' a b X Ha Hb. apply c_single in X. subst y'. intros [(L & (Z & _))|(L & _)]; [|discriminate L].
  assert (a = 1) by lia. assert (b = 0) by lia. subst a b. apply (f_equal re) in Z. cbn in Z. lra.
Qed.
