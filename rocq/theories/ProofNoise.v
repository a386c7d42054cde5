(** Proofs about simulated measurement noise. *)
From Coq Require Import Arith Lia List ZArith Reals Lra Bool.
From Verif Require Import BasePy BaseFld BaseSum BaseMat BaseReal ModelErrorMetrics ModelNoiseCov ModelNoise SpecNoise SpecSim
  ProofNoiseCov ProofNoiseFin ModelResample BaseOrd BaseLin.
Import ListNotations.
Local Open Scope R_scope.

Section Noise.
Context {St : Type} (gauss : St -> R * St).

Lemma draws_length : forall n s, length (fst (draws gauss n s)) = n.
Proof.
  induction n as [|n IH]; intros s; [reflexivity|]. cbn [draws]. destruct (gauss s) as [g s1]. specialize (IH s1).
  destruct (draws gauss n s1) as [l s2]. cbn in *. lia.
Qed.
Lemma negative_0 : negative 0 = false.
Proof. unfold negative. destruct (Rlt_dec 0 0); auto. lra. Qed.
Lemma negative_pos : forall x, 0 <= x -> negative x = false.
Proof. intros x H. unfold negative. destruct (Rlt_dec x 0); auto. lra. Qed.

Lemma normal_all_ok : forall sd r c s, 0 <= sd -> exists G s', normal_all gauss sd r c s = Ok (mscal sd G, s') /\ shape G r c.
Proof.
  intros sd r c s H. unfold normal_all. rewrite negative_pos by auto. destruct (draws gauss (r * c) s) as [g s'] eqn:E.
  exists (mk r c (fun i j => vget g (i * c + j))), s'. split; [|apply shape_mk]. f_equal. f_equal.
  unfold mscal, mmap. cbn [nr nc mk]. apply mk_ext. intros i j Hi Hj. rewrite get_mk by auto. runfold. ring.
Qed.
Lemma normal_columns_ok : forall l T s, (forall x, In x l -> 0 <= x) -> exists G s',
  normal_columns gauss l T s = Ok (map (fun k => mscal (vget l k) (mk T 1 (fun t _ => get G t k))) (range (length l)), s') /\ shape G T (length l).
Proof.
  induction l as [|x l IH]; intros T s H; [exists (mzeros T 0), s; split; [reflexivity|apply shape_mk]|].
  cbn [normal_columns]. destruct (normal_all_ok x T 1 s) as (G1 & s1 & E1 & H1); [apply H; left; auto|]. rewrite E1. cbn [bind].
  destruct (IH T s1) as (G2 & s2 & E2 & H2); [intros; apply H; right; auto|]. rewrite E2. cbn [bind].
  exists (mk T (S (length l)) (fun t k => match k with 0%nat => get G1 t 0 | S k' => get G2 t k' end)), s2.
  split; [|apply shape_mk]. f_equal. f_equal.
  assert (E : range (length (x :: l)) = 0%nat :: map S (range (length l))) by (unfold range; cbn; f_equal; apply eq_sym, seq_shift).
  rewrite E. cbn [map]. f_equal.
  - destruct H1 as (Hw & Hr & Hc). change (vget (x :: l) 0) with x. f_equal. apply (gshape_ext _ _ T 1); [split; auto|apply shape_mk|].
    intros t k Ht Hk. destruct k; [|lia]. rewrite !get_mk by (auto; lia). reflexivity.
  - rewrite map_map. apply map_ext_in. intros k Hk. apply in_seq in Hk. change (vget (x :: l) (S k)) with (vget l k). f_equal.
    apply mk_ext. intros t j Ht Hj. rewrite get_mk by (auto; lia). reflexivity.
Qed.

(** the noise array is the requested deviation times raw draws *)
Lemma noise_array_ok : forall sd s' T n s, asks n sd s' -> (forall i, (i < n)%nat -> 0 <= s' i) -> (0 < n)%nat -> exists G s1,
  noise_array gauss sd T n s = Ok (mk T n (fun t i => s' i * get G t i), s1) /\ shape G T n.
Proof.
  intros sd s' T n s Ha Hp Hn.
  assert (All : forall x, 0 <= x -> exists G s1, normal_all gauss x T n s = Ok (mk T n (fun t i => x * get G t i), s1) /\ shape G T n).
  { intros x Hx. destruct (normal_all_ok x T n s Hx) as (G & s1 & E & H). exists G, s1. split; auto. rewrite E. f_equal. f_equal.
    destruct H as (_ & Hr & Hc). unfold mscal, mmap. rewrite Hr, Hc. reflexivity. }
  destruct Ha as [x|x|x|l Hl Hn1]; cbn [noise_array].
  - apply All. apply (Hp 0%nat); auto.
  - apply All. apply (Hp 0%nat); auto.
  - cbn [length Nat.eqb]. apply All. apply (Hp 0%nat); auto.
  - destruct (Nat.eqb_spec (length l) 1); [lia|]. destruct (Nat.eqb_spec (length l) n); [|lia].
    destruct (normal_columns_ok l T s) as (G & s1 & E & H).
    { intros x Hx. destruct (In_nth _ _ 0 Hx) as (k & Hk & <-). apply (Hp k). lia. }
    exists G, s1. rewrite E. cbn [bind]. rewrite Hl in H. split; auto. f_equal. f_equal. apply mk_ext. intros t i Ht Hi.
    rewrite (nth_map_range _ _ (length l) i) by lia. unfold mscal, mmap. cbn [nr nc mk]. rewrite !get_mk by (auto; lia). reflexivity.
Qed.

(** what the polar noise function returns *)
Theorem p_polar_form : forall M msd psd m p s, asks (nc M) msd m -> asks (nc M) psd p -> (0 < nc M)%nat ->
  (forall i, (i < nc M)%nat -> 0 <= m i /\ 0 <= p i) ->
  exists G H out s', add_polar_noise_to_measurement gauss M msd psd s = Ok (out, s') /\
    shape G (nr M) (nc M) /\ shape H (nr M) (nc M) /\ shape out (nr M) (nc M) /\
    forall t i, (t < nr M)%nat -> (i < nc M)%nat ->
      get out t i = phasor (cabs (get M t i) * (1 + m i * get G t i)) (angle (get M t i) * (1 + p i * get H t i)).
Proof.
  intros M msd psd m p s Hm Hp Hn Hpos. unfold add_polar_noise_to_measurement.
  destruct (noise_array_ok msd m (nr M) (nc M) s Hm) as (G & s1 & E1 & H1); [intros; apply Hpos; auto|auto|]. rewrite E1. cbn [bind].
  destruct (noise_array_ok psd p (nr M) (nc M) s1 Hp) as (H & s2 & E2 & H2); [intros; apply Hpos; auto|auto|]. rewrite E2. cbn [bind].
  exists G, H. eexists. exists s2. split; [reflexivity|]. split; auto. split; auto. split; [apply shape_mk|].
  intros t i Ht Hi. rewrite !get_mk by auto. unfold polar_entry, phasor. cbv zeta.
  replace (cabs (get M t i) + m i * get G t i * cabs (get M t i)) with (cabs (get M t i) * (1 + m i * get G t i)) by ring.
  replace (angle (get M t i) + p i * get H t i * angle (get M t i)) with (angle (get M t i) * (1 + p i * get H t i)) by ring. reflexivity.
Qed.

(** an argument that asks for no noise *)
Lemma no_noise_array : forall sd T n s, no_noise n sd -> exists s', noise_array gauss sd T n s = Ok (mzeros T n, s').
Proof.
  intros sd T n s Hz.
  assert (All : exists s', normal_all gauss 0 T n s = Ok (mzeros T n, s')).
  { unfold normal_all. rewrite negative_0. destruct (draws gauss (T * n) s) as [g s']. exists s'. f_equal. f_equal.
    unfold mzeros. apply mk_ext. intros. runfold. ring. }
  destruct Hz as [-> | [-> | [-> | [-> Hn]]]]; auto.
  destruct (Nat.eq_dec n 1) as [-> | Hn1]; [auto|].
  destruct (noise_array_ok (SdArray (repeat 0 n)) (vget (repeat 0 n)) T n s) as (G & s1 & E & _); auto.
  - constructor; [apply repeat_length|lia].
  - intros i Hi. unfold vget. rewrite nth_repeat. apply Rle_refl.
  - exists s1. rewrite E. f_equal. f_equal. unfold mzeros. apply mk_ext. intros t i Ht Hi. unfold vget. rewrite nth_repeat. runfold. ring.
Qed.
Lemma polar_entry_0 : forall z, polar_entry z 0 0 = z.
Proof.
  intros z. unfold polar_entry. destruct (polar_angle z) as [H1 H2]. rewrite !Rmult_0_l, !Rplus_0_r, <- H1, <- H2. destruct z; reflexivity.
Qed.
Theorem p_zero_polar : forall M msd psd s, wf M -> no_noise (nc M) msd -> no_noise (nc M) psd ->
  exists s', add_polar_noise_to_measurement gauss M msd psd s = Ok (M, s').
Proof.
  intros M msd psd s Hw Hm Hp. unfold add_polar_noise_to_measurement.
  destruct (no_noise_array msd (nr M) (nc M) s Hm) as (s1 & E1). rewrite E1. cbn [bind].
  destruct (no_noise_array psd (nr M) (nc M) s1 Hp) as (s2 & E2). rewrite E2. cbn [bind]. exists s2. f_equal. f_equal.
  apply (gshape_ext _ _ (nr M) (nc M)); [apply shape_mk|split; auto|]. intros t i Ht Hi. rewrite get_mk by auto.
  unfold mzeros. rewrite !get_mk by auto. apply polar_entry_0.
Qed.
Theorem p_zero_polar_pair : forall I V msd psd s, wf I -> wf V ->
  no_noise (nc I) msd -> no_noise (nc I) psd -> no_noise (nc V) msd -> no_noise (nc V) psd ->
  exists s', add_noise_in_polar_coordinates gauss I V msd psd s = Ok (V, I, s').
Proof.
  intros I V msd psd s HI HV H1 H2 H3 H4. unfold add_noise_in_polar_coordinates.
  destruct (p_zero_polar V msd psd s) as (s1 & E1); auto. rewrite E1. cbn [bind].
  destruct (p_zero_polar I msd psd s1) as (s2 & E2); auto. rewrite E2. cbn [bind]. eauto.
Qed.
Theorem p_zero_vector : forall v s, exists s', add_polar_noise_to_vector gauss v (SdFloat 0) (SdFloat 0) s = Ok (v, s').
Proof.
  intros v s. unfold add_polar_noise_to_vector. cbn [scalar_like bind].
  destruct (no_noise_array (SdFloat 0) (length v) 1 s) as (s1 & E1); [left; auto|]. rewrite E1. cbn [bind scalar_like].
  destruct (no_noise_array (SdFloat 0) (length v) 1 s1) as (s2 & E2); [left; auto|]. rewrite E2. cbn [bind]. exists s2. f_equal. f_equal.
  apply vec_ext; [apply length_mkv|]. intros t Ht. rewrite length_mkv in Ht. rewrite vget_mkv by auto. unfold mzeros. rewrite !get_mk by (auto; lia). apply polar_entry_0.
Qed.

Lemma normal_row_ok : forall sd r c s, (forall x, In x sd -> 0 <= x) -> exists G s',
  normal_row gauss sd r c s = Ok (mk r c (fun i j => vget sd j * get G i j), s') /\ shape G r c.
Proof.
  intros sd r c s H. unfold normal_row.
  assert (E : existsb negative sd = false).
  { clear - H. induction sd as [|x l IH]; auto. cbn. rewrite negative_pos by (apply H; left; auto). apply IH. intros; apply H; right; auto. }
  rewrite E. destruct (draws gauss (r * c) s) as [g s'] eqn:Eg.
  exists (mk r c (fun i j => vget g (i * c + j))), s'. split; [|apply shape_mk]. f_equal. f_equal. apply mk_ext. intros i j Hi Hj. rewrite get_mk by auto. ring.
Qed.

(** the mean absolute value of the parts of a column *)
Lemma mean_abs_nonneg : forall part M i, 0 <= mean_abs part M i.
Proof.
  intros part M i. unfold mean_abs. assert (0 <= sumn (nr M) (fun t => Rabs (part (get M t i)))).
  { apply sumR_nonneg. intros. apply Rabs_pos. }
  destruct (Nat.eq_dec (nr M) 0) as [E|E].
  - rewrite E. cbn. runfold. unfold Rdiv. rewrite Rmult_0_l. apply Rle_refl.
  - apply Rmult_le_pos; auto. apply Rlt_le, Rinv_0_lt_compat. apply lt_0_INR. lia.
Qed.

Theorem p_cartesian_form : forall M a b s, 0 <= a -> 0 <= b -> exists G H out rsd isd s',
  add_cartesian_noise_to_measurement gauss M a b s = Ok (out, rsd, isd, s') /\
  shape G (nr M) (nc M) /\ shape H (nr M) (nc M) /\ shape out (nr M) (nc M) /\ length rsd = nc M /\ length isd = nc M /\
  (forall i, (i < nc M)%nat -> vget rsd i = mean_abs re M i * a / 3 /\ vget isd i = mean_abs im M i * b / 3) /\
  forall t i, (t < nr M)%nat -> (i < nc M)%nat ->
    re (get out t i) = re (get M t i) + vget rsd i * get G t i /\ im (get out t i) = im (get M t i) + vget isd i * get H t i.
Proof.
  intros M a b s Ha Hb. unfold add_cartesian_noise_to_measurement.
  set (rsd := mkv (nc M) (fun i => sumn (nr M) (fun t => Rabs (re (get M t i))) / INR (nr M) * a / 3)).
  set (isd := mkv (nc M) (fun i => sumn (nr M) (fun t => Rabs (im (get M t i))) / INR (nr M) * b / 3)).
  assert (Hp : forall part acc x, 0 <= acc -> In x (mkv (nc M) (fun i => sumn (nr M) (fun t => Rabs (part (get M t i))) / INR (nr M) * acc / 3)) -> 0 <= x).
  { intros part acc x Hacc Hx. apply in_map_iff in Hx. destruct Hx as (i & <- & _). pose proof (mean_abs_nonneg part M i) as Hm. unfold mean_abs in Hm.
    apply Rmult_le_pos; [apply Rmult_le_pos; auto|lra]. }
  destruct (normal_row_ok rsd (nr M) (nc M) s) as (G & s1 & E1 & H1); [intros x Hx; exact (Hp re a x Ha Hx)|]. rewrite E1. cbn [bind].
  destruct (normal_row_ok isd (nr M) (nc M) s1) as (H & s2 & E2 & H2); [intros x Hx; exact (Hp im b x Hb Hx)|]. rewrite E2. cbn [bind].
  exists G, H. do 4 eexists. split; [reflexivity|]. split; auto. split; auto. split; [apply shape_mk|].
  split; [apply length_mkv|]. split; [apply length_mkv|]. split.
  - intros i Hi. unfold rsd, isd, mean_abs. rewrite !vget_mkv by auto. auto.
  - intros t i Ht Hi. rewrite !get_mk by auto. destruct (get M t i) as [x y]. cbn [re im cadd cmul]. runfold. split; ring.
Qed.

Theorem p_polar_pair : forall I V msd psd m p s, asks (nc I) msd m -> asks (nc I) psd p -> (0 < nc I)%nat -> nc V = nc I ->
  (forall i, (i < nc I)%nat -> 0 <= m i /\ 0 <= p i) ->
  exists V' I' s', add_noise_in_polar_coordinates gauss I V msd psd s = Ok (V', I', s') /\ polar_noise_form m p V V' /\ polar_noise_form m p I I'.
Proof.
  intros I V msd psd m p s Hm Hp Hn E Hpos. unfold add_noise_in_polar_coordinates.
  destruct (p_polar_form V msd psd m p s) as (G & H & V' & s1 & E1 & HG & HH & HV & Hv); try (rewrite E; auto). rewrite E1. cbn [bind].
  destruct (p_polar_form I msd psd m p s1) as (G2 & H2 & I' & s2 & E2 & HG2 & HH2 & HI & Hi); auto. rewrite E2. cbn [bind].
  exists V', I', s2. split; [reflexivity|]. split; (split; [assumption|]); [exists G, H|exists G2, H2]; auto.
Qed.

Theorem p_cartesian_pair : forall I V ci cv s, 0 <= ci -> 0 <= cv -> exists V' I' s',
  add_noise_in_cartesian_coordinates gauss I V ci cv s = Ok (V', I', s') /\ cartesian_noise cv V V' /\ cartesian_noise ci I I'.
Proof.
  intros I V ci cv s Hi Hv. unfold add_noise_in_cartesian_coordinates.
  destruct (p_cartesian_form V cv cv s Hv Hv) as (G & H & V' & r1 & i1 & s1 & E1 & HG & HH & HV & L1 & L2 & Hsd & Hval). rewrite E1. cbn [bind].
  destruct (p_cartesian_form I ci ci s1 Hi Hi) as (G2 & H2 & I' & r2 & i2 & s2 & E2 & HG2 & HH2 & HI & L12 & L22 & Hsd2 & Hval2). rewrite E2. cbn [bind].
  exists V', I', s2. split; [reflexivity|]. split; (split; [assumption|]).
  - exists G, H. split; [auto|]. split; [auto|]. intros t i Ht Hi'. destruct (Hsd i Hi') as [<- <-]. auto.
  - exists G2, H2. split; [auto|]. split; [auto|]. intros t i Ht Hi'. destruct (Hsd2 i Hi') as [<- <-]. auto.
Qed.

Theorem p_zero_cartesian : forall M s, wf M -> exists s',
  add_cartesian_noise_to_measurement gauss M 0 0 s = Ok (M, vzeros (nc M), vzeros (nc M), s').
Proof.
  intros M s Hw. destruct (p_cartesian_form M 0 0 s (Rle_refl 0) (Rle_refl 0)) as (G & H & out & rsd & isd & s' & E & _ & _ & Hs & L1 & L2 & Hsd & Hv).
  assert (Er : rsd = vzeros (nc M)).
  { apply vec_ext; [rewrite length_vzeros; auto|]. intros i Hi. rewrite L1 in Hi. rewrite (proj1 (Hsd i Hi)), vget_vzeros. runfold. lra. }
  assert (Ei : isd = vzeros (nc M)).
  { apply vec_ext; [rewrite length_vzeros; auto|]. intros i Hi. rewrite L2 in Hi. rewrite (proj2 (Hsd i Hi)), vget_vzeros. runfold. lra. }
  exists s'. rewrite E. subst rsd isd. f_equal. f_equal. f_equal. f_equal.
  apply (gshape_ext _ _ (nr M) (nc M) Hs); [split; auto|]. intros t i Ht Hi. destruct (Hv t i Ht Hi) as [A B].
  rewrite !vget_vzeros in A, B. revert A B. runfold. rewrite !Rmult_0_l, !Rplus_0_r. destruct (get out t i), (get M t i). cbn. congruence.
Qed.
Theorem p_zero_cartesian_pair : forall I V s, wf I -> wf V ->
  exists s', add_noise_in_cartesian_coordinates gauss I V 0 0 s = Ok (V, I, s').
Proof.
  intros I V s HI HV. unfold add_noise_in_cartesian_coordinates.
  destruct (p_zero_cartesian V s HV) as (s1 & E1). rewrite E1. cbn [bind].
  destruct (p_zero_cartesian I s1 HI) as (s2 & E2). rewrite E2. cbn [bind]. eauto.
Qed.

(** zero noise inside the resampler *)
Theorem p_zero_resample : forall (M : mat C) old new f s,
  (exists out, (forall s : St, filter_and_resample_measurement (D := sdarg) M old new f None None None s = Ok (out, s)) /\
     exists s', filter_and_resample_measurement M old new f (Some (StdScalar (SdFloat 0))) (Some (StdScalar (SdFloat 0)))
       (Some (add_polar_noise_to_vector gauss)) s = Ok (out, s')) \/
  exists e, forall s s' : St, filter_and_resample_measurement (D := sdarg) M old new f None None None s' = Err e /\
     filter_and_resample_measurement M old new f (Some (StdScalar (SdFloat 0))) (Some (StdScalar (SdFloat 0)))
       (Some (add_polar_noise_to_vector gauss)) s = Err e.
Proof.
  intros M old new f s. unfold filter_and_resample_measurement. destruct new as [new|]; [|right; eexists; intros; split; reflexivity].
  destruct (Nat.eqb_spec f 0); [right; eexists; intros; split; reflexivity|].
  set (od := match old with Some l => l | None => _ end). clearbody od.
  set (st := (length new / f)%nat).
  assert (G : (exists l, (forall s : St, resample_columns M od new st f (D := sdarg) None None None (range (nc M)) s = Ok (l, s)) /\
     forall s, exists s', resample_columns M od new st f (Some (add_polar_noise_to_vector gauss)) (Some (StdScalar (SdFloat 0))) (Some (StdScalar (SdFloat 0))) (range (nc M)) s = Ok (l, s')) \/
    exists e, forall s s' : St, resample_columns M od new st f (D := sdarg) None None None (range (nc M)) s' = Err e /\
     resample_columns M od new st f (Some (add_polar_noise_to_vector gauss)) (Some (StdScalar (SdFloat 0))) (Some (StdScalar (SdFloat 0))) (range (nc M)) s = Err e).
  { clear s. induction (range (nc M)) as [|i r IH].
    - left. exists []. split; intros; [reflexivity|eexists; reflexivity].
    - cbn [resample_columns]. destruct (interp1d od (mcol M i) new) as [tmp|e]; cbn [bind]; [|right; exists e; intros; split; reflexivity].
      cbn [add_noise bind std_at]. destruct IH as [(l & IH1 & IH2)|(e & IH)].
      + left. eexists. split.
        * intros s. rewrite IH1. cbn [bind]. reflexivity.
        * intros s. destruct (p_zero_vector tmp s) as (s1 & E1). rewrite E1. cbn [bind]. destruct (IH2 s1) as (s2 & E2). rewrite E2. cbn [bind]. eexists; reflexivity.
      + right. exists e. intros s s'. destruct (p_zero_vector tmp s) as (s1 & E1). rewrite E1. cbn [bind].
        destruct (IH s1 s') as [H1 H2]. rewrite H1, H2. split; reflexivity. }
  destruct G as [(l & H1 & H2)|(e & H)].
  - left. eexists. split; [intros s'; rewrite H1; cbn [bind]; reflexivity|]. destruct (H2 s) as (s' & E). exists s'. rewrite E. reflexivity.
  - right. exists e. intros s1 s2. destruct (H s1 s2) as [A B]. rewrite A, B. split; reflexivity.
Qed.

(** a positive real phasor keeps its phase *)
Lemma angle_pos : forall a, 0 < a -> angle (Cx a 0) = 0.
Proof. intros a H. unfold angle. cbn. destruct (Rlt_dec 0 a); [|lra]. unfold Rdiv. rewrite Rmult_0_l. apply atan_0. Qed.
Theorem p_positive_keeps_phase : forall M msd psd out s s', add_polar_noise_to_measurement gauss M msd psd s = Ok (out, s') ->
  forall t i, (t < nr M)%nat -> (i < nc M)%nat -> 0 < re (get M t i) -> im (get M t i) = 0 -> im (get out t i) = 0.
Proof.
  intros M msd psd out s s' E t i Ht Hi Hr Him. unfold add_polar_noise_to_measurement in E.
  apply bind_ok in E. destruct E as ([G s1] & _ & E). apply bind_ok in E. destruct E as ([H s2] & _ & E). injection E as <- _.
  rewrite get_mk by auto. destruct (get M t i) as [a b]. cbn in Hr, Him. subst b. unfold polar_entry. cbn [im]. rewrite angle_pos by auto.
  rewrite Rmult_0_r, Rplus_0_r, sin_0. ring.
Qed.

Theorem p_int_refused : forall M z sd s, add_polar_noise_to_measurement gauss M (SdInt z) sd s = Err AttributeError.
Proof. reflexivity. Qed.
End Noise.

Lemma pos_def_diag : forall n Q k, pos_def n Q -> shape Q n n -> (k < n)%nat -> 0 < get Q k k.
Proof.
  intros n Q k H (Hw & Hr & Hc) Hk. specialize (H (mkv n (fun i => if Nat.eqb i k then 1 else 0)) ltac:(apply length_mkv)).
  assert (E : quad Q (mkv n (fun i => if Nat.eqb i k then 1 else 0)) = get Q k k).
  { unfold quad, vdot. rewrite length_mkv. rewrite (sumn_single n k); auto.
    - rewrite vget_mkv, Nat.eqb_refl by auto. rewrite vget_mvmul by lia. rewrite (sumn_single (nc Q) k); [|lia|].
      + rewrite vget_mkv, Nat.eqb_refl by auto. runfold. ring.
      + intros i Hi Hne. rewrite vget_mkv by lia. destruct (Nat.eqb_spec i k); [congruence|]. runfold. ring.
    - intros i Hi Hne. rewrite vget_mkv by lia. destruct (Nat.eqb_spec i k); [congruence|]. runfold. ring. }
  rewrite E in H. apply H. intro Hz. assert (G : vget (mkv n (fun i => if Nat.eqb i k then 1 else 0)) k = 0) by (rewrite Hz; exact (vget_vzeros n k)).
  rewrite vget_mkv, Nat.eqb_refl in G by auto. lra.
Qed.

Lemma variants_kernel_shape : forall f M sd sp s S' Q, In f variants -> sd_means (nc M) sd s -> f M sd sp false = Ok S' -> finite S' Q ->
  nr Q = (2 * (nr M * nc M))%nat /\ nc Q = (2 * (nr M * nc M))%nat.
Proof.
  intros f M sd sp s S' Q Hf Hs E [_ HQ]. destruct (variants_kernel f Hf) as (k & (all & -> & HK & _) & _).
  destruct (covariance_stacked k all M sd sp s HK Hs) as (S1 & Q1 & E1 & [_ F1] & ((_ & Hr & Hc) & _)).
  rewrite E in E1. injection E1 as E1. rewrite F1, HQ in E1.
  pose proof (f_equal nr E1) as A. pose proof (f_equal nc E1) as B. cbn [nr nc mmap mk] in A, B. lia.
Qed.

(** the imaginary part of positive real phasors is never disturbed, yet the covariances say it is *)
Theorem p_mismatch : forall f M sd sp s, In f variants -> sd_means (nc M) sd s ->
  (forall t i, (t < nr M)%nat -> (i < nc M)%nat -> 0 < re (get M t i) /\ im (get M t i) = 0) ->
  (forall i, (i < nc M)%nat -> s i <> 0) -> sp <> 0 ->
  (forall St (gauss : St -> R * St) st out st', add_polar_noise_to_measurement gauss M sd (SdFloat sp) st = Ok (out, st') ->
     forall t i, (t < nr M)%nat -> (i < nc M)%nat -> im (get out t i) = im (get M t i)) /\
  exists S Q, f M sd sp false = Ok S /\ finite S Q /\
    forall k, (nr M * nc M <= k)%nat -> (k < 2 * (nr M * nc M))%nat -> 0 < get Q k k.
Proof.
  intros f M sd sp s Hf Hsd HM Hs Hsp. split.
  - intros St gauss st out st' E t i Ht Hi. destruct (HM t i Ht Hi) as [H1 H2]. rewrite H2. eapply p_positive_keeps_phase; eauto.
  - destruct (variants_psd f M sd sp s Hf Hsd) as (S' & Q & E & Hfin & _ & _ & _ & Hpd). exists S', Q. split; auto. split; auto.
    intros k _ Hk. assert (Hshape : shape Q (2 * (nr M * nc M)) (2 * (nr M * nc M))).
    { destruct (variants_kernel_shape f M sd sp s S' Q Hf Hsd E Hfin) as [A B]. split; [apply Hfin|auto]. }
    apply (pos_def_diag (2 * (nr M * nc M))); auto. apply Hpd; auto. intros t i Ht Hi. destruct (HM t i Ht Hi) as [H1 H2]. split; auto.
    intro E0. rewrite E0 in H1. cbn in H1. revert H1. runfold. lra.
Qed.
