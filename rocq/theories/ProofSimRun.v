(** Lemmas on the runs of the time series. *)
From Coq Require Import String.
From Coq Require Import Bool Arith Lia List.
From Verif Require Import BasePy BaseFld BaseSum BaseMat ModelNet ModelScript ModelSimRun SpecSimRun.
Import ListNotations.
Close Scope string_scope.

Section Proofs.
Context {K : Type} {O : Ops K}.
Notation net := (net (K := K)).

Lemma ne_combine : forall A B (a : list A) (b : list B) k,
  nth_error (combine a b) k = match nth_error a k, nth_error b k with Some x, Some y => Some (x, y) | _, _ => None end.
Proof. induction a as [|x a IH]; intros [|y b] [|k]; cbn; try reflexivity; [destruct (nth_error a k); reflexivity|apply IH]. Qed.
Lemma ne_seq : forall n s k, k < n -> nth_error (seq s n) k = Some (s + k).
Proof. induction n as [|n IH]; intros s [|k] H; cbn; try lia; [f_equal; lia|]. rewrite IH by lia. f_equal. lia. Qed.
Lemma ne_row : forall (m : mat K) t k, k < nc m -> nth_error (table_row m t) k = Some (get m t k).
Proof. intros m t k H. unfold table_row. rewrite nth_error_map, ne_seq by exact H. reflexivity. Qed.
Lemma length_row : forall (m : mat K) t, length (table_row m t) = nc m.
Proof. intros. unfold table_row. rewrite map_length, seq_length. reflexivity. Qed.

(** *** the controllers *)
Definition own_p (n : net) (k : nat) : K := match nth_error (loads n) k with Some l => l_p l | None => 0%K end.
Definition own_q (n : net) (k : nat) : K := match nth_error (loads n) k with Some l => l_q l | None => 0%K end.
Lemma loaded_self : forall n : net, loaded n n (own_p n) (own_q n).
Proof. intro n. split; [auto 10|]. split; [reflexivity|]. intros k l E. unfold own_p, own_q. rewrite E. destruct l. reflexivity. Qed.
Definition own_ap (n : net) (i k : nat) : K := match nth_error (asyms n) k with Some a => a_p a i | None => 0%K end.
Definition own_aq (n : net) (i k : nat) : K := match nth_error (asyms n) k with Some a => a_q a i | None => 0%K end.
Lemma unbalanced_self : forall n : net, unbalanced n n (own_ap n) (own_aq n).
Proof. intro n. split; [reflexivity|]. intros k a E. exists a. unfold own_ap, own_aq. rewrite E. auto. Qed.

Lemma assign_p : forall (n m : net) P Q row R, loaded n m P Q -> length row = length (loads n) -> (forall k, k < length (loads n) -> nth_error row k = Some (R k)) ->
  loaded n (assign LoadP m row) R Q /\ asyms (assign LoadP m row) = asyms m.
Proof.
  intros n m P Q row R (HB & HL & HN) HR HV. split; [|reflexivity]. split; [exact HB|]. cbn [assign with_loads loads]. rewrite map_length, combine_length. split; [lia|].
  intros k l E. rewrite nth_error_map, ne_combine, (HN k l E), (HV k ltac:(apply nth_error_Some; congruence)). reflexivity.
Qed.
Lemma assign_q : forall (n m : net) P Q row R, loaded n m P Q -> length row = length (loads n) -> (forall k, k < length (loads n) -> nth_error row k = Some (R k)) ->
  loaded n (assign LoadQ m row) P R /\ asyms (assign LoadQ m row) = asyms m.
Proof.
  intros n m P Q row R (HB & HL & HN) HR HV. split; [|reflexivity]. split; [exact HB|]. cbn [assign with_loads loads]. rewrite map_length, combine_length. split; [lia|].
  intros k l E. rewrite nth_error_map, ne_combine, (HN k l E), (HV k ltac:(apply nth_error_Some; congruence)). reflexivity.
Qed.
Lemma assign_ap : forall (n m : net) P Q p q row i R, loaded n m p q -> unbalanced n m P Q -> length row = length (asyms n) -> (forall k, k < length (asyms n) -> nth_error row k = Some (R k)) ->
  loaded n (assign (AsymP i) m row) p q /\ unbalanced n (assign (AsymP i) m row) (fun h k => if h =? i then R k else P h k) Q.
Proof.
  intros n m P Q p q row i R HLd (HL & HN) HR HV. split; [exact HLd|]. split; [cbn [assign with_asyms asyms]; rewrite map_length, combine_length; lia|].
  intros k l E. destruct (HN k l E) as (a' & E' & I & B & HA). cbn [assign with_asyms asyms]. rewrite nth_error_map, ne_combine, E', (HV k ltac:(apply nth_error_Some; congruence)). eexists. split; [reflexivity|]. cbn. split; [exact I|]. split; [exact B|].
  intros h Hh. destruct (HA h Hh) as [H1 H2]. unfold put_at. destruct (h =? i); auto.
Qed.
Lemma assign_aq : forall (n m : net) P Q p q row i R, loaded n m p q -> unbalanced n m P Q -> length row = length (asyms n) -> (forall k, k < length (asyms n) -> nth_error row k = Some (R k)) ->
  loaded n (assign (AsymQ i) m row) p q /\ unbalanced n (assign (AsymQ i) m row) P (fun h k => if h =? i then R k else Q h k).
Proof.
  intros n m P Q p q row i R HLd (HL & HN) HR HV. split; [exact HLd|]. split; [cbn [assign with_asyms asyms]; rewrite map_length, combine_length; lia|].
  intros k l E. destruct (HN k l E) as (a' & E' & I & B & HA). cbn [assign with_asyms asyms]. rewrite nth_error_map, ne_combine, E', (HV k ltac:(apply nth_error_Some; congruence)). eexists. split; [reflexivity|]. cbn. split; [exact I|]. split; [exact B|].
  intros h Hh. destruct (HA h Hh) as [H1 H2]. unfold put_at. destruct (h =? i); auto.
Qed.
Lemma unbalanced_ext : forall (n m : net) P Q P' Q', (forall i k, i < 3 -> k < length (asyms n) -> P i k = P' i k /\ Q i k = Q' i k) -> unbalanced n m P Q -> unbalanced n m P' Q'.
Proof.
  intros n m P Q P' Q' HE (HL & HN). split; [exact HL|]. intros k a E. destruct (HN k a E) as (a' & E' & I & B & HA). exists a'. split; [exact E'|]. split; [exact I|]. split; [exact B|].
  intros i Hi. destruct (HE i k Hi ltac:(apply nth_error_Some; congruence)) as [<- <-]. apply HA, Hi.
Qed.

(** *** the time series *)
Section Series.
Context (flow : net -> res (columns (K := K))) (srcs : list (source (K := K))) (inv : net -> Prop) (at_ : nat -> net -> Prop).
Hypothesis controls : forall t m, t < steps srcs -> inv m -> exists m', for_each srcs m (control_step t) = Ok m' /\ inv m' /\ at_ t m'.

Lemma series_ok : forall r T m l, T <= steps srcs -> inv m -> (forall t m', t < T -> at_ t m' -> flow m' = Ok (r t)) ->
  exists m', for_each (range T) (m, l) (time_step flow srcs) = Ok (m', l ++ map r (range T)) /\ inv m'.
Proof.
  induction T as [|T IH]; intros m l HT HI HF; [exists m; cbn; rewrite app_nil_r; auto|].
  destruct (IH m l ltac:(lia) HI ltac:(intros; apply HF; [lia|assumption])) as (m1 & E & H1). rewrite range_S, for_each_app, E. cbn [bind for_each].
  destruct (controls T m1 ltac:(lia) H1) as (m2 & E2 & H2 & A2). unfold time_step. cbn [fst snd]. rewrite E2. cbn [bind]. rewrite (HF T m2 ltac:(lia) A2). cbn [bind].
  exists m2. rewrite map_app, app_assoc. auto.
Qed.
Lemma series_fails : forall r T e m, T < steps srcs -> inv m -> (forall t m', t < T -> at_ t m' -> flow m' = Ok (r t)) -> (forall m', at_ T m' -> flow m' = Err e) ->
  time_series flow srcs m = Err e.
Proof.
  intros r T e m HT HI HF HE. unfold time_series. replace (steps srcs) with (S T + (steps srcs - S T)) by lia. unfold range. rewrite seq_app, for_each_app.
  change (seq 0 (S T)) with (range (S T)). rewrite range_S, for_each_app. destruct (series_ok r T m [] ltac:(lia) HI HF) as (m1 & E & H1). rewrite E. cbn [bind for_each].
  destruct (controls T m1 HT H1) as (m2 & E2 & H2 & A2). unfold time_step. cbn [fst snd]. rewrite E2. cbn [bind]. rewrite (HE m2 A2). reflexivity.
Qed.
Lemma series_is : forall r m, inv m -> (forall t m', t < steps srcs -> at_ t m' -> flow m' = Ok (r t)) -> time_series flow srcs m = Ok (map r (range (steps srcs))).
Proof. intros r m HI HF. unfold time_series. destruct (series_ok r (steps srcs) m [] ltac:(lia) HI HF) as (m1 & E & _). rewrite E. reflexivity. Qed.
End Series.

(** the controllers of one phase and of three phases *)
Definition rows_ok (n : net) (p q : mat K) : Prop := nc p = length (loads n) /\ nc q = length (loads n) /\ nr q = nr p.
Definition frame1 (n m : net) : Prop := (exists P Q, loaded n m P Q) /\ asyms m = asyms n.
Lemma controls1 : forall (n : net) p q, rows_ok n p q -> sources1 n p q = Ok [(LoadP, p); (LoadQ, q)] /\
  forall t m, t < nr p -> frame1 n m -> exists m', for_each [(LoadP, p); (LoadQ, q)] m (control_step t) = Ok m' /\ frame1 n m' /\ sample p q t n m'.
Proof.
  intros n p q (Hp & Hq & Hr). split.
  { unfold sources1, add_source. cbn [size_of]. rewrite Hp, Nat.eqb_refl. cbn [bind]. rewrite Hq, Nat.eqb_refl. reflexivity. }
  intros t m Ht ((P & Q & HL) & HA). cbn [for_each]. unfold control_step. cbn [fst snd]. rewrite (proj2 (Nat.ltb_lt _ _) Ht). cbn [bind]. rewrite Hr, (proj2 (Nat.ltb_lt _ _) Ht). cbn [bind].
  destruct (assign_p n m P Q (table_row p t) (get p t) HL ltac:(rewrite length_row; exact Hp) ltac:(intros; apply ne_row; lia)) as [H1 A1].
  destruct (assign_q n _ _ Q (table_row q t) (get q t) H1 ltac:(rewrite length_row; exact Hq) ltac:(intros; apply ne_row; lia)) as [H2 A2].
  eexists. split; [reflexivity|]. split; [split; [eexists; eexists; exact H2|congruence]|]. split; [exact H2|congruence].
Qed.
Definition rows_ok3 (n : net) (p : mat K) (a : list (mat K)) : Prop := 6 <= length a /\ forall i, i < 6 -> nr (nth i a p) = nr p /\ nc (nth i a p) = length (asyms n).
Definition frame3 (n m : net) : Prop := exists P Q A B, loaded n m P Q /\ unbalanced n m A B.
Definition all3 (p q a0 a1 a2 a3 a4 a5 : mat K) : list source := [(LoadP, p); (LoadQ, q); (AsymP 0, a0); (AsymP 1, a1); (AsymP 2, a2); (AsymQ 0, a3); (AsymQ 1, a4); (AsymQ 2, a5)].
Lemma controls3 : forall (n : net) p q a, rows_ok n p q -> rows_ok3 n p a -> exists srcs, sources3 n p q (Some a) = Ok srcs /\ steps srcs = nr p /\
  forall t m, t < nr p -> frame3 n m -> exists m', for_each srcs m (control_step t) = Ok m' /\ frame3 n m' /\ sample3 p q a t n m'.
Proof.
  intros n p q a HR (H6 & HA). pose proof (controls1 n p q HR) as [E1 _]. destruct HR as (Hp & Hq & Hr).
  destruct a as [|a0 [|a1 [|a2 [|a3 [|a4 [|a5 rest]]]]]]; try (cbn in H6; lia). exists (all3 p q a0 a1 a2 a3 a4 a5).
  destruct (HA 0 ltac:(lia)) as [R0 C0]. destruct (HA 1 ltac:(lia)) as [R1 C1]. destruct (HA 2 ltac:(lia)) as [R2 C2]. destruct (HA 3 ltac:(lia)) as [R3 C3]. destruct (HA 4 ltac:(lia)) as [R4 C4]. destruct (HA 5 ltac:(lia)) as [R5 C5]. cbn [nth] in *.
  split.
  { unfold sources3. rewrite E1. cbn [bind]. change (range (length variables)) with [0; 1; 2; 3; 4; 5]. cbn [for_each nth_error nth variables]. unfold add_source. cbn [size_of].
    rewrite C0, C1, C2, C3, C4, C5, Nat.eqb_refl. cbn [bind]. reflexivity. }
  split; [reflexivity|]. intros t m Ht (P & Q & A & B & HL & HU). unfold all3. cbn [for_each]. unfold control_step. cbn [fst snd]. rewrite Hr, R0, R1, R2, R3, R4, R5, (proj2 (Nat.ltb_lt _ _) Ht). cbn [bind].
  destruct (assign_p n m P Q (table_row p t) (get p t) HL ltac:(rewrite length_row; exact Hp) ltac:(intros; apply ne_row; lia)) as [L1 A1].
  destruct (assign_q n _ _ Q (table_row q t) (get q t) L1 ltac:(rewrite length_row; exact Hq) ltac:(intros; apply ne_row; lia)) as [L2 A2].
  set (m2 := assign LoadQ _ _) in *. assert (U2 : unbalanced n m2 A B) by (unfold unbalanced; rewrite A2, A1; exact HU). clearbody m2.
  destruct (assign_ap n _ _ _ _ _ (table_row a0 t) 0 (get a0 t) L2 U2 ltac:(rewrite length_row; exact C0) ltac:(intros; apply ne_row; lia)) as [L3 U3].
  destruct (assign_ap n _ _ _ _ _ (table_row a1 t) 1 (get a1 t) L3 U3 ltac:(rewrite length_row; exact C1) ltac:(intros; apply ne_row; lia)) as [L4 U4].
  destruct (assign_ap n _ _ _ _ _ (table_row a2 t) 2 (get a2 t) L4 U4 ltac:(rewrite length_row; exact C2) ltac:(intros; apply ne_row; lia)) as [L5 U5].
  destruct (assign_aq n _ _ _ _ _ (table_row a3 t) 0 (get a3 t) L5 U5 ltac:(rewrite length_row; exact C3) ltac:(intros; apply ne_row; lia)) as [L6 U6].
  destruct (assign_aq n _ _ _ _ _ (table_row a4 t) 1 (get a4 t) L6 U6 ltac:(rewrite length_row; exact C4) ltac:(intros; apply ne_row; lia)) as [L7 U7].
  destruct (assign_aq n _ _ _ _ _ (table_row a5 t) 2 (get a5 t) L7 U7 ltac:(rewrite length_row; exact C5) ltac:(intros; apply ne_row; lia)) as [L8 U8].
  eexists. split; [reflexivity|]. split; [do 4 eexists; split; [exact L8|exact U8]|]. split; [exact L8|].
  eapply unbalanced_ext; [|exact U8]. intros i k Hi Hk. destruct i as [|[|[|i]]]; try lia; split; reflexivity.
Qed.

(** *** the files *)
Definition names (l : list (file (K := K))) : list (string * string) := map fst l.
Lemma same_name_iff : forall a b : file (K := K), same_name a b = true <-> fst a = fst b.
Proof.
  intros [[a1 a2] a3] [[b1 b2] b3]. unfold same_name. cbn. rewrite andb_true_iff, !String.eqb_eq. split; [intros [-> ->]; reflexivity|intros [= -> ->]; auto].
Qed.
Lemma put_all : forall l fs, NoDup (names l) -> fold_left put_file l fs = filter (fun g => forallb (fun f => negb (same_name f g)) l) fs ++ l.
Proof.
  induction l as [|f l IH]; intros fs ND.
  - cbn. rewrite app_nil_r. induction fs as [|g fs IH]; [reflexivity|]. cbn. rewrite <- IH. reflexivity.
  - cbn [fold_left]. inversion ND as [|x y N1 N2 E]. subst. rewrite (IH _ N2). unfold put_file. rewrite filter_app, <- app_assoc. f_equal.
    + clear. induction fs as [|g fs IH]; [reflexivity|]. cbn. destruct (same_name f g) eqn:E; cbn; [exact IH|]. destruct (forallb _ l); rewrite IH; reflexivity.
    + cbn. replace (forallb (fun f0 => negb (same_name f0 f)) l) with true; [reflexivity|]. symmetry. apply forallb_forall. intros g Hg. apply negb_true_iff. destruct (same_name g f) eqn:E; [|reflexivity].
      apply same_name_iff in E. exfalso. apply N1. rewrite <- E. apply in_map. exact Hg.
Qed.
Lemma put_own : forall l fs, NoDup (names l) -> own_files (names l) fs -> fold_left put_file l fs = l.
Proof.
  intros l fs ND HO. rewrite (put_all l fs ND). replace (filter _ fs) with (@nil (file (K := K))); [reflexivity|]. symmetry.
  induction fs as [|g fs IH]; [reflexivity|]. cbn. rewrite IH by (intros f Hf; apply HO; right; exact Hf). replace (forallb _ l) with false; [reflexivity|]. symmetry.
  apply not_true_is_false. intro H. rewrite forallb_forall in H. pose proof (HO g (or_introl eq_refl)) as G. apply in_map_iff in G. destruct G as (f & E & Hf). specialize (H f Hf). apply negb_true_iff in H. rewrite (proj2 (same_name_iff f g) E) in H. discriminate.
Qed.
Lemma names_results : forall logged (l : list (columns (K := K))), names (results_of logged l) = logged.
Proof. intros. unfold names, results_of. rewrite map_map. rewrite <- (map_id logged) at 2. apply map_ext. intros [a b]. reflexivity. Qed.
Lemma nodup1 : NoDup logged1.
Proof. unfold logged1. repeat constructor; cbn; intuition congruence. Qed.
Lemma nodup3 : NoDup logged3.
Proof. unfold logged3. cbn [map]. repeat constructor; cbn; intuition congruence. Qed.

Lemma table_rows : forall (r : nat -> columns (K := K)) T tv t, t < T -> (forall t, t < T -> length (r t (fst tv) (snd tv)) = length (r 0 (fst tv) (snd tv))) ->
  table_row (table_of (map r (range T)) tv) t = r t (fst tv) (snd tv).
Proof.
  intros r T tv t Ht HL. unfold table_of. set (rows := map (fun r => r (fst tv) (snd tv)) (map r (range T))).
  assert (HN : length rows = T) by (unfold rows; rewrite !map_length; apply length_range).
  assert (HR : forall s, s < T -> nth s rows [] = r s (fst tv) (snd tv)).
  { intros s Hs. apply nth_error_nth. unfold rows. rewrite !nth_error_map. unfold range. rewrite ne_seq by exact Hs. reflexivity. }
  unfold table_row. cbn [nc mk]. rewrite (HR 0 ltac:(lia)). apply (nth_ext _ _ 0%K 0%K); [rewrite map_length, seq_length; symmetry; apply HL; exact Ht|].
  intros j Hj. rewrite map_length, seq_length in Hj. rewrite (nth_indep _ 0%K (get (mk (length rows) (length (r 0 (fst tv) (snd tv))) (fun t0 j0 => nth j0 (nth t0 rows []) 0%K)) t 0)) by (rewrite map_length, seq_length; exact Hj).
  rewrite (map_nth (get _ t)), seq_nth by exact Hj. rewrite get_mk by lia. cbn [plus]. rewrite HR by exact Ht. reflexivity.
Qed.
Lemma holds1 : forall (r : nat -> columns (K := K)) T, steady logged1 T r -> exists res, from_dir fields1 (results_of logged1 (map r (range T))) = Ok res /\ holds logged1 T r res.
Proof.
  intros r T HS. eexists. split; [reflexivity|]. intros tb v H. pose proof (fun t Ht => table_rows r T (tb, v) t Ht (fun t Ht => HS tb v t H Ht)) as HT. cbn [fst snd] in HT.
  assert (HN : forall tv, nr (table_of (map r (range T)) tv) = T) by (intro tv; unfold table_of; cbn [nr mk]; rewrite !map_length; apply length_range).
  unfold logged1 in H. cbn [In] in H. destruct H as [[= <- <-]|[[= <- <-]|[[= <- <-]|[[= <- <-]|[[= <- <-]|[]]]]]]; eexists; (split; [reflexivity|]; split; [apply HN|exact HT]).
Qed.
Lemma holds3 : forall (r : nat -> columns (K := K)) T, steady logged3 T r -> exists res, from_dir fields3 (results_of logged3 (map r (range T))) = Ok res /\ holds logged3 T r res.
Proof.
  intros r T HS. eexists. split; [reflexivity|]. intros tb v H. pose proof (fun t Ht => table_rows r T (tb, v) t Ht (fun t Ht => HS tb v t H Ht)) as HT. cbn [fst snd] in HT.
  assert (HN : forall tv, nr (table_of (map r (range T)) tv) = T) by (intro tv; unfold table_of; cbn [nr mk]; rewrite !map_length; apply length_range).
  unfold logged3 in H. cbn [In map] in H. repeat match goal with H : _ \/ _ |- _ => destruct H as [H|H] end; try contradiction; injection H as <- <-; eexists; (split; [reflexivity|]; split; [apply HN|exact HT]).
Qed.
End Proofs.
