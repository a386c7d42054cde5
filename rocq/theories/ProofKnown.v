(** Priors from known lines. *)
From Coq Require Import String Ascii.
From Coq Require Import Bool Arith List ZArith Lia Ring Field.
From Verif Require Import BasePy BaseFld BaseOrd BaseSum BaseMat BaseNumpy BaseLin ModelMatrixOps SpecMatrix ModelPrior ModelFit
  ModelIdent SpecPrior SpecIdent ProofRagged ProofMatrixOps ProofStruct ProofElim ProofMatrixProps ProofFitBase ProofFitRep ProofPrior
  ProofIdent ProofPenalty ProofIdentMain ProofIdentThm.
Import ListNotations.
Close Scope string_scope.
Local Open Scope K_scope.

(** ** strings *)
Lemma substring_of_substring : forall s m n k l, (k + l <= n)%nat -> substring k l (substring m n s) = substring (m + k) l s.
Proof.
  induction s as [|c s IH]; intros m n k l H.
  - destruct m, n, k, l; reflexivity.
  - destruct m as [|m]; simpl plus.
    + destruct n as [|n].
      * assert (k = 0)%nat by lia. assert (l = 0)%nat by lia. subst. destruct s; reflexivity.
      * destruct k as [|k].
        -- destruct l as [|l]; [reflexivity|]. cbn [substring]. f_equal. apply (IH 0%nat n 0%nat l). lia.
        -- cbn [substring]. apply (IH 0%nat n k l). lia.
    + cbn [substring]. apply (IH m n k l). assumption.
Qed.
Lemma index0_shorter : forall sub s m, substring m (String.length sub) s = sub -> contains sub s = true.
Proof.
  intros sub s m H. unfold contains. destruct (index 0 sub s) as [j|] eqn:E; [reflexivity|].
  destruct sub as [|c sub].
  - destruct s; discriminate.
  - exfalso. apply (index_correct3 0 m (String c sub) s); try assumption; [discriminate|lia].
Qed.
Lemma contains_substring : forall sub s, contains sub s = true -> exists m, substring m (String.length sub) s = sub.
Proof.
  intros sub s H. unfold contains in H. destruct (index 0 sub s) as [m|] eqn:E; [|discriminate]. exists m.
  apply (index_correct1 0 m sub s E).
Qed.
Lemma suboptimal_contains_optimal : forall s, contains "suboptimal" s = true -> contains "optimal" s = true.
Proof.
  intros s H. destruct (contains_substring _ _ H) as (m & Hm). apply (index0_shorter _ _ (m + 3)).
  change (String.length "optimal") with 7%nat. change (String.length "suboptimal") with 10%nat in Hm.
  rewrite <- (substring_of_substring s m 10 3 7) by lia. rewrite Hm. reflexivity.
Qed.

Section Known.
Context {K : Type} {O : Ops K} {F : Fld K} {O2 : OrdOps K} {OF : OrdFld K}.
Notation CK := (cplx K).
Add Field Kfld : (@k_field K O F).

(** ** rows added to any prior *)
Lemma penalty_value : forall p n x c, well_formed (dense p) n -> length x = n -> n <> 1%nat -> penalty_at p x c ->
  c = sumn (length (bmu (base (dense p)))) (wt (dense p) x).
Proof.
  intros p n x c W Hx Hn (A & b & E). destruct (Nat.eq_dec (length (bmu (base (dense p)))) 1) as [H1|H1].
  - destruct (sp_log_one_row p x H1) as (e & Ee). congruence.
  - rewrite p_sparse_log in E by assumption. destruct (p_log_value (dense p) n x W Hx Hn) as (A2 & b2 & E2 & _). congruence.
Qed.
Lemma exact_any : forall p n idx (v : list K) lam, is_sparse p = true -> well_formed (dense p) n -> n <> 1%nat ->
  Forall (fun k => (k < n)%nat) idx -> length v = length idx ->
  exists q, added p (AddExact (map Z.of_nat idx) v (AScalar lam) (AScalar LAPLACE)) = Ok q /\
    is_sparse q = true /\ well_formed (dense q) n /\
    forall x c, length x = n -> penalty_at p x c -> (length (bmu (base (dense p))) + length idx <> 1)%nat ->
      penalty_at q x (c + sumn (length idx) (fun i => cost (alpha (dense p)) (lam * (vget x (nth i idx 0%nat) - vget v i)))).
Proof.
  intros p n idx v lam Hs W Hn Hi Hl.
  set (a := AddExact (map Z.of_nat idx) v (AScalar lam) (AScalar LAPLACE)).
  assert (Hb : balanced a) by (cbn; rewrite !map_length; auto).
  destruct (p_base_add (dense p) a n W Hb (bounds_nat _ _ Hi) I) as (q & Eq & Hq & Hres).
  destruct (p_add_wf _ _ _ _ W Hb Eq) as (Wq & (Hle & Hext) & Haq & Hlen).
  assert (Hrows : rows_of a = length idx) by (cbn; apply map_length). rewrite Hrows in *.
  exists (mkSSP q true). unfold added, via_dense. rewrite Hs, Eq. split; [reflexivity|]. split; [reflexivity|]. split; [exact Wq|].
  intros x c Hx Hc Hm. apply (penalty_value p n x c W Hx Hn) in Hc. subst c.
  destruct (p_log_value q n x Wq Hx Hn) as (A2 & b2 & E2 & _). exists A2, b2. rewrite p_sparse_log by (cbn [dense]; rewrite Hlen; assumption).
  cbn [dense]. rewrite E2. f_equal. f_equal. rewrite Hlen, sumn_plus. f_equal; apply sumn_ext; intros i Hi2.
  - unfold wt, residual. destruct (Hext i Hi2) as (H1 & H2 & H3). rewrite H2, H3, Haq. f_equal. f_equal. f_equal. f_equal. apply sumn_ext. intros k Hk.
    rewrite H1; [reflexivity|]. destruct W as (-> & _). lia.
  - unfold wt. rewrite Hq by assumption. cbn [a order_of arg_at LAPLACE]. unfold cost. rewrite Haq.
    rewrite (Hres x i Hx Hi2). cbn [a documented arg_at]. rewrite nth_map_nat, sel_nat by assumption.
    unfold LAPLACE. cbn [Nat.sub kpow]. f_equal. ring.
Qed.

(** ** the matrices of known lines *)
Definition mks (n : nat) (f : nat -> nat -> CK) : mat CK := mk n n f.
Lemma set_cross_mk : forall n f i x, (i < n)%nat ->
  set_cross (mks n f) i x = Ok (mks n (fun a b => if (a =? i)%nat || (b =? i)%nat then x else f a b)).
Proof.
  intros n f i x Hi. unfold set_cross. cbn [nr nc mks mk]. destruct (Nat.ltb_spec i n); [|lia]. cbn [andb]. f_equal.
  apply mk_ext. intros a b Ha Hb. destruct ((a =? i)%nat || (b =? i)%nat); [reflexivity|]. unfold mks. rewrite get_mk by assumption. reflexivity.
Qed.
Lemma set_entry_mk : forall n f i j x, (i < n)%nat -> (j < n)%nat ->
  set_entry (mks n f) i j x = Ok (mks n (fun a b => if (a =? i)%nat && (b =? j)%nat then x else f a b)).
Proof.
  intros n f i j x Hi Hj. unfold set_entry. rewrite (set_at_ok (mks n f) i (Z.of_nat j) x n n (shape_mk n n f) Hi) by (unfold in_bounds; lia).
  rewrite pos_nat. f_equal. unfold mset. cbn [nr nc mks mk]. apply mk_ext. intros a b Ha Hb.
  unfold mks. rewrite get_mk by assumption. reflexivity.
Qed.
Lemma copy_line_mk : forall n (Y : mat CK) f i j, shape Y n n -> (i < n)%nat -> (j < n)%nat -> i <> j ->
  copy_line Y (mks n f) i j = Ok (mks n (fun a b => if (a =? j)%nat && (b =? i)%nat || (a =? i)%nat && (b =? j)%nat then get Y a b else f a b)).
Proof.
  intros n Y f i j (W & Hr & Hc) Hi Hj Hne. unfold copy_line, at_entry. rewrite Hr, Hc.
  destruct (Nat.ltb_spec i n); [|lia]. destruct (Nat.ltb_spec j n); [|lia]. cbn [andb bind].
  rewrite set_entry_mk by assumption. cbn [bind]. rewrite set_entry_mk by assumption. f_equal. apply mk_ext. intros a b Ha Hb.
  destruct (Nat.eqb_spec a j), (Nat.eqb_spec b i), (Nat.eqb_spec a i), (Nat.eqb_spec b j); subst; try reflexivity; try lia; contradiction.
Qed.
Definition line_weights (nodes : list nat) (n : nat) : mat CK :=
  mks n (fun a b => if touches nodes a b && negb (a =? b)%nat then Cx 1 1 else 0).
Definition line_centers (lines : list (nat * nat)) (n : nat) (Y : mat CK) : mat CK :=
  mks n (fun a b => if listed lines a b then get Y a b else 0).

Lemma mzeros_mks : forall n, mzeros n n = mks n (fun _ _ => 0).
Proof. reflexivity. Qed.
Lemma optimal_lines_ok : forall n (Y : mat CK), shape Y n n -> (29 <= n)%nat ->
  optimal_lines Y = Ok (line_weights opt_nodes n, line_centers opt_lines n Y).
Proof.
  intros n Y HY Hn. unfold optimal_lines. destruct HY as (W & Hr & Hc). rewrite Hr, Hc, mzeros_mks.
  assert (HY : shape Y n n) by (repeat split; try apply W; assumption).
  repeat (first [rewrite set_cross_mk by lia | rewrite set_entry_mk by lia | rewrite copy_line_mk by (lia || assumption || discriminate)]; cbn [bind]).
  unfold line_weights, line_centers, mks. f_equal. f_equal.
  - apply mk_ext. intros a b Ha Hb. unfold touches, opt_nodes. cbn [existsb].
    repeat match goal with |- context [Nat.eqb ?x ?y] => destruct (Nat.eqb_spec x y); try (exfalso; lia) end; reflexivity.
  - apply mk_ext. intros a b Ha Hb. unfold listed, opt_lines. cbn [existsb fst snd].
    repeat match goal with |- context [Nat.eqb ?x ?y] => destruct (Nat.eqb_spec x y); try (exfalso; lia); cbn [andb orb] end; reflexivity.
Qed.

Lemma touches_sym : forall nodes a b, touches nodes a b = touches nodes b a.
Proof. intros. apply orb_comm. Qed.
Lemma listed_sym : forall lines a b, listed lines a b = listed lines b a.
Proof.
  intros lines a b. unfold listed. induction lines as [|l r IH]; [reflexivity|]. cbn [existsb]. rewrite IH. f_equal. apply orb_comm.
Qed.
Lemma weights_sym : forall nodes n, symmetric n (line_weights nodes n).
Proof.
  intros nodes n. split; [apply shape_mk|]. intros a b Ha Hb. unfold line_weights, mks. rewrite !get_mk by assumption.
  rewrite touches_sym, Nat.eqb_sym. reflexivity.
Qed.
Lemma centers_value : forall lines n (Y : mat CK) a b, (a < n)%nat -> (b < n)%nat ->
  get (sym_part n (line_centers lines n Y)) a b = known_value lines n Y a b.
Proof.
  intros lines n Y a b Ha Hb. unfold known_value. rewrite !get_sym_part by assumption. unfold line_centers, mks. rewrite !get_mk by assumption.
  rewrite (listed_sym lines b a). destruct (listed lines a b); [reflexivity|].
  rewrite kdiv_def. replace ((0 : CK) + 0) with (0 : CK) by (apply cplx_eq; cbn; ring). apply cplx_eq; cbn; ring.
Qed.
Definition real_weights (nodes : list nat) (n : nat) : mat K := mk n n (fun a b => if touches nodes a b && negb (a =? b)%nat then 1 else 0).
Lemma re_weights : forall nodes n, mmap re (line_weights nodes n) = real_weights nodes n.
Proof.
  intros nodes n. apply (gshape_ext _ _ n n); [apply shape_mmap; apply shape_mk|apply shape_mk|]. intros i j Hi Hj.
  rewrite get_mmap_re by (try apply wf_mk; assumption). unfold line_weights, mks, real_weights. rewrite !get_mk by assumption.
  destruct (touches nodes i j && negb (i =? j)%nat); reflexivity.
Qed.
Lemma im_weights : forall nodes n, mmap im (line_weights nodes n) = real_weights nodes n.
Proof.
  intros nodes n. apply (gshape_ext _ _ n n); [apply shape_mmap; apply shape_mk|apply shape_mk|]. intros i j Hi Hj.
  rewrite get_mmap_im by (try apply wf_mk; assumption). unfold line_weights, mks, real_weights. rewrite !get_mk by assumption.
  destruct (touches nodes i j && negb (i =? j)%nat); reflexivity.
Qed.
Lemma mask_weights : forall lap nodes n, is_mask lap n (map kabs (pv lap (real_weights nodes n))) (fun a b => touches nodes a b && negb (a =? b)%nat).
Proof.
  intros lap nodes n. apply (mask_of lap n _ _ (fun x => negb (x =? 0))); [reflexivity| |].
  - intros x. rewrite kltb_abs, psign_zero. reflexivity.
  - intros a b Hb Ha. unfold real_weights. rewrite get_mk by lia. destruct (touches nodes a b && negb (a =? b)%nat).
    + apply negb_true_iff, keqb_neq, k1_neq0.
    + apply negb_false_iff, keqb_eq. reflexivity.
Qed.
Lemma psign_sub : forall lap (l x y f : K), cost l (psign lap x - psign lap y * f) = cost l (x - y * f).
Proof.
  intros [|] l x y f; [|reflexivity]. simpl. rewrite <- cost_opp. f_equal. ring.
Qed.
Lemma psign_scaled : forall lap (al l x y f : K), cost al (l * (psign lap x - psign lap y * f)) = cost al (l * (x - y * f)).
Proof.
  intros [|] al l x y f; [|reflexivity]. simpl. rewrite <- cost_opp. f_equal. ring.
Qed.

Lemma known_stage : forall lap nodes lines n (Y : mat CK) p lam f, is_sparse p = true ->
  well_formed (dense p) (psize lap n + psize lap n) ->
  exists q, added p (AddExactAdaptive (map Z.of_nat (where_pos (map kabs (make_real_vector (pv lap (line_weights nodes n))))))
      (map (fun x => x * f) (pick (make_real_vector (pv lap (sym_part n (line_centers lines n Y)))) (where_pos (map kabs (make_real_vector (pv lap (line_weights nodes n)))))))
      (AScalar lam) (AScalar LAPLACE)) = Ok q /\
    is_sparse q = true /\ well_formed (dense q) (psize lap n + psize lap n) /\
    forall M c, shape M n n -> penalty_at p (parameters lap M) c ->
      penalty_at q (parameters lap M) (c + knowledge (alpha (dense p)) lam f nodes lines n Y M).
Proof.
  intros lap nodes lines n Y p lam f Hs W. rewrite added_adaptive.
  set (u := map kabs (pv lap (real_weights nodes n))).
  assert (Mu := mask_weights lap nodes n). fold u in Mu.
  assert (Ew : map kabs (make_real_vector (pv lap (line_weights nodes n))) = u ++ u).
  { unfold make_real_vector. rewrite map_app. rewrite (re_pv lap n), (im_pv lap n) by apply shape_mk. rewrite re_weights, im_weights. reflexivity. }
  rewrite Ew. set (c := make_real_vector (pv lap (sym_part n (line_centers lines n Y)))).
  assert (Hidx : Forall (fun k => (k < psize lap n + psize lap n)%nat) (where_pos (u ++ u)))
    by (apply where_pos_lt; rewrite app_length, (proj1 Mu); reflexivity).
  destruct (exact_any p (psize lap n + psize lap n) (where_pos (u ++ u)) (map (fun x => x * f) (pick c (where_pos (u ++ u)))) lam Hs W)
    as (q & E & Sq & Wq & Hq).
  - lia.
  - exact Hidx.
  - unfold pick. rewrite !map_length. reflexivity.
  - exists q. split; [exact E|]. split; [exact Sq|]. split; [exact Wq|]. intros M b HM Hb.
    refine (eq_ind _ (penalty_at q (parameters lap M)) (Hq (parameters lap M) b _ Hb _) _ _).
    + apply length_parameters. assumption.
    + rewrite where_pos_app, app_length, map_length. intros H.
      assert (H1 : length (bmu (base (dense p))) = 1%nat) by lia.
      destruct Hb as (A & v & Eb). destruct (sp_log_one_row p (parameters lap M) H1) as (e & Ee). congruence.
    + f_equal.
      transitivity (lsum (map (fun k => cost (alpha (dense p)) (lam * (vget (parameters lap M) k - vget c k * f))) (where_pos (u ++ u)))).
      { rewrite <- sum_list. apply sumn_ext. intros i Hi. f_equal. f_equal. f_equal.
        rewrite vget_map_in by (unfold pick; rewrite map_length; assumption). rewrite vget_pick by assumption. reflexivity. }
      assert (Sc := shape_sym_part n (line_centers lines n Y)).
      rewrite (sum_where_params lap n _ _ _ _ _
        (fun a b => cost (alpha (dense p)) (lam * (re (get M a b) - re (known_value lines n Y a b) * f)))
        (fun a b => cost (alpha (dense p)) (lam * (im (get M a b) - im (known_value lines n Y a b) * f))) (fun _ => 0) (fun _ => 0) Mu Mu).
      * unfold knowledge, parts.
        match goal with |- ?a + ?d = _ => replace d with (0 : K); [replace (a + 0) with a by ring|] end.
        -- apply line_sum_ext. intros a b0 Hb0 Ha. destruct (Nat.eqb_spec a b0); [lia|]. cbn [negb]. rewrite andb_true_r.
           destruct (touches nodes a b0); [reflexivity|ring].
        -- symmetry. destruct lap; [reflexivity|]. apply sumn_zero. intros a Ha. rewrite Nat.eqb_refl. cbn [negb]. rewrite andb_false_r. ring.
      * intros a b0 Hb0 Ha _. rewrite (param_re lap n M) by assumption.
        change c with (parameters lap (sym_part n (line_centers lines n Y))). rewrite (param_re lap n) by assumption.
        rewrite centers_value by lia. apply psign_scaled.
      * intros a b0 Hb0 Ha _. rewrite (param_im lap n M) by assumption.
        change c with (parameters lap (sym_part n (line_centers lines n Y))). rewrite (param_im lap n) by assumption.
        rewrite centers_value by lia. apply psign_scaled.
      * intros _ a Ha H. rewrite Nat.eqb_refl in H. cbn [negb] in H. rewrite andb_false_r in H. discriminate.
      * intros _ a Ha H. rewrite Nat.eqb_refl in H. cbn [negb] in H. rewrite andb_false_r in H. discriminate.
Qed.

Definition scaled (s : string) (lam : K) : K := lam * (if contains "wrong" s then tenth 2 else 1).
Definition factor (s : string) : K := if contains "wrong" s then knat 11 / knat 10 else 1.

Theorem p_known : forall lap n p lam (Y : mat CK) s, is_sparse p = true -> well_formed (dense p) (psize lap n + psize lap n) ->
  shape Y n n -> (29 <= n)%nat -> contains "optimal" s = true ->
  exists q, add_known_lines n p lam Y lap s = Ok q /\ is_sparse q = true /\ well_formed (dense q) (psize lap n + psize lap n) /\
    forall M c, shape M n n -> penalty_at p (parameters lap M) c ->
      penalty_at q (parameters lap M) (c + knowledge (alpha (dense p)) (scaled s lam) (factor s) opt_nodes opt_lines n Y M).
Proof.
  intros lap n p lam Y s Hs W HY Hn Hc. destruct (e_is n lap) as (E & EE & HE).
  unfold add_known_lines. rewrite EE. cbn [bind]. rewrite Hc. rewrite (optimal_lines_ok n Y HY Hn). cbn [bind].
  rewrite (eliminated_ok lap n) by (assumption || apply shape_mk). cbn [bind].
  rewrite sym_part_symmetric by apply weights_sym.
  rewrite (eliminated_ok lap n) by (assumption || apply shape_mk). cbn [bind].
  apply (known_stage lap opt_nodes opt_lines n Y p (scaled s lam) (factor s) Hs W).
Qed.
Theorem p_known_none : forall lap n p lam (Y : mat CK) s, is_sparse p = true -> well_formed (dense p) (psize lap n + psize lap n) ->
  shape Y n n -> contains "optimal" s = false ->
  exists q, add_known_lines n p lam Y lap s = Ok q /\
    forall M c, shape M n n -> penalty_at p (parameters lap M) c -> penalty_at q (parameters lap M) c.
Proof.
  intros lap n p lam Y s Hs W HY Hc. destruct (e_is n lap) as (E & EE & HE).
  assert (Hsub : contains "suboptimal" s = false).
  { destruct (contains "suboptimal" s) eqn:Es; [|reflexivity]. rewrite (suboptimal_contains_optimal s Es) in Hc. discriminate. }
  unfold add_known_lines. rewrite EE. cbn [bind]. rewrite Hc, Hsub. cbn [bind].
  assert (Hr : nr Y = n) by apply HY. assert (Hcc : nc Y = n) by apply HY. rewrite Hr, Hcc.
  assert (A1 : eliminated E (mzeros n n) = Ok (pv lap (line_weights [] n))).
  { change (mzeros n n : mat CK) with (line_weights [] n). rewrite (eliminated_ok lap n) by (assumption || apply shape_mk).
    rewrite sym_part_symmetric by apply weights_sym. reflexivity. }
  assert (A2 : eliminated E (mzeros n n) = Ok (pv lap (sym_part n (line_centers [] n Y)))).
  { change (mzeros n n : mat CK) with (line_centers [] n Y). apply (eliminated_ok lap n); assumption || apply shape_mk. }
  rewrite A1. cbn [bind]. rewrite A1 in A2. injection A2 as A2.
  destruct (known_stage lap [] [] n Y p (scaled s lam) (factor s) Hs W) as (q & Eq & _ & _ & Hq).
  rewrite <- A2 in Eq. exists q. split; [exact Eq|]. intros M c HM Hp.
  refine (eq_ind _ (penalty_at q (parameters lap M)) (Hq M c HM Hp) _ _).
  unfold knowledge. transitivity (c + 0); [f_equal|ring]. unfold line_sum. apply sumn_zero. intros i Hi. apply sumn_zero. reflexivity.
Qed.

(** ** too few nodes *)
Definition idx_only {A} (P : A -> Prop) (r : res A) : Prop := match r with Ok x => P x | Err e => e = IndexError end.
Lemma idx_bind : forall A B (P : A -> Prop) (Q : B -> Prop) (r : res A) k, idx_only P r -> (forall x, P x -> idx_only Q (k x)) -> idx_only Q (bind r k).
Proof. intros A B P Q [x|e] k H1 H2; cbn in *; auto. Qed.
Definition sq (n : nat) (m : mat CK) : Prop := nr m = n /\ nc m = n /\ wf m.
Lemma idx_cross : forall n m i x, sq n m -> idx_only (sq n) (set_cross m i x).
Proof.
  intros n m i x (Hr & Hc & W). unfold set_cross. rewrite Hr, Hc. destruct (Nat.ltb i n); cbn; [|reflexivity].
  repeat split; apply wf_mk.
Qed.
Lemma idx_entry : forall n m i j x, sq n m -> idx_only (sq n) (set_entry m i j x).
Proof.
  intros n m i j x (Hr & Hc & W). unfold set_entry. destruct (set_at m (Z.of_nat i) (Z.of_nat j) x) as [y|e] eqn:E; cbn.
  - destruct (shape_set_at m _ _ _ _ n n ltac:(repeat split; try apply W; assumption) E) as (A & B & C). repeat split; try apply A; assumption.
  - unfold set_at in E. destruct (norm_idx (nr m) (Z.of_nat i)) as [a|e1] eqn:E1; cbn [bind] in E.
    + destruct (norm_idx (nc m) (Z.of_nat j)) as [b|e2] eqn:E2; cbn [bind] in E; [discriminate|]. injection E as <-.
      unfold norm_idx in E2. repeat match type of E2 with context [if ?b then _ else _] => destruct b end; congruence.
    + injection E as <-. unfold norm_idx in E1. repeat match type of E1 with context [if ?b then _ else _] => destruct b end; congruence.
Qed.
Lemma idx_copy : forall n Y m i j, nr Y = n -> nc Y = n -> sq n m -> idx_only (fun m2 => sq n m2 /\ (j < n)%nat) (copy_line Y m i j).
Proof.
  intros n Y m i j Hr Hc Hm. unfold copy_line, at_entry. rewrite Hr, Hc.
  destruct (Nat.ltb_spec i n); cbn [andb]; [|reflexivity]. destruct (Nat.ltb_spec j n); cbn [bind]; [|reflexivity]. cbn [andb bind].
  eapply idx_bind; [apply idx_entry; exact Hm|]. intros m2 H2. assert (H3 := idx_entry n m2 j i (get Y j i) H2).
  destruct (set_entry m2 j i (get Y j i)); cbn in *; auto.
Qed.
Theorem p_known_small : forall lap n p lam (Y : mat CK) s, shape Y n n -> (n <= 28)%nat -> contains "optimal" s = true ->
  add_known_lines n p lam Y lap s = Err IndexError.
Proof.
  intros lap n p lam Y s (W & Hr & Hc) Hn Hs. destruct (e_is n lap) as (E & EE & HE).
  unfold add_known_lines. rewrite EE. cbn [bind]. rewrite Hs.
  assert (G : idx_only (fun _ => False) (optimal_lines Y)).
  { unfold optimal_lines. rewrite Hr, Hc. assert (Z0 : sq n (mzeros n n)) by (repeat split; apply wf_mk).
    assert (G1 : forall A (Q : A -> Prop) m i x k, sq n m -> (forall m2, sq n m2 -> idx_only Q (k m2)) -> idx_only Q (bind (set_cross m i x) k))
      by (intros; eapply idx_bind; [apply idx_cross; eassumption|assumption]).
    assert (G2 : forall A (Q : A -> Prop) m i j x k, sq n m -> (forall m2, sq n m2 -> idx_only Q (k m2)) -> idx_only Q (bind (set_entry m i j x) k))
      by (intros; eapply idx_bind; [apply idx_entry; eassumption|assumption]).
    assert (G3 : forall A (Q : A -> Prop) m i j k, sq n m -> (forall m2, sq n m2 /\ (j < n)%nat -> idx_only Q (k m2)) -> idx_only Q (bind (copy_line Y m i j) k))
      by (intros; eapply idx_bind; [apply (idx_copy n); eassumption|assumption]).
    repeat first [apply G1; [first [apply Z0|eassumption|apply H]|intros ? ?]
                 |apply G2; [eassumption|intros ? ?]
                 |apply G3; [eassumption|intros ? [? ?]]].
    exfalso. lia. }
  destruct (optimal_lines Y) as [r|e]; cbn in G; [contradiction|]. subst e. reflexivity.
Qed.
End Known.
