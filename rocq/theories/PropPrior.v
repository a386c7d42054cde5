(** Properties C15-C20 and C63: prior distributions. *)
From Coq Require Import Arith ZArith Lia List Qcanon.
From Verif Require Import BasePy BaseFld BaseOrd BaseSum BaseMat BaseNumpy BaseLin BaseEx ModelPrior SpecPrior ProofPrior.
Import ListNotations.
Close Scope Qc_scope. Close Scope Q_scope. Open Scope nat_scope.

(** ** C15 *)
Theorem C15_prior_stays_well_formed :
  forall (K : Type) (O : Ops K) (F : Fld K) (smooth : K) n (l : list (addition K)) q,
  Forall balanced l -> history (sprior_init smooth n None) l = (q, None) ->
  well_formed q n /\ length (bmu (base q)) = list_sum (map rows_of l).
Proof.
  intros K O F s n l q Hb H. destruct (p_history_wf l _ n q (p_init_wf s n) Hb H) as (H1 & _ & _ & H2). auto.
Qed.
Print Assumptions C15_prior_stays_well_formed.

Theorem C15_earlier_rows_unchanged :
  forall (K : Type) (O : Ops K) (F : Fld K) (p q : sprior K) n (l : list (addition K)),
  well_formed p n -> Forall balanced l -> history p l = (q, None) -> well_formed q n /\ extends p q.
Proof. intros K O F p q n l Hw Hb H. destruct (p_history_wf l p n q Hw Hb H) as (H1 & H2 & _). auto. Qed.
Print Assumptions C15_earlier_rows_unchanged.

(** additions with usable indices never raise *)
Theorem C15_valid_additions_succeed :
  forall (K : Type) (O : Ops K) (F : Fld K) (p : sprior K) n (a : addition K),
  well_formed p n -> balanced a -> valid_indices n a -> nonzero_values a ->
  exists q, apply_addition p a = (q, None) /\ well_formed q n /\ extends p q /\
    forall i, i < rows_of a -> nth (length (bmu (base p)) + i) (gamma q) 0 = order_of a i.
Proof.
  intros K O F p n a Hw Hb Hv Hz. destruct (p_base_add p a n Hw Hb Hv Hz) as (q & Hq & Ho & _).
  destruct (p_add_wf p n a q Hw Hb Hq) as (H1 & H2 & _ & _). eauto.
Qed.
Print Assumptions C15_valid_additions_succeed.

Definition ex_adds : list (addition Qc) :=
  [ AddExact [0; -1]%Z [zq 3; zq 5] (AScalar (zq 2)) (AScalar GAUSS);
    AddSparsity [1; 2]%Z ANone (AScalar LAPLACE);
    AddContrast (rows [[0; 1; 2]]%Z) [zq 4] (AList [zq 7]) ANone;
    AddRatios (rows [[0; 2]; [1; 2]]%Z) [zq 2; zq 3] ANone (AList [0; 1]) ].
Definition ex_prior : sprior Qc := fst (history (sprior_init (qq 1 100) 3 None) ex_adds).
Example C15_example : Forall balanced ex_adds /\ Forall (valid_indices 3) ex_adds /\ Forall nonzero_values ex_adds /\
  history (sprior_init (qq 1 100) 3 None) ex_adds = (ex_prior, None) /\
  bL (base ex_prior) = rows
    [[zq 2; zq 0; zq 0]; [zq 0; zq 0; zq 2]; [zq 0; zq 1; zq 0]; [zq 0; zq 0; zq 1];
     [qq 7 4; qq 7 4; qq 7 4]; [zq 1; zq 0; zq (-2)]; [zq 0; zq 1; zq (-3)]] /\
  bmu (base ex_prior) = map zq [6; 10; 0; 0; 7; 0; 0]%Z /\ gamma ex_prior = [2;2;1;1;1;0;1].
Proof.
  split; [|split; [|split; [|split; [|split; [|split]]]]].
  - repeat constructor.
  - repeat constructor; unfold in_bounds; simpl; try lia; intuition discriminate.
  - repeat constructor; intro H; apply (f_equal this) in H; discriminate.
  - unfold ex_prior. destruct (history _ _) as (q & e) eqn:E. simpl. f_equal.
    change e with (snd (q, e)). rewrite <- E. vm_compute. reflexivity.
  - apply meqb_eq. vm_compute. reflexivity.
  - apply veqb_eq. vm_compute. reflexivity.
  - vm_compute. reflexivity.
Qed.

(** with more weights than values no error is raised and the prior is malformed *)
Theorem C15_too_many_weights_refuted :
  exists (l : list (addition Qc)) q, history (sprior_init (zq 1) 3 None) l = (q, None) /\
    (forall a, In a l -> match a with AddContrast i v _ _ => length v = nr i /\ valid_indices 3 a | _ => False end) /\
    ~ well_formed q 3.
Proof.
  exists [AddContrast (rows [[0;1]]%Z) [zq 2] (AList [zq 1; zq 1]) ANone].
  eexists. split; [vm_compute; reflexivity|]. split.
  - intros a [<-|[]]. simpl. split; [reflexivity|]. split; [split; repeat constructor|].
    repeat constructor; unfold in_bounds; simpl; try lia; intuition discriminate.
  - intros (_ & (_ & H & _) & _). vm_compute in H. discriminate.
Qed.
Print Assumptions C15_too_many_weights_refuted.

(** ** C16 *)
Theorem C16_rows_have_documented_residual :
  forall (K : Type) (O : Ops K) (F : Fld K) (p : sprior K) (a : addition K) n,
  well_formed p n -> balanced a -> valid_indices n a -> nonzero_values a ->
  (forall i v w o, a <> AddExactAdaptive i v w o) ->
  exists q, apply_addition p a = (q, None) /\
    forall x i, length x = n -> i < rows_of a ->
      residual (base q) x (length (bmu (base p)) + i) = documented a x i.
Proof.
  intros K O F p a n Hw Hb Hv Hz Hne. destruct (p_base_add p a n Hw Hb Hv Hz) as (q & Hq & _ & Hd).
  exists q. split; [exact Hq|]. destruct a; try exact Hd. exfalso. eapply Hne. reflexivity.
Qed.
Print Assumptions C16_rows_have_documented_residual.

(** the ratio row of [ex_adds] vanishes exactly when the ratio of parameters 0 and 2 is 2 *)
Example C16_example :
  residual (base ex_prior) [zq 10; zq 1; zq 5] 5 = zq 0 /\
  residual (base ex_prior) [zq 10; zq 1; zq 5] 4 = zq 21 /\
  documented (nth 2 ex_adds (AddSparsity [] ANone ANone)) [zq 10; zq 1; zq 5] 0 = zq 21 /\
  residual (base ex_prior) [zq 10; zq 1; zq 5] 1 = zq 0.
Proof. repeat split; apply keqb_eq; vm_compute; reflexivity. Qed.

(** ** C17 *)
Theorem C17_base_class_adaptive_rows_are_relative :
  forall (K : Type) (O : Ops K) (F : Fld K) (p : bprior K) ix v w n,
  bn p = n -> shape (bL p) (length (bmu p)) n -> length v = length ix -> fits w (length ix) ->
  Forall (in_bounds n) ix -> Forall (fun y => y <> 0%K) v ->
  exists q, add_exact_adaptive_prior p ix v w = (q, None) /\
    forall x i, length x = n -> i < length ix ->
      residual q x (length (bmu p) + i) = documented (AddExactAdaptive ix v w ANone) x i.
Proof. exact @p_base_adaptive. Qed.
Print Assumptions C17_base_class_adaptive_rows_are_relative.

(** what SmoothPrior does instead: the row is scaled by the value *)
Theorem C17_smooth_adaptive_rows_are_absolute :
  forall (K : Type) (O : Ops K) (F : Fld K) (p : sprior K) ix v w o n, well_formed p n ->
  balanced (AddExactAdaptive ix v w o) -> Forall (in_bounds n) ix -> Forall (fun y => y <> 0%K) v ->
  exists q, apply_addition p (AddExactAdaptive ix v w o) = (q, None) /\
    forall x i, length x = n -> i < length ix ->
      residual (base q) x (length (bmu (base p)) + i) = (vget v i * documented (AddExactAdaptive ix v w o) x i)%K.
Proof. exact @p_smooth_adaptive. Qed.
Print Assumptions C17_smooth_adaptive_rows_are_absolute.

Theorem C17_smooth_adaptive_refuted :
  exists (p : sprior Qc) a n q x i, well_formed p n /\ balanced a /\ valid_indices n a /\ nonzero_values a /\
    (exists ix v w o, a = AddExactAdaptive ix v w o) /\
    apply_addition p a = (q, None) /\ length x = n /\ i < rows_of a /\
    residual (base q) x (length (bmu (base p)) + i) <> documented a x i.
Proof.
  exists (sprior_init (zq 1) 2 None), (AddExactAdaptive [1]%Z [zq 10] ANone ANone), 2.
  eexists. exists [zq 0; zq 0], 0.
  split; [apply p_init_wf|]. split; [repeat constructor|].
  split; [repeat constructor; unfold in_bounds; simpl; lia|].
  split; [repeat constructor; intro H; apply (f_equal this) in H; discriminate|].
  split; [eauto|]. split; [vm_compute; reflexivity|]. split; [reflexivity|]. split; [simpl; lia|].
  intros H. apply (f_equal (fun q => keqb q (zq (-10)))) in H. vm_compute in H. discriminate.
Qed.
Print Assumptions C17_smooth_adaptive_refuted.

(** ** C18 *)
Theorem C18_continuing_with_the_same_size :
  forall (K : Type) (O : Ops K) (p : sprior K) s l, s = alpha p ->
  history (sprior_init s (bn (base p)) (Some (OSmooth p))) l = history p l.
Proof. intros K O p s l Hs. rewrite (p_continue_ok p s Hs). reflexivity. Qed.
Print Assumptions C18_continuing_with_the_same_size.

Theorem C18_default_size_rejects_every_addition :
  forall (K : Type) (O : Ops K) (p : sprior K) s n (a : addition K),
  well_formed p n -> n <> 0 -> exists q e, apply_addition (sprior_init s 0 (Some (OSmooth p))) a = (q, Some e).
Proof. exact @p_continue_default_fails. Qed.
Print Assumptions C18_default_size_rejects_every_addition.

(** ex_prior accepts a further row, the continuation without a size does not *)
Theorem C18_default_size_refuted : exists (p : sprior Qc) a q q' e,
  apply_addition p a = (q, None) /\ apply_addition (sprior_init (alpha p) 0 (Some (OSmooth p))) a = (q', Some e).
Proof. exists ex_prior, (AddSparsity [0]%Z ANone ANone). do 3 eexists. split; vm_compute; reflexivity. Qed.
Print Assumptions C18_default_size_refuted.

(** ** C19 *)
Theorem C19_quadratic_form :
  forall (K : Type) (O : Ops K) (F : Fld K) (O2 : OrdOps K) (OF : OrdFld K) (p : sprior K) n x,
  well_formed p n -> length x = n -> n <> 1 -> klt 0%K (alpha p) ->
  exists A b pen, log_distribution p x = Ok (A, b, pen) /\ shape A n n /\ length b = n /\
    tr A = A /\
    (forall u, length u = n -> kle 0%K (vdot u (mvmul A u))) /\
    (forall u, length u = n -> vdot u (mvmul A u) = 0%K <->
        forall i, i < length (bmu (base p)) -> sumn n (fun k => get (bL (base p)) i k * vget u k)%K = 0%K) /\
    ((forall i, i < length (bmu (base p)) -> residual (base p) x i = 0%K) -> mvmul A x = b) /\
    (forall y, length y = n -> (forall g, In g (gamma p) -> g = GAUSS) ->
       exists pen', log_distribution p y = Ok (A, b, pen')).
Proof. exact @p_quadratic. Qed.
Print Assumptions C19_quadratic_form.

(** entries: row k weighs 1/(|residual|^(2-order) + alpha) *)
Theorem C19_quadratic_form_entries :
  forall (K : Type) (O : Ops K) (F : Fld K) (O2 : OrdOps K) (p : sprior K) n x,
  well_formed p n -> length x = n -> n <> 1 ->
  let m := length (bmu (base p)) in
  let w := fun k => (kpow (kabs (residual (base p) x k)) (2 - nth k (gamma p) 0)%nat + alpha p)%K in
  exists A b, log_distribution p x = Ok (A, b, sumn m w) /\ shape A n n /\ length b = n /\
    (forall i j, i < n -> j < n -> get A i j = sumn m (fun k => get (bL (base p)) k i * get (bL (base p)) k j / w k)%K) /\
    (forall i, i < n -> vget b i = sumn m (fun k => get (bL (base p)) k i * vget (bmu (base p)) k / w k)%K).
Proof. exact @p_log_value. Qed.
Print Assumptions C19_quadratic_form_entries.

(** one Laplace row x0 = 3 and one Gauss row x1 = 2, evaluated at (1, 5), alpha = 1:
    weights 1/(2+1) and 1/(1+1) *)
Definition ex_p2 : sprior Qc := fst (history (sprior_init (zq 1) 2 None)
  [AddExact [0]%Z [zq 3] ANone (AScalar LAPLACE); AddExact [1]%Z [zq 2] ANone (AScalar GAUSS)]).
Example C19_example : well_formed ex_p2 2 /\ klt (zq 0) (alpha ex_p2) /\
  log_distribution ex_p2 [zq 1; zq 5] = Ok (rows [[qq 1 3; zq 0]; [zq 0; qq 1 2]], [zq 1; zq 1], zq 5).
Proof.
  split; [split; [reflexivity|split; [apply shapeb_shape; reflexivity|reflexivity]]|].
  split; [vm_compute; reflexivity|].
  destruct (log_distribution ex_p2 [zq 1; zq 5]) as [((A & b) & pen)|e] eqn:E; [|vm_compute in E; discriminate].
  assert (H1 : meqb A (rows [[qq 1 3; zq 0]; [zq 0; qq 1 2]]) = true /\ veqb b [zq 1; zq 1] = true /\ keqb pen (zq 5) = true).
  { assert (E' : (match log_distribution ex_p2 [zq 1; zq 5] with Ok (A, b, pen) =>
       (meqb A (rows [[qq 1 3; zq 0]; [zq 0; qq 1 2]]) && veqb b [zq 1; zq 1] && keqb pen (zq 5))%bool | Err _ => false end) = true)
      by (vm_compute; reflexivity).
    rewrite E in E'. apply andb_prop in E'. destruct E' as (E1 & E2). apply andb_prop in E1. tauto. }
  destruct H1 as (HA & Hb & Hp). apply meqb_eq in HA. apply veqb_eq in Hb. apply keqb_eq in Hp. subst. reflexivity.
Qed.

(** ** C20 *)
Theorem C20_sparse_and_dense_histories_agree :
  forall (K : Type) (O : Ops K) (s : K) n (l : list (addition K)),
  let d := history (sprior_init s n None) l in
  let sp := sp_history (spprior_init s n None) l in
  dense (fst sp) = fst d /\ snd sp = snd d /\ (snd d = None -> is_sparse (fst sp) = true).
Proof. intros K O s n l. apply p_sparse_history. Qed.
Print Assumptions C20_sparse_and_dense_histories_agree.

Theorem C20_sparse_and_dense_evaluations_agree :
  forall (K : Type) (O : Ops K) (O2 : OrdOps K) (p : spprior K) x,
  length (bmu (base (dense p))) <> 1 -> sp_log_distribution p x = log_distribution (dense p) x.
Proof. exact @p_sparse_log. Qed.
Print Assumptions C20_sparse_and_dense_evaluations_agree.

(** a sparse prior with exactly one row can never be evaluated; the dense one can *)
Theorem C20_single_row_fails :
  forall (K : Type) (O : Ops K) (F : Fld K) (O2 : OrdOps K) (p : spprior K) n x,
  length (bmu (base (dense p))) = 1 -> well_formed (dense p) n -> length x = n -> n <> 1 ->
  (exists e, sp_log_distribution p x = Err e) /\ (exists v, log_distribution (dense p) x = Ok v).
Proof.
  intros K O F O2 p n x H1 Hw Hx Hn. split; [apply sp_log_one_row; exact H1|].
  destruct (p_log_value (dense p) n x Hw Hx Hn) as (A & b & H & _). eauto.
Qed.
Print Assumptions C20_single_row_fails.

Example C20_example :
  let p := fst (sp_history (spprior_init (zq 1) 2 None) [AddSparsity [0]%Z ANone ANone]) in
  length (bmu (base (dense p))) = 1 /\ well_formed (dense p) 2 /\
  sp_log_distribution p [zq 1; zq 1] = Err ValueError /\
  (let q := fst (sp_history p [AddSparsity [1]%Z ANone ANone]) in
   exists v, sp_log_distribution q [zq 1; zq 1] = Ok v /\ log_distribution (dense q) [zq 1; zq 1] = Ok v).
Proof.
  split; [reflexivity|]. split; [split; [reflexivity|split; [apply shapeb_shape; reflexivity|reflexivity]]|].
  split; [vm_compute; reflexivity|]. eexists. split; vm_compute; reflexivity.
Qed.
Theorem C20_sparse_and_dense_refuted : exists (p : spprior Qc) x v,
  log_distribution (dense p) x = Ok v /\ sp_log_distribution p x = Err ValueError.
Proof.
  exists (fst (sp_history (spprior_init (zq 1) 2 None) [AddSparsity [0]%Z ANone ANone])), [zq 1; zq 1].
  eexists. split; vm_compute; reflexivity.
Qed.
Print Assumptions C20_sparse_and_dense_refuted.

(** ** C63 *)
Theorem C63_rejected_addition_breaks_the_prior :
  forall (K : Type) (O : Ops K) (F : Fld K) (O2 : OrdOps K) (p q : sprior K) n (a : addition K) e,
  well_formed p n -> balanced a -> 0 < rows_of a ->
  (match a with AddRatios i _ _ _ => 2 <= nc i | _ => True end) ->
  apply_addition p a = (q, Some e) ->
  forall x, exists e', log_distribution q x = Err e'.
Proof. intros K O F O2 p q n a e. exact (p_failed_addition p n a q e). Qed.
Print Assumptions C63_rejected_addition_breaks_the_prior.

(** a bad index is rejected; the prior, usable before, is not usable any more *)
Example C63_example :
  well_formed ex_p2 2 /\ (exists v, log_distribution ex_p2 [zq 1; zq 5] = Ok v) /\
  (exists q, apply_addition ex_p2 (AddSparsity [2]%Z ANone ANone) = (q, Some IndexError) /\
     log_distribution q [zq 1; zq 5] = Err ValueError).
Proof.
  split; [apply C19_example|]. split; [eexists; apply C19_example|].
  eexists. split; vm_compute; reflexivity.
Qed.
Theorem C63_rejected_addition_refuted : exists (p q : sprior Qc) a x v,
  apply_addition p a = (q, Some IndexError) /\ log_distribution p x = Ok v /\ log_distribution q x = Err ValueError.
Proof.
  destruct C63_example as (_ & (v & V) & q & E1 & E2). exists ex_p2, q, (AddSparsity [2]%Z ANone ANone), [zq 1; zq 5], v. auto.
Qed.
Print Assumptions C63_rejected_addition_refuted.
