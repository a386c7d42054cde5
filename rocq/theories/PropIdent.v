(** Properties C56-C58, C68 and C69: the prior distributions of the identification. *)
From Coq Require Import String.
From Coq Require Import Bool Arith ZArith Lia List Qcanon.
From Verif Require Import BasePy BaseFld BaseOrd BaseSum BaseMat BaseNumpy BaseLin BaseEx SpecMatrix ModelMatrixOps ModelPrior SpecPrior ProofPrior
  ModelIdent SpecIdent ProofIdent ProofPenalty ProofIdentMain ProofIdentThm ProofKnown ProofIdentEnd.
Import ListNotations.
Close Scope Qc_scope. Close Scope Q_scope. Close Scope string_scope. Open Scope list_scope. Open Scope nat_scope.

(** ** C56 *)
(** the weight of a parameter is the size of its estimate *)
Theorem C56_lasso_penalty :
  forall (K : Type) (O : Ops K) (F : Fld K) (O2 : OrdOps K) (OF : OrdFld K) lap n (Y : mat (cplx K)),
  2 <= n -> shape Y n n -> Forall (fun y => y <> 0%K) (parameters lap (sym_part n Y)) ->
  exists p, build_lasso_prior n Y lap = Ok p /\ forall x, length x = length (parameters lap (sym_part n Y)) ->
    penalty_at p x (weighted_penalty (tenth 5) kabs (parameters lap (sym_part n Y)) x).
Proof. exact @p_lasso. Qed.
Print Assumptions C56_lasso_penalty.

(** it is the inverse of that size only if all parameters are 1 or -1 *)
Theorem C56_inverse_weights_iff :
  forall (K : Type) (O : Ops K) (F : Fld K) (O2 : OrdOps K) (OF : OrdFld K) lap n (Y : mat (cplx K)),
  2 <= n -> shape Y n n -> Forall (fun y => y <> 0%K) (parameters lap (sym_part n Y)) ->
  exists p, build_lasso_prior n Y lap = Ok p /\
    ((forall x, length x = length (parameters lap (sym_part n Y)) ->
        penalty_at p x (weighted_penalty (tenth 5) (fun y => 1 / kabs y)%K (parameters lap (sym_part n Y)) x)) <->
     Forall (fun y => (y * y = 1)%K) (parameters lap (sym_part n Y))).
Proof. exact @p_lasso_documented. Qed.
Print Assumptions C56_inverse_weights_iff.

Definition nonzerob (l : list Qc) : bool := forallb (fun y => negb (y =? 0)%K) l.
Lemma nonzerob_ok : forall l, nonzerob l = true -> Forall (fun y => y <> 0%K) l.
Proof.
  intros l H. unfold nonzerob in H. rewrite forallb_forall in H. apply Forall_forall. intros y Hy. apply H in Hy.
  apply keqb_neq. apply negb_true_iff. exact Hy.
Qed.
Notation ex_y := (czrows [[(5, 7); (-2, -3); (-2, -4)]; [(-2, -3); (3, 5); (-1, -2)]; [(-4, -4); (-1, -2); (4, 6)]]%Z).
Lemma ex_y_shape : shape ex_y 3 3.
Proof. apply shapeb_shape. vm_compute. reflexivity. Qed.
Example C56_example : Forall (fun y => y <> 0%K) (parameters false (sym_part 3 ex_y)) /\
  Forall (fun y => y <> 0%K) (parameters true (sym_part 3 ex_y)) /\
  parameters false (sym_part 3 ex_y) = map zq [5; -2; -3; 3; -1; 4; 7; -3; -4; 5; -2; 6]%Z.
Proof.
  split; [apply nonzerob_ok; vm_compute; reflexivity|]. split; [apply nonzerob_ok; vm_compute; reflexivity|].
  apply veqb_eq. vm_compute. reflexivity.
Qed.

(** the documented weight 1/|y| of the initial estimate *)
Theorem C56_inverse_weights_refuted :
  exists lap n (Y : mat (cplx Qc)), 2 <= n /\ shape Y n n /\ Forall (fun y => y <> 0%K) (parameters lap (sym_part n Y)) /\
  ~ exists p, build_lasso_prior n Y lap = Ok p /\ forall x, length x = length (parameters lap (sym_part n Y)) ->
      penalty_at p x (weighted_penalty (tenth 5) (fun y => 1 / kabs y)%K (parameters lap (sym_part n Y)) x).
Proof.
  exists false, 3, ex_y. split; [lia|]. split; [apply ex_y_shape|]. split; [apply C56_example|].
  intros (p & E & H).
  destruct (C56_inverse_weights_iff Qc _ _ _ _ false 3 ex_y ltac:(lia) ex_y_shape (proj1 C56_example)) as (q & E2 & I).
  assert (p = q) by congruence. subst q. apply I in H. rewrite Forall_forall in H. specialize (H (zq 5)).
  assert (N : (zq 5 * zq 5 =? 1)%K = false) by (vm_compute; reflexivity). apply keqb_neq in N. apply N, H.
  rewrite (proj2 (proj2 C56_example)). left. reflexivity.
Qed.
Print Assumptions C56_inverse_weights_refuted.

(** ** C57 *)
(** lines have the inverse of the size of their estimate as weight; the lines at a node add up to the reference of the node *)
Theorem C57_penalty :
  forall (K : Type) (O : Ops K) (F : Fld K) (O2 : OrdOps K) (OF : OrdFld K) lap tls n lam (Y : mat (cplx K)),
  2 <= n -> shape Y n n -> no_zero_line n Y -> (forall i, i < n -> nonzero_parts (reference tls n Y i)) ->
  exists p, build_complex_prior n lam Y lap tls true false = Ok p /\ forall M, admissible lap n M ->
    penalty_at p (parameters lap M) (line_pen (tenth 8) n Y M + node_pen (tenth 8) lam tls n Y M)%K.
Proof. exact @p_complex. Qed.
Print Assumptions C57_penalty.

Theorem C57_at_estimate :
  forall (K : Type) (O : Ops K) (F : Fld K) (O2 : OrdOps K) (OF : OrdFld K) lap tls n lam (Y : mat (cplx K)),
  2 <= n -> shape Y n n -> no_zero_line n Y -> (forall i, i < n -> nonzero_parts (reference tls n Y i)) ->
  exists p, build_complex_prior n lam Y lap tls true false = Ok p /\ forall M, admissible lap n M -> same_lines n M Y ->
    (forall i, i < n -> node_sum n M i = reference tls n Y i) ->
    penalty_at p (parameters lap M) (line_pen_unit (tenth 8) n + no_residual (tenth 8) n)%K.
Proof. exact @p_at_estimate. Qed.
Print Assumptions C57_at_estimate.

Theorem C57_at_estimate_sums :
  forall (K : Type) (O : Ops K) (F : Fld K) (O2 : OrdOps K) (OF : OrdFld K) lap n lam (Y : mat (cplx K)),
  2 <= n -> shape Y n n -> no_zero_line n Y -> (forall i, i < n -> nonzero_parts (node_sum n (sym_part n Y) i)) ->
  exists p, build_complex_prior n lam Y lap false true false = Ok p /\ forall M, admissible lap n M -> same_lines n M Y ->
    penalty_at p (parameters lap M) (line_pen_unit (tenth 8) n + no_residual (tenth 8) n)%K.
Proof. exact @p_at_estimate_sums. Qed.
Print Assumptions C57_at_estimate_sums.

(** the penalty of the nodes is least where every node is balanced, and only there *)
Theorem C57_nodes_least :
  forall (K : Type) (O : Ops K) (F : Fld K) (O2 : OrdOps K) (OF : OrdFld K) lam tls n (Y M : mat (cplx K)),
  kle (no_residual (tenth 8) n) (node_pen (tenth 8) lam tls n Y M) /\
  (lam <> 0%K -> (forall i, i < n -> nonzero_parts (reference tls n Y i)) ->
   (node_pen (tenth 8) lam tls n Y M = no_residual (tenth 8) n <-> forall i, i < n -> node_sum n M i = reference tls n Y i)).
Proof.
  intros K O F O2 OF lam tls n Y M. split; [apply p_nodes_least|]. intros Hl Hr. split.
  - apply p_nodes_balanced; assumption.
  - apply node_pen_same. assumption.
Qed.
Print Assumptions C57_nodes_least.

Definition nonzero_partsb (z : cplx Qc) : bool := negb (re z =? 0)%K && negb (im z =? 0)%K.
Lemma nonzero_partsb_ok : forall z, nonzero_partsb z = true -> nonzero_parts z.
Proof.
  intros z H. apply andb_true_iff in H. destruct H as [H1 H2]. apply negb_true_iff in H1. apply negb_true_iff in H2.
  split; apply keqb_neq; assumption.
Qed.
Definition no_zero_lineb (n : nat) (Y : mat (cplx Qc)) : bool :=
  let s := sym_part n Y in forall_lt n (fun i => forall_lt n (fun j => (i =? j) || nonzero_partsb (get s i j))).
Lemma no_zero_lineb_ok : forall n Y, no_zero_lineb n Y = true -> no_zero_line n Y.
Proof.
  intros n Y H i j Hi Hj Hne. assert (A := forall_lt_spec _ _ (forall_lt_spec _ _ H i Hi) j Hj). cbn beta in A.
  apply Nat.eqb_neq in Hne. rewrite Hne in A. apply nonzero_partsb_ok. exact A.
Qed.
Definition referencesb (tls : bool) (n : nat) (Y : mat (cplx Qc)) : bool :=
  let s := sym_part n Y in
  forall_lt n (fun i => nonzero_partsb (if tls then (- get Y i i)%K else node_sum n s i)).
Lemma referencesb_ok : forall tls n Y, referencesb tls n Y = true -> forall i, i < n -> nonzero_parts (reference tls n Y i).
Proof. intros tls n Y H i Hi. apply nonzero_partsb_ok. exact (forall_lt_spec _ _ H i Hi). Qed.
(** the Laplacian with the lines of ex_y: both kinds of reference agree *)
Notation ex_l := (czrows [[(5, 7); (-2, -3); (-3, -4)]; [(-2, -3); (3, 5); (-1, -2)]; [(-3, -4); (-1, -2); (4, 6)]]%Z).
Definition same_linesb (n : nat) (M Y : mat (cplx Qc)) : bool :=
  forall_lt n (fun i => forall_lt n (fun j => (i =? j) || (get M i j =? get (sym_part n Y) i j)%K)).
Lemma same_linesb_ok : forall n M Y, same_linesb n M Y = true -> same_lines n M Y.
Proof.
  intros n M Y H i j Hi Hj Hne. assert (A := forall_lt_spec _ _ (forall_lt_spec _ _ H i Hi) j Hj). cbn beta in A.
  apply Nat.eqb_neq in Hne. rewrite Hne in A. apply (keqb_eq (K := cplx Qc)). exact A.
Qed.
Definition balancedb (tls : bool) (n : nat) (M Y : mat (cplx Qc)) : bool :=
  forall_lt n (fun i => (node_sum n M i =? reference tls n Y i)%K).
Lemma balancedb_ok : forall tls n M Y, balancedb tls n M Y = true -> forall i, i < n -> node_sum n M i = reference tls n Y i.
Proof. intros tls n M Y H i Hi. apply (keqb_eq (K := cplx Qc)). exact (forall_lt_spec _ _ H i Hi). Qed.
Lemma ex_zero : no_zero_line 3 ex_y. Proof. apply no_zero_lineb_ok. vm_compute. reflexivity. Qed.
Lemma ex_ref : forall tls i, i < 3 -> nonzero_parts (reference tls 3 ex_y i).
Proof. intros [|]; apply referencesb_ok; vm_compute; reflexivity. Qed.
Lemma ex_lap : laplacian 3 ex_l. Proof. apply laplacianb_ok. vm_compute. reflexivity. Qed.
Lemma ex_sym : symmetric 3 ex_l. Proof. apply symmetricb_ok. vm_compute. reflexivity. Qed.
Example C57_example : no_zero_line 3 ex_y /\ (forall tls i, i < 3 -> nonzero_parts (reference tls 3 ex_y i)) /\
  admissible true 3 ex_l /\ admissible false 3 ex_l /\ same_lines 3 ex_l ex_y /\
  (forall tls i, i < 3 -> node_sum 3 ex_l i = reference tls 3 ex_y i) /\
  (line_pen_unit (tenth 8) 3 + no_residual (tenth 8) 3)%K = qq (6 * 100000000 + 12) 100000000.
Proof.
  split; [exact ex_zero|]. split; [exact ex_ref|]. split; [exact ex_lap|]. split; [exact ex_sym|].
  split; [apply same_linesb_ok; vm_compute; reflexivity|].
  split; [intros [|]; apply balancedb_ok; vm_compute; reflexivity|].
  apply keqb_eq. vm_compute. reflexivity.
Qed.
(** away from the estimate: the line 0-1 doubled changes its own terms and the nodes 0 and 1 *)
Notation ex_m := (czrows [[(7, 10); (-4, -6); (-3, -4)]; [(-4, -6); (5, 8); (-1, -2)]; [(-3, -4); (-1, -2); (4, 6)]]%Z).
Example C57_example_values : admissible true 3 ex_m /\
  (line_pen (tenth 8) 3 ex_y ex_m - line_pen_unit (tenth 8) 3)%K = zq 2 /\
  (node_pen (tenth 8) (zq 10) false 3 ex_y ex_m - no_residual (tenth 8) 3)%K = (zq 10 * (qq 2 5 + qq 3 7 + qq 2 3 + qq 3 5))%K.
Proof.
  split; [apply laplacianb_ok; vm_compute; reflexivity|]. split; apply keqb_eq; vm_compute; reflexivity.
Qed.

(** with the diagonal regularised as well *)
Theorem C57_diagonal :
  forall (K : Type) (O : Ops K) (F : Fld K) (O2 : OrdOps K) (OF : OrdFld K) tls n lam (Y : mat (cplx K)),
  2 <= n -> shape Y n n -> no_zero_line n Y -> (forall i, i < n -> nonzero_parts (reference tls n Y i)) ->
  exists p, build_complex_prior n lam Y false tls true true = Ok p /\ forall M, symmetric n M ->
    penalty_at p (parameters false M)
      (line_pen (tenth 8) n Y M + node_pen (tenth 8) lam tls n Y M + diag_pen (tenth 8) lam n Y M)%K.
Proof. exact @p_complex_diag. Qed.
Print Assumptions C57_diagonal.

(** a Laplacian has no parameter for the diagonal: the prior is built, but can never be evaluated *)
Theorem C57_laplacian_diagonal_unusable :
  forall (K : Type) (O : Ops K) (F : Fld K) (O2 : OrdOps K) (OF : OrdFld K) tls n lam (Y : mat (cplx K)),
  2 <= n -> shape Y n n -> no_zero_line n Y -> (forall i, i < n -> nonzero_parts (reference tls n Y i)) ->
  exists p, build_complex_prior n lam Y true tls true true = Ok p /\ forall x, exists e, sp_log_distribution p x = Err e.
Proof. exact @p_complex_diag_lap. Qed.
Print Assumptions C57_laplacian_diagonal_unusable.

Theorem C57_laplacian_diagonal_refuted :
  exists tls n lam (Y : mat (cplx Qc)), 2 <= n /\ shape Y n n /\ no_zero_line n Y /\
  (forall i, i < n -> nonzero_parts (reference tls n Y i)) /\
  ~ exists p, build_complex_prior n lam Y true tls true true = Ok p /\
      exists M c, admissible true n M /\ penalty_at p (parameters true M) c.
Proof.
  exists false, 3, (zq 1), ex_y. split; [lia|]. split; [apply ex_y_shape|]. split; [exact ex_zero|]. split; [exact (ex_ref false)|].
  intros (p & E & M & c & _ & (A & b & H)).
  destruct (C57_laplacian_diagonal_unusable Qc _ _ _ _ false 3 (zq 1) ex_y ltac:(lia) ex_y_shape ex_zero (ex_ref false)) as (q & E2 & I).
  assert (p = q) by congruence. subst q. destruct (I (parameters true M)) as (e & He). congruence.
Qed.
Print Assumptions C57_laplacian_diagonal_refuted.

(** a single contrast for all lines *)
Theorem C57_single_contrast :
  forall (K : Type) (O : Ops K) (F : Fld K) (O2 : OrdOps K) (OF : OrdFld K) lap tls n lam (Y : mat (cplx K)),
  2 <= n -> shape Y n n -> no_zero_line n Y -> nonzero_parts (sumn n (fun i => reference tls n Y i)) ->
  exists p, build_complex_prior n lam Y lap tls false false = Ok p /\ forall M, admissible lap n M ->
    penalty_at p (parameters lap M) (line_pen (tenth 8) n Y M + single_pen (tenth 8) lam tls n Y M)%K.
Proof. exact @p_single. Qed.
Print Assumptions C57_single_contrast.

(** at the estimate its residual is 3/2, not 0 *)
Theorem C57_single_contrast_at_estimate :
  forall (K : Type) (O : Ops K) (F : Fld K) (O2 : OrdOps K) (OF : OrdFld K) lap n lam (Y : mat (cplx K)),
  2 <= n -> shape Y n n -> no_zero_line n Y -> nonzero_parts (total n (sym_part n Y)) ->
  exists p, build_complex_prior n lam Y lap false false false = Ok p /\ forall M, admissible lap n M -> same_lines n M Y ->
    penalty_at p (parameters lap M) (line_pen_unit (tenth 8) n + parts (fun _ => cost (tenth 8) (lam * (knat 3 / knat 2))))%K.
Proof. exact @p_single_estimate. Qed.
Print Assumptions C57_single_contrast_at_estimate.

Theorem C57_single_contrast_refuted :
  exists lap n lam (Y M : mat (cplx Qc)), 2 <= n /\ shape Y n n /\ no_zero_line n Y /\ nonzero_parts (total n (sym_part n Y)) /\
  admissible lap n M /\ same_lines n M Y /\
  ~ exists p, build_complex_prior n lam Y lap false false false = Ok p /\
      penalty_at p (parameters lap M) (line_pen_unit (tenth 8) n + parts (fun _ => cost (tenth 8) 0))%K.
Proof.
  assert (T : nonzero_parts (total 3 (sym_part 3 ex_y))) by (apply nonzero_partsb_ok; vm_compute; reflexivity).
  assert (S : same_lines 3 ex_l ex_y) by (apply same_linesb_ok; vm_compute; reflexivity).
  exists true, 3, (zq 1), ex_y, ex_l. split; [lia|]. split; [apply ex_y_shape|]. split; [exact ex_zero|]. split; [exact T|].
  split; [exact ex_lap|]. split; [exact S|]. intros (p & E & H).
  destruct (C57_single_contrast_at_estimate Qc _ _ _ _ true 3 (zq 1) ex_y ltac:(lia) ex_y_shape ex_zero T) as (q & E2 & I).
  assert (p = q) by congruence. subst q. specialize (I ex_l ex_lap S). assert (D := penalty_unique _ _ _ _ H I).
  apply (keqb_eq (K := Qc)) in D. vm_compute in D. discriminate.
Qed.
Print Assumptions C57_single_contrast_refuted.

(** ** C58 *)
Lemma wf_columns : forall (K : Type) (O : Ops K) (p : sprior K) lap n, well_formed p (columns lap n) -> well_formed p (psize lap n + psize lap n).
Proof. intros K O p lap n H. rewrite <- columns_psize. exact H. Qed.

(** with "optimal" in the type, all lines at the nodes near the substation are held at their values or at zero *)
Theorem C58_known_lines :
  forall (K : Type) (O : Ops K) (F : Fld K) (O2 : OrdOps K) (OF : OrdFld K) lap n (p : spprior K) lam (Y : mat (cplx K)) s,
  is_sparse p = true -> well_formed (dense p) (columns lap n) -> shape Y n n -> 29 <= n -> contains "optimal" s = true ->
  exists q, add_known_lines n p lam Y lap s = Ok q /\ is_sparse q = true /\ well_formed (dense q) (columns lap n) /\
    forall M c, shape M n n -> penalty_at p (parameters lap M) c ->
      penalty_at q (parameters lap M)
        (c + knowledge (alpha (dense p)) (lam * (if contains "wrong" s then tenth 2 else 1))
               (if contains "wrong" s then knat 11 / knat 10 else 1) opt_nodes opt_lines n Y M)%K.
Proof.
  intros K O F O2 OF lap n p lam Y s Hs W HY Hn Hc. rewrite columns_psize in W.
  destruct (p_known lap n p lam Y s Hs W HY Hn Hc) as (q & A & B & C & D). exists q. rewrite columns_psize. auto.
Qed.
Print Assumptions C58_known_lines.

Theorem C58_other_type :
  forall (K : Type) (O : Ops K) (F : Fld K) (O2 : OrdOps K) (OF : OrdFld K) lap n (p : spprior K) lam (Y : mat (cplx K)) s,
  is_sparse p = true -> well_formed (dense p) (columns lap n) -> shape Y n n -> contains "optimal" s = false ->
  exists q, add_known_lines n p lam Y lap s = Ok q /\
    forall M c, shape M n n -> penalty_at p (parameters lap M) c -> penalty_at q (parameters lap M) c.
Proof. intros K O F O2 OF lap n p lam Y s Hs W. rewrite columns_psize in W. apply p_known_none; assumption. Qed.
Print Assumptions C58_other_type.

(** the positions are those of one network: smaller networks are refused *)
Theorem C58_small_network :
  forall (K : Type) (O : Ops K) (F : Fld K) (O2 : OrdOps K) lap n (p : spprior K) lam (Y : mat (cplx K)) s,
  shape Y n n -> n <= 28 -> contains "optimal" s = true -> add_known_lines n p lam Y lap s = Err IndexError.
Proof. exact @p_known_small. Qed.
Print Assumptions C58_small_network.

(** every string selecting the sub-optimal lines selects the optimal ones *)
Theorem C58_suboptimal_is_optimal :
  forall (K : Type) (O : Ops K) (O2 : OrdOps K) lap n (p : spprior K) lam (Y : mat (cplx K)) s,
  contains "suboptimal" s = true ->
  add_known_lines n p lam Y lap s = add_known_lines n p lam Y lap (if contains "wrong" s then "optimal wrong" else "optimal").
Proof. exact @suboptimal_same. Qed.
Print Assumptions C58_suboptimal_is_optimal.

Notation ex_p n := (spprior_init (zq 1) (columns false n) None).
Notation ex_line n := (mk n n (fun i j => if (i + j =? 1) then cz 1 1 else cz 0 0)).
Lemma ex_p_wf : forall n, well_formed (dense (ex_p n)) (columns false n).
Proof. intros n. apply p_init_wf. Qed.
Lemma ex_p_pen : forall n (M : mat (cplx Qc)), 2 <= n -> shape M n n -> penalty_at (ex_p n) (parameters false M) 0%K.
Proof.
  intros n M Hn HM. apply (good_penalty (zq 1) (columns false n) 0 _ (fun _ => 0%K)); [apply good_init| |lia|].
  - unfold columns. nia.
  - rewrite columns_psize. apply length_parameters. exact HM.
Qed.
Example C58_example : is_sparse (ex_p 29) = true /\ well_formed (dense (ex_p 29)) (columns false 29) /\ shape (ex_line 29) 29 29 /\
  penalty_at (ex_p 29) (parameters false (mzeros 29 29 : mat (cplx Qc))) 0%K /\
  knowledge (zq 1) (zq 5) (zq 1) opt_nodes opt_lines 29 (ex_line 29) (mzeros 29 29) = zq (2 * 81 + 10) /\
  knowledge (zq 1) (zq 5) (zq 1) opt_nodes opt_lines 29 (ex_line 29) (ex_line 29) = zq (2 * 81) /\
  contains "optimal" "optimal" = true /\ contains "optimal" "wrong suboptimal lines" = true /\ contains "optimal" "none" = false.
Proof.
  split; [reflexivity|]. split; [apply ex_p_wf|]. split; [apply shape_mk|]. split; [apply ex_p_pen; [lia|apply shape_mk]|].
  split; [apply keqb_eq; vm_compute; reflexivity|]. split; [apply keqb_eq; vm_compute; reflexivity|]. repeat split.
Qed.

(** selecting the sub-optimal lines holds the sub-optimal lines at their values *)
Theorem C58_suboptimal_refuted :
  exists n (p : spprior Qc) lam (Y : mat (cplx Qc)) s M c, 29 <= n /\ is_sparse p = true /\ well_formed (dense p) (columns false n) /\
  shape Y n n /\ contains "suboptimal" s = true /\ contains "wrong" s = false /\ symmetric n M /\ penalty_at p (parameters false M) c /\
  ~ exists q, add_known_lines n p lam Y false s = Ok q /\
      penalty_at q (parameters false M) (c + knowledge (alpha (dense p)) lam 1 sub_nodes sub_lines n Y M)%K.
Proof.
  exists 29, (ex_p 29), (zq 5), (ex_line 29), "suboptimal"%string, (mzeros 29 29), 0%K.
  split; [lia|]. split; [reflexivity|]. split; [apply ex_p_wf|]. split; [apply shape_mk|]. split; [reflexivity|]. split; [reflexivity|].
  split; [split; [apply shape_mk|]; intros i j Hi Hj; unfold mzeros; rewrite !get_mk by assumption; reflexivity|].
  split; [apply ex_p_pen; [lia|apply shape_mk]|].
  intros (q & E & H).
  destruct (C58_known_lines Qc _ _ _ _ false 29 (ex_p 29) (zq 5) (ex_line 29) "suboptimal" eq_refl (ex_p_wf 29)
    ltac:(apply shape_mk) (le_n 29) eq_refl) as (r & E2 & _ & _ & I).
  assert (q = r) by congruence. subst r.
  specialize (I (mzeros 29 29) 0%K ltac:(apply shape_mk) ltac:(apply ex_p_pen; [lia|apply shape_mk])).
  assert (D := penalty_unique _ _ _ _ H I). clear H I E E2. cbn [dense alpha spprior_init sprior_init] in D.
  apply (keqb_eq (K := Qc)) in D. vm_compute in D. discriminate.
Qed.
Print Assumptions C58_suboptimal_refuted.

(** ** C68 *)
(** without exact lines the prior is the one of C57, for both parametrisations *)
Theorem C68_no_known_lines :
  forall (K : Type) (O : Ops K) (F : Fld K) (O2 : OrdOps K) (OF : OrdFld K) lap tls n lam (Y : mat (cplx K)),
  2 <= n -> shape Y n n -> no_zero_line n Y -> (forall i, i < n -> nonzero_parts (reference tls n Y i)) ->
  exists q, bayesian_prior n lam Y None lap tls true false = Ok q /\ forall M, admissible lap n M ->
    penalty_at q (parameters lap M) (line_pen (tenth 8) n Y M + node_pen (tenth 8) lam tls n Y M)%K.
Proof. exact @p_bayesian_unknown. Qed.
Print Assumptions C68_no_known_lines.

(** symmetric matrices: the knowledge concerns the known lines *)
Theorem C68_symmetric :
  forall (K : Type) (O : Ops K) (F : Fld K) (O2 : OrdOps K) (OF : OrdFld K) tls n lam (Y X : mat (cplx K)),
  29 <= n -> shape Y n n -> shape X n n -> no_zero_line n Y -> (forall i, i < n -> nonzero_parts (reference tls n Y i)) ->
  exists q, bayesian_prior n lam Y (Some X) false tls true false = Ok q /\ forall M, symmetric n M ->
    penalty_at q (parameters false M)
      (line_pen (tenth 8) n Y M + node_pen (tenth 8) lam tls n Y M + knowledge (tenth 8) lam 1 opt_nodes opt_lines n X M)%K.
Proof. exact @p_bayesian_known. Qed.
Print Assumptions C68_symmetric.

(** Laplacian matrices: positions of the symmetric parametrisation are used; with at most 38 nodes some lie outside *)
Theorem C68_laplacian_index_error :
  forall (K : Type) (O : Ops K) (F : Fld K) (O2 : OrdOps K) (OF : OrdFld K) tls n lam (Y X : mat (cplx K)),
  29 <= n -> n <= 38 -> shape Y n n -> shape X n n -> no_zero_line n Y -> (forall i, i < n -> nonzero_parts (reference tls n Y i)) ->
  bayesian_prior n lam Y (Some X) true tls true false = Err IndexError.
Proof. exact @p_laplacian_range. Qed.
Print Assumptions C68_laplacian_index_error.

(** with more nodes the conductance of the first known line is free *)
Theorem C68_laplacian_line_ignored :
  forall (K : Type) (O : Ops K) (F : Fld K) (O2 : OrdOps K) (OF : OrdFld K) tls n lam (Y X : mat (cplx K)),
  39 <= n -> shape Y n n -> shape X n n -> no_zero_line n Y -> (forall i, i < n -> nonzero_parts (reference tls n Y i)) ->
  exists q, bayesian_prior n lam Y (Some X) true tls true false = Ok q /\
    forall M L, laplacian n M -> laplacian n L -> differ_in_conductance n 1 0 M L -> exists d,
      penalty_at q (parameters true M) (line_pen (tenth 8) n Y M + node_pen (tenth 8) lam tls n Y M + d)%K /\
      penalty_at q (parameters true L) (line_pen (tenth 8) n Y L + node_pen (tenth 8) lam tls n Y L + d)%K.
Proof. exact @p_laplacian_wrong. Qed.
Print Assumptions C68_laplacian_line_ignored.

Lemma kadd_cancel_l : forall a b c : Qc, (a + b = a + c)%K -> b = c.
Proof. intros a b c H. cbn in H. assert (b = (- a + (a + b)))%Qc by ring. rewrite H0, H. ring. Qed.
Notation ex_full n := (mk n n (fun i j => if i =? j then cz 3 5 else cz (-1) (-2))).
Lemma ex_full_zero : forall n, no_zero_lineb n (ex_full n) = true -> no_zero_line n (ex_full n).
Proof. intros n. apply no_zero_lineb_ok. Qed.
Notation ex_star n v := (mk n n (fun i j => if i + j =? 1 then cz v 0 else if (i =? j) && (i <=? 1) then cz (- v) 0 else cz 0 0)).
Example C68_example :
  shape (ex_full 30) 30 30 /\ no_zero_line 30 (ex_full 30) /\ (forall i, i < 30 -> nonzero_parts (reference false 30 (ex_full 30) i)) /\
  shape (ex_full 39) 39 39 /\ no_zero_line 39 (ex_full 39) /\ (forall i, i < 39 -> nonzero_parts (reference false 39 (ex_full 39) i)) /\
  laplacian 39 (ex_star 39 2) /\ laplacian 39 (ex_star 39 7) /\ differ_in_conductance 39 1 0 (ex_star 39 2) (ex_star 39 7).
Proof.
  split; [apply shape_mk|]. split; [apply no_zero_lineb_ok; vm_compute; reflexivity|]. split; [apply referencesb_ok; vm_compute; reflexivity|].
  split; [apply shape_mk|]. split; [apply no_zero_lineb_ok; vm_compute; reflexivity|]. split; [apply referencesb_ok; vm_compute; reflexivity|].
  split; [apply laplacianb_ok; vm_compute; reflexivity|]. split; [apply laplacianb_ok; vm_compute; reflexivity|].
  intros i j Hj Hi. rewrite !get_mk by lia. destruct (Nat.eqb_spec (i + j) 1).
  - split; [reflexivity|]. intros Hne. exfalso. apply Hne. f_equal; lia.
  - destruct (Nat.eqb_spec i j); [lia|]. cbn [andb]. split; reflexivity.
Qed.

Theorem C68_laplacian_refuted :
  exists tls n lam (Y X M : mat (cplx Qc)), 39 <= n /\ shape Y n n /\ shape X n n /\ no_zero_line n Y /\
  (forall i, i < n -> nonzero_parts (reference tls n Y i)) /\ laplacian n M /\
  ~ exists q, bayesian_prior n lam Y (Some X) true tls true false = Ok q /\ forall M, laplacian n M ->
    penalty_at q (parameters true M)
      (line_pen (tenth 8) n Y M + node_pen (tenth 8) lam tls n Y M + knowledge (tenth 8) lam 1 opt_nodes opt_lines n X M)%K.
Proof.
  destruct C68_example as (_ & _ & _ & SY & ZY & RY & L1 & L2 & D).
  exists false, 39, (zq 1), (ex_full 39), (ex_full 39), (ex_star 39 2).
  split; [lia|]. split; [exact SY|]. split; [exact SY|]. split; [exact ZY|]. split; [exact RY|]. split; [exact L1|].
  intros (q & E & H).
  destruct (C68_laplacian_line_ignored Qc _ _ _ _ false 39 (zq 1) (ex_full 39) (ex_full 39) (le_n 39) SY SY ZY RY) as (r & E2 & I).
  assert (q = r) by congruence. subst r. clear E E2. destruct (I _ _ L1 L2 D) as (d & I1 & I2).
  assert (A1 := penalty_unique _ _ _ _ (H _ L1) I1). assert (A2 := penalty_unique _ _ _ _ (H _ L2) I2). clear H I I1 I2.
  assert (K1 : knowledge (tenth 8) (zq 1) (1%K : Qc) opt_nodes opt_lines 39 (ex_full 39) (ex_star 39 2) = d).
  { apply (kadd_cancel_l _ _ _ A1). }
  assert (K2 : knowledge (tenth 8) (zq 1) (1%K : Qc) opt_nodes opt_lines 39 (ex_full 39) (ex_star 39 7) = d).
  { apply (kadd_cancel_l _ _ _ A2). }
  clear A1 A2. rewrite <- K2 in K1. clear K2. apply (keqb_eq (K := Qc)) in K1. vm_compute in K1. discriminate.
Qed.
Print Assumptions C68_laplacian_refuted.

(** ** C69 *)
Theorem C69_exact_lines :
  forall (K : Type) (O : Ops K) (F : Fld K) (O2 : OrdOps K) (OF : OrdFld K) n (Y : mat (cplx K)), 2 <= n -> shape Y n n ->
  exists p, build_loads_id_prior n Y = Ok p /\ forall M, shape M n n ->
    penalty_at p (parameters false M) (exact_lines (tenth 10) n Y M).
Proof. exact @p_loads. Qed.
Print Assumptions C69_exact_lines.

Example C69_example : shape ex_y 3 3 /\ exact_lines (tenth 10) 3 ex_y ex_y = (zq 1 + zq 6 * tenth 10)%K /\
  exact_lines (tenth 10) 3 ex_y ex_m = (zq 5 + zq 6 * tenth 10)%K.
Proof. split; [apply ex_y_shape|]. split; apply keqb_eq; vm_compute; reflexivity. Qed.
