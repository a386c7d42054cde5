(** Exact linear algebra over a field: a kernel vector of a wide matrix by
    elimination, and from it an exact solver and an exact inverse.  They model
    [np.linalg.inv] in exact arithmetic: the inverse if there is one, otherwise
    LinAlgError. *)
From Coq Require Import Arith Lia List Bool.
From Coq Require Import Ring Field.
From Verif Require Import BasePy BaseFld BaseSum BaseMat.
Import ListNotations.
Local Open Scope K_scope.

Section Lin.
Context {K : Type} {O : Ops K}.

Fixpoint ldot (u v : list K) : K :=
  match u, v with a :: u', b :: v' => a * b + ldot u' v' | _, _ => 0 end.
Fixpoint lrem {A} (p : nat) (l : list A) : list A :=
  match l, p with [], _ => [] | _ :: r, 0 => r | x :: r, S q => x :: lrem q r end.
Fixpoint lins {A} (p : nat) (x : A) (l : list A) : list A :=
  match p with 0 => x :: l | S q => match l with [] => [x] | y :: r => y :: lins q x r end end.
(** [s - k * r] *)
Fixpoint lelim (k : K) (s r : list K) : list K :=
  match s, r with a :: s', b :: r' => (a - k * b) :: lelim k s' r' | _, _ => [] end.
Fixpoint pivot (r : list K) : option nat :=
  match r with [] => None | x :: r' => if x =? 0 then option_map S (pivot r') else Some 0%nat end.

Fixpoint kvec (m : nat) (rows : list (list K)) (n : nat) : list K :=
  match m, rows with
  | S m', r :: rest =>
      match pivot r with
      | None => kvec m' rest n
      | Some p => let c := nth p r 0 in
          let v := kvec m' (map (fun s => lrem p (lelim (nth p s 0 / c) s r)) rest) (pred n) in
          lins p (- ldot (lrem p r) v / c) v
      end
  | _, _ => 1 :: repeat 0 (pred n)
  end.

(** solution of a square system; LinAlgError when the elimination finds none *)
Definition ksolve (A : mat K) (b : list K) : res (list K) :=
  let rows := map (fun p => fst p ++ [snd p]) (combine (dat A) b) in
  let v := kvec (length rows) rows (S (nc A)) in
  let t := nth (nc A) v 0 in
  if t =? 0 then Err LinAlgError else Ok (map (fun y => - y / t) (firstn (nc A) v)).

Fixpoint mapM {A B} (f : A -> res B) (l : list A) : res (list B) :=
  match l with [] => Ok [] | x :: r => y <- f x ;; ys <- mapM f r ;; Ok (y :: ys) end.

Definition unitv (n j : nat) : list K := mkv n (fun i => if (i =? j)%nat then 1 else 0).

Definition kinverse (A : mat K) : res (mat K) :=
  if (nr A =? nc A)%nat then
    cols <- mapM (fun j => ksolve A (unitv (nr A) j)) (range (nr A)) ;;
    Ok (mk (nr A) (nr A) (fun i j => vget (nth j cols []) i))
  else Err LinAlgError.

(** independent columns *)
Definition inj (A : mat K) : Prop :=
  forall v, length v = nc A -> mvmul A v = vzeros (nr A) -> v = vzeros (nc A).

Context {F : Fld K}.
Add Field Kfld : (@k_field K O F).

Lemma ldot_vdot : forall u v, length u = length v -> ldot u v = vdot u v.
Proof.
  unfold vdot. induction u as [|a u IH]; intros [|b v] H; simpl in H; try discriminate; auto.
  cbn [length]. rewrite sumn_S_l. simpl. rewrite IH by lia. reflexivity.
Qed.
Lemma lrem_length : forall A p (l : list A), (p < length l)%nat -> length (lrem p l) = pred (length l).
Proof.
  induction p; intros [|x l] H; simpl in *; auto; try lia. rewrite IHp by lia. lia.
Qed.
Lemma lins_length : forall A p (x : A) l, length (lins p x l) = S (length l).
Proof. induction p; intros x [|y l]; simpl; auto. Qed.
Lemma lelim_length : forall k s r, length s = length r -> length (lelim k s r) = length s.
Proof. induction s; intros [|b r] H; simpl in *; auto; try discriminate. Qed.
Lemma ldot_lelim : forall k s r v, length s = length r -> length r = length v ->
  ldot (lelim k s r) v = ldot s v - k * ldot r v.
Proof.
  induction s as [|a s IH]; intros [|b r] [|c v] H1 H2; simpl in *; try discriminate; try ring.
  rewrite IH by lia. ring.
Qed.
Lemma ldot_ins : forall p r x v, (p < length r)%nat -> length r = S (length v) ->
  ldot r (lins p x v) = nth p r 0 * x + ldot (lrem p r) v.
Proof.
  induction p; intros [|a r] x v H1 H2; simpl in *; try lia; auto.
  destruct v as [|y v]; simpl in *; [lia|]. rewrite IHp by lia. simpl. ring.
Qed.
Lemma ldot_rem_zero : forall p s x v, (p < length s)%nat -> length s = S (length v) -> nth p s 0 = 0 ->
  ldot s (lins p x v) = ldot (lrem p s) v.
Proof. intros p s x v H1 H2 H3. rewrite ldot_ins, H3 by auto. ring. Qed.
Lemma nth_lelim : forall k s r p, length s = length r -> (p < length s)%nat ->
  nth p (lelim k s r) 0 = nth p s 0 - k * nth p r 0.
Proof.
  induction s as [|a s IH]; intros [|b r] [|p] H1 H2; simpl in *; try lia; auto.
  apply IH; lia.
Qed.
Lemma nth_lins_other : forall A p (x : A) l j d, (p <= length l)%nat ->
  nth (if (j <? p)%nat then j else S j) (lins p x l) d = nth j l d.
Proof.
  induction p; intros x l j d H; simpl.
  - destruct j; reflexivity.
  - destruct l as [|y l]; simpl in H; [lia|]. destruct j; simpl; auto.
    specialize (IHp x l j d ltac:(lia)). change (S j <? S p)%nat with (j <? p)%nat. destruct (j <? p)%nat; simpl in *; auto.
Qed.

Lemma pivot_some : forall r p, pivot r = Some p -> (p < length r)%nat /\ nth p r 0 <> 0.
Proof.
  induction r as [|x r IH]; simpl; intros p H; [discriminate|].
  destruct (x =? 0) eqn:E.
  - destruct (pivot r) as [q|]; simpl in H; [|discriminate]. injection H as <-. destruct (IH q eq_refl). split; [lia|auto].
  - injection H as <-. split; [lia|]. intro Z. apply keqb_eq in Z. congruence.
Qed.
Lemma pivot_none : forall r v, pivot r = None -> ldot r v = 0.
Proof.
  induction r as [|x r IH]; intros v H; [destruct v; reflexivity|]. simpl in H.
  destruct (x =? 0) eqn:E; [|discriminate]. apply keqb_eq in E. subst x.
  destruct (pivot r) eqn:Ep; [discriminate|]. destruct v as [|y v]; [reflexivity|]. simpl. rewrite IH by auto. ring.
Qed.

Lemma kvec_ok : forall m rows n, length rows = m -> Forall (fun r => length r = n) rows -> (m < n)%nat ->
  length (kvec m rows n) = n /\ (exists i, nth i (kvec m rows n) 0 <> 0) /\
  Forall (fun r => ldot r (kvec m rows n) = 0) rows.
Proof.
  induction m; intros rows n Hl Hf Hn.
  - destruct rows; [|discriminate]. simpl. rewrite repeat_length. split; [lia|]. split; [|constructor].
    exists 0%nat. simpl. apply k1_neq0.
  - destruct rows as [|r rest]; [discriminate|]. inversion Hf as [|? ? Hr Hrest]; subst. cbn [kvec].
    destruct (pivot r) as [p|] eqn:Ep.
    + destruct (pivot_some _ _ Ep) as [Hp Hc].
      set (c := nth p r 0) in *.
      set (rest' := map (fun s => lrem p (lelim (nth p s 0 / c) s r)) rest).
      destruct (IHm rest' (pred (length r))) as (L & (i & Hi) & Z).
      { unfold rest'. rewrite map_length. simpl in Hl. lia. }
      { unfold rest'. apply Forall_map. eapply Forall_impl; [|exact Hrest]. simpl. intros s Hs.
        rewrite lrem_length by (rewrite lelim_length; lia). rewrite lelim_length by lia. lia. }
      { lia. }
      set (v := kvec m rest' (pred (length r))) in *. set (x := - ldot (lrem p r) v / c).
      split; [rewrite lins_length; lia|]. split.
      { exists (if (i <? p)%nat then i else S i). rewrite nth_lins_other by lia. auto. }
      assert (Zr : ldot r (lins p x v) = 0).
      { rewrite ldot_ins by lia. fold c. unfold x. field. auto. }
      constructor; auto.
      rewrite Forall_forall in *. intros s Hs. specialize (Hrest s Hs).
      assert (Zs : ldot (lrem p (lelim (nth p s 0 / c) s r)) v = 0).
      { apply Z. unfold rest'. apply in_map_iff. exists s; auto. }
      assert (E : ldot (lelim (nth p s 0 / c) s r) (lins p x v) = 0).
      { rewrite ldot_rem_zero; auto.
        - rewrite lelim_length; lia.
        - rewrite lelim_length; lia.
        - rewrite nth_lelim by lia. fold c. field. auto. }
      rewrite ldot_lelim in E by (rewrite ?lins_length; lia). rewrite Zr in E.
      rewrite <- E. ring.
    + destruct (IHm rest (length r)) as (L & I & Z); auto; try (simpl in Hl; lia).
      split; [auto|]. split; [auto|]. constructor; auto. apply pivot_none; auto.
Qed.

(** every wide matrix has a non-zero kernel vector *)
Lemma length_vzeros : forall n, length (vzeros n : list K) = n.
Proof. intros. apply repeat_length. Qed.
Lemma vget_vzeros : forall n i, vget (vzeros n : list K) i = 0.
Proof. intros. unfold vget, vzeros. apply nth_repeat. Qed.

Lemma dat_length : forall (A : mat K) m n, shape A m n -> length (dat A) = m.
Proof. intros A m n ((W & _) & H & _). congruence. Qed.
Lemma dat_row : forall (A : mat K) m n i, shape A m n -> (i < m)%nat -> length (nth i (dat A) []) = n.
Proof.
  intros A m n i ((W & W2) & Hr & Hc) Hi. rewrite Forall_forall in W2. rewrite <- Hc. apply W2. apply nth_In. lia.
Qed.

Lemma vget_mvmul_ldot : forall (A : mat K) m n v i, shape A m n -> length v = n -> (i < m)%nat ->
  vget (mvmul A v) i = ldot (nth i (dat A) []) v.
Proof.
  intros A m n v i Sh Hv Hi. rewrite ldot_vdot by (rewrite (dat_row A m n); auto).
  destruct Sh as (W & Hr & Hc). rewrite vget_mvmul by lia. unfold vdot.
  rewrite (dat_row A m n i) by (try split; auto). rewrite Hc. reflexivity.
Qed.

Theorem wide_kernel : forall (A : mat K) m n, shape A m n -> (m < n)%nat ->
  exists v, length v = n /\ v <> vzeros n /\ mvmul A v = vzeros m.
Proof.
  intros A m n Sh H. destruct (kvec_ok m (dat A) n) as (L & (i & Hi) & Z); auto.
  - apply (dat_length A m n Sh).
  - destruct Sh as ((_ & W) & _ & Hc). rewrite <- Hc. auto.
  - exists (kvec m (dat A) n). split; [auto|]. split.
    + intro E. apply Hi. rewrite E. apply vget_vzeros.
    + pose proof Sh as (W & Hr & Hc).
      apply vec_ext; [rewrite length_mvmul, length_vzeros; auto|]. intros j Hj. rewrite length_mvmul in Hj.
      rewrite vget_vzeros. rewrite (vget_mvmul_ldot A m n) by (auto; lia).
      rewrite Forall_forall in Z. apply Z. apply nth_In. rewrite (dat_length A m n Sh). lia.
Qed.

Lemma wide_not_inj : forall (A : mat K) m n, shape A m n -> (m < n)%nat -> ~ inj A.
Proof.
  intros A m n Sh H I. destruct (wide_kernel A m n Sh H) as (v & L & N & Z).
  destruct Sh as (W & Hr & Hc). apply N. rewrite <- Hc. apply I; [lia|]. rewrite Hr. auto.
Qed.

Lemma ldot_app : forall a b v w, length a = length v -> ldot (a ++ b) (v ++ w) = ldot a v + ldot b w.
Proof.
  induction a as [|x a IH]; intros b [|y v] w H; simpl in *; try discriminate.
  - ring.
  - rewrite IH by lia. ring.
Qed.
Lemma ldot_map : forall a v (k : K), ldot a (map (fun y => - y / k) v) = - ldot a v / k.
Proof.
  intros a v k. rewrite kdiv_def. revert v.
  induction a as [|x a IH]; intros [|y v]; simpl; try rewrite IH; rewrite ?kdiv_def; ring.
Qed.

Lemma split_last : forall n (v : list K), length v = S n -> v = firstn n v ++ [nth n v 0].
Proof.
  intros n v H. rewrite <- (firstn_skipn n v) at 1. f_equal.
  assert (L : length (skipn n v) = 1%nat) by (rewrite skipn_length; lia).
  destruct (skipn n v) as [|x [|y l]] eqn:E; simpl in L; try lia.
  assert (N : nth n v 0 = nth 0 (skipn n v) 0).
  { rewrite <- (firstn_skipn n v) at 1. rewrite app_nth2 by (rewrite firstn_length; lia). f_equal. rewrite firstn_length. lia. }
  rewrite N, E. reflexivity.
Qed.

Lemma aug_rows : forall (A : mat K) n b, shape A n n -> length b = n ->
  let rows := map (fun p => fst p ++ [snd p]) (combine (dat A) b) in
  length rows = n /\ Forall (fun r => length r = S n) rows /\
  forall i, (i < n)%nat -> nth i rows [] = nth i (dat A) [] ++ [nth i b 0].
Proof.
  intros A n b Sh Hb rows. pose proof (dat_length A n n Sh) as Hd.
  assert (L : length rows = n) by (unfold rows; rewrite map_length, combine_length; lia).
  split; [auto|].
  assert (N : forall i, (i < n)%nat -> nth i rows [] = nth i (dat A) [] ++ [nth i b 0]).
  { intros i Hi. unfold rows.
    rewrite (nth_indep _ [] (fst ([]:list K, 0:K) ++ [snd ([]:list K, 0:K)])) by (rewrite map_length, combine_length; lia).
    rewrite (map_nth (fun p : list K * K => fst p ++ [snd p]) (combine (dat A) b) ([], 0) i). rewrite combine_nth by lia. reflexivity. }
  split; [|auto]. apply Forall_forall. intros r Hr. destruct (In_nth _ _ [] Hr) as (i & Hi & <-).
  rewrite N by lia. rewrite app_length, (dat_row A n n i) by (auto; lia). simpl. lia.
Qed.

Lemma ksolve_core : forall (A : mat K) n b, shape A n n -> length b = n ->
  exists x t, length x = n /\ (x <> vzeros n \/ t <> 0) /\
    (forall i, (i < n)%nat -> ldot (nth i (dat A) []) x + nth i b 0 * t = 0) /\
    ksolve A b = (if t =? 0 then Err LinAlgError else Ok (map (fun y => - y / t) x)).
Proof.
  intros A n b Sh Hb. destruct (aug_rows A n b Sh Hb) as (L & Fr & N). pose proof Sh as (W & Hr & Hc).
  set (rows := map (fun p => fst p ++ [snd p]) (combine (dat A) b)) in *.
  destruct (kvec_ok n rows (S n) L Fr ltac:(lia)) as (Lv & (k & Hk) & Z).
  set (v := kvec n rows (S n)) in *.
  exists (firstn n v), (nth n v 0). split; [rewrite firstn_length; lia|]. split; [|split].
  - destruct (k_eq_dec (nth n v 0) 0) as [E|E]; auto. left. intro E2. apply Hk.
    rewrite (split_last n v Lv), E2, E. destruct (Nat.lt_ge_cases k n).
    + rewrite app_nth1 by (rewrite length_vzeros; auto). apply vget_vzeros.
    + rewrite app_nth2 by (rewrite length_vzeros; auto). rewrite length_vzeros. destruct (k - n)%nat as [|[|q]]; reflexivity.
  - intros i Hi. rewrite Forall_forall in Z. specialize (Z (nth i rows [])).
    rewrite N in Z by auto. rewrite (split_last n v Lv) in Z.
    rewrite ldot_app in Z by (rewrite firstn_length, (dat_row A n n i) by auto; lia).
    rewrite <- N in Z by auto. simpl in Z. etransitivity; [|apply Z; apply nth_In; lia]. ring.
  - unfold ksolve. fold rows. rewrite L, Hc. reflexivity.
Qed.

Lemma ksolve_sound : forall (A : mat K) n b x, shape A n n -> length b = n -> ksolve A b = Ok x ->
  length x = n /\ mvmul A x = b.
Proof.
  intros A n b x Sh Hb E. destruct (ksolve_core A n b Sh Hb) as (y & t & Ly & _ & Z & E2).
  rewrite E2 in E. destruct (t =? 0) eqn:Et; [discriminate|]. injection E as <-.
  assert (Ht : t <> 0) by (intro H; apply keqb_eq in H; congruence).
  split; [rewrite map_length; auto|]. pose proof Sh as (W & Hr & Hc).
  apply vec_ext; [rewrite length_mvmul; lia|]. intros i Hi. rewrite length_mvmul in Hi.
  rewrite (vget_mvmul_ldot A n n) by (auto; try rewrite map_length; lia).
  rewrite ldot_map. specialize (Z i ltac:(lia)). unfold vget.
  assert (Q : ldot (nth i (dat A) []) y = - (nth i b 0 * t)).
  { apply ksub_eq0. etransitivity; [|exact Z]. ring. }
  rewrite Q. field. auto.
Qed.

Lemma ksolve_err : forall (A : mat K) n b e, shape A n n -> length b = n -> ksolve A b = Err e ->
  e = LinAlgError /\ ~ inj A.
Proof.
  intros A n b e Sh Hb E. destruct (ksolve_core A n b Sh Hb) as (y & t & Ly & Nz & Z & E2).
  rewrite E2 in E. destruct (t =? 0) eqn:Et; [|discriminate]. injection E as <-.
  apply keqb_eq in Et. split; [auto|]. intro I. pose proof Sh as (W & Hr & Hc).
  destruct Nz as [N|N]; [|contradiction]. apply N. rewrite <- Hc. apply I; [lia|].
  apply vec_ext; [rewrite length_mvmul, length_vzeros; auto|]. intros i Hi. rewrite length_mvmul in Hi.
  rewrite (vget_mvmul_ldot A n n) by (auto; lia). rewrite vget_vzeros. etransitivity; [|apply (Z i ltac:(lia))]. rewrite Et. ring.
Qed.

(** *** injectivity and inverses *)
Lemma mvmul_vzeros : forall (A : mat K) n, mvmul A (vzeros n) = vzeros (nr A).
Proof.
  intros A n. apply vec_ext; [rewrite length_mvmul, length_vzeros; auto|]. intros i Hi. rewrite length_mvmul in Hi.
  rewrite vget_mvmul by auto. rewrite vget_vzeros. apply sumn_zero. intros. rewrite vget_vzeros. ring.
Qed.

Lemma left_inverse_inj : forall A B n m, shape A m n -> shape B n m -> mmul B A = meye n -> inj A.
Proof.
  intros A B n m (WA & RA & CA) (WB & RB & CB) E v Hv Z.
  rewrite <- (mvmul_1 v), Hv, CA, <- E, mvmul_assoc by congruence. rewrite Z. rewrite mvmul_vzeros. congruence.
Qed.

Lemma vsubt_self : forall v : list K, vsubt v v = vzeros (length v).
Proof.
  intros. apply vec_ext; [rewrite length_vsubt, length_vzeros; auto|]. rewrite length_vsubt. intros. rewrite vget_vsubt, vget_vzeros by auto. ring.
Qed.
Lemma vsubt_zero : forall u v : list K, length u = length v -> vsubt u v = vzeros (length u) -> u = v.
Proof.
  intros u v L E. apply vec_ext; auto. intros i Hi. apply ksub_eq0.
  rewrite <- vget_vsubt by auto. rewrite E. apply vget_vzeros.
Qed.

Lemma inj_cancel : forall (A : mat K) u v, inj A -> length u = nc A -> length v = nc A -> mvmul A u = mvmul A v -> u = v.
Proof.
  intros A u v I Lu Lv E. apply vsubt_zero; [congruence|]. rewrite Lu. apply I; [rewrite length_vsubt; auto|].
  rewrite mvmul_vsubt by congruence. rewrite E, vsubt_self, length_mvmul. reflexivity.
Qed.

(** columns *)
Definition mcol (A : mat K) (j : nat) : list K := mkv (nr A) (fun i => get A i j).
Lemma length_mcol : forall A j, length (mcol A j) = nr A.
Proof. intros. apply length_mkv. Qed.
Lemma vget_mcol : forall A i j, (i < nr A)%nat -> vget (mcol A j) i = get A i j.
Proof. intros. unfold mcol. rewrite vget_mkv; auto. Qed.
Lemma mcol_mmul : forall A B j, (j < nc B)%nat -> nc A = nr B -> mcol (mmul A B) j = mvmul A (mcol B j).
Proof.
  intros A B j Hj E. apply vec_ext; rewrite length_mcol, ?length_mvmul; auto. intros i Hi. simpl in Hi.
  rewrite vget_mcol by auto. rewrite get_mmul, vget_mvmul by auto. apply sumn_ext. intros k Hk. rewrite vget_mcol by lia. auto.
Qed.
Lemma mcol_ext : forall A B r c, shape A r c -> shape B r c -> (forall j, (j < c)%nat -> mcol A j = mcol B j) -> A = B.
Proof.
  intros A B r c SA SB H. apply (gshape_ext A B r c SA SB). intros i j Hi Hj.
  destruct SA as (_ & RA & _), SB as (_ & RB & _).
  rewrite <- (vget_mcol A), <- (vget_mcol B), H by lia. auto.
Qed.

Lemma inj_mcancel : forall A B D m n p, inj A -> shape A m n -> shape B n p -> shape D n p -> mmul A B = mmul A D -> B = D.
Proof.
  intros A B D m n p I SA SB SD E. apply (mcol_ext B D n p SB SD). intros j Hj.
  destruct SA as (_ & RA & CA), SB as (_ & RB & CB), SD as (_ & RD & CD).
  apply (inj_cancel A); auto; rewrite ?length_mcol; try congruence.
  rewrite <- !mcol_mmul by lia. rewrite E. auto.
Qed.

Lemma mapM_ok : forall A B (f : A -> res B) l ys, mapM f l = Ok ys ->
  length ys = length l /\ forall i d d', (i < length l)%nat -> f (nth i l d) = Ok (nth i ys d').
Proof.
  induction l as [|x l IH]; simpl; intros ys H.
  - injection H as <-. split; auto. intros; lia.
  - apply bind_ok in H. destruct H as (y & E1 & H). apply bind_ok in H. destruct H as (zs & E2 & H). injection H as <-.
    destruct (IH zs E2) as [L N]. split; [simpl; lia|]. intros [|i] d d' Hi; simpl; auto. apply N. lia.
Qed.
Lemma mapM_err : forall A B (f : A -> res B) l e, mapM f l = Err e -> exists x, In x l /\ f x = Err e.
Proof.
  induction l as [|x l IH]; simpl; intros e H; [discriminate|].
  destruct (f x) as [y|e'] eqn:E; cbn [bind] in H.
  - destruct (mapM f l) as [ys|e'] eqn:E2; cbn [bind] in H; [discriminate|]. destruct (IH e') as (z & Iz & Ez); auto.
    exists z. injection H as <-. auto.
  - injection H as <-. exists x. auto.
Qed.

Lemma length_unitv : forall n j, length (unitv n j) = n.
Proof. intros. apply length_mkv. Qed.
Lemma mcol_meye : forall n j, (j < n)%nat -> mcol (meye n) j = unitv n j.
Proof.
  intros n j Hj. unfold mcol, unitv. simpl. apply mkv_ext. intros i Hi. apply get_meye; auto.
Qed.

Lemma shape_meye : forall n, shape (meye n : mat K) n n.
Proof. intros. apply shape_mk. Qed.

Lemma right_inverse_left : forall A B n, shape A n n -> shape B n n -> mmul A B = meye n -> inj A -> mmul B A = meye n.
Proof.
  intros A B n SA SB E I. pose proof SA as (WA & RA & CA). pose proof SB as (WB & RB & CB).
  apply (inj_mcancel A _ _ n n n I SA).
  - apply (shape_mmul B A n n n); auto.
  - apply shape_meye.
  - rewrite <- mmul_assoc by congruence. rewrite E. rewrite mmul_1_l' by auto. rewrite mmul_1_r' by auto. auto.
Qed.

Theorem kinverse_sound : forall A n B, shape A n n -> kinverse A = Ok B ->
  shape B n n /\ mmul A B = meye n /\ mmul B A = meye n.
Proof.
  intros A n B SA E. pose proof SA as (WA & RA & CA). unfold kinverse in E. rewrite RA, CA, Nat.eqb_refl in E.
  apply bind_ok in E. destruct E as (cols & Ec & E). injection E as <-.
  destruct (mapM_ok _ _ _ _ _ Ec) as [L N]. rewrite length_range in *.
  assert (SB : shape (mk n n (fun i j => vget (nth j cols []) i)) n n) by apply shape_mk.
  set (B := mk n n (fun i j => vget (nth j cols []) i)) in *.
  assert (AB : mmul A B = meye n).
  { apply (mcol_ext _ _ n n); [apply (shape_mmul A B n n n); auto|apply shape_meye|].
    intros j Hj. rewrite mcol_mmul by (simpl; auto). rewrite mcol_meye by auto.
    specialize (N j 0%nat [] Hj). cbn beta in N. rewrite nth_range in N by auto.
    destruct (ksolve_sound A n _ _ SA (length_unitv n j) N) as [Lx Ex].
    rewrite <- Ex. f_equal. apply vec_ext; [rewrite length_mcol; simpl; auto|]. intros i Hi. rewrite length_mcol in Hi. simpl in Hi.
    rewrite vget_mcol by auto. unfold B. rewrite get_mk; auto. }
  split; [auto|]. split; [auto|].
  (* B is injective, so it has an inverse too *)
  assert (IB : inj B) by (apply (left_inverse_inj B A n n); auto).
  (* B injective square: build its right inverse with the solver *)
  assert (EB : exists D, shape D n n /\ mmul B D = meye n).
  { assert (Hs : forall j, (j < n)%nat -> exists x, ksolve B (unitv n j) = Ok x).
    { intros j Hj. destruct (ksolve B (unitv n j)) as [x|e] eqn:Es; [eauto|].
      destruct (ksolve_err B n _ e SB (length_unitv n j) Es). contradiction. }
    assert (Hm : exists l, mapM (fun j => ksolve B (unitv n j)) (range n) = Ok l).
    { destruct (mapM (fun j => ksolve B (unitv n j)) (range n)) as [l|e] eqn:Em; [eauto|].
      destruct (mapM_err _ _ _ _ _ Em) as (j & Ij & Ej). apply in_range in Ij. destruct (Hs j Ij) as [x Ex]. congruence. }
    destruct Hm as [l El]. destruct (mapM_ok _ _ _ _ _ El) as [Ll Nl]. rewrite length_range in *.
    exists (mk n n (fun i j => vget (nth j l []) i)). split; [apply shape_mk|].
    apply (mcol_ext _ _ n n); [apply (shape_mmul B (mk n n (fun i j => vget (nth j l []) i)) n n n); auto|apply shape_meye|].
    intros j Hj. rewrite mcol_mmul by (simpl; auto). rewrite mcol_meye by auto.
    specialize (Nl j 0%nat [] Hj). cbn beta in Nl. rewrite nth_range in Nl by auto.
    destruct (ksolve_sound B n _ _ SB (length_unitv n j) Nl) as [Lx Ex].
    rewrite <- Ex. f_equal. apply vec_ext; [rewrite length_mcol; simpl; auto|]. intros i Hi. rewrite length_mcol in Hi. simpl in Hi.
    rewrite vget_mcol by auto. rewrite get_mk; auto. }
  destruct EB as (D & SD & BD). pose proof SD as (WD & RD & CD).
  assert (DA : D = A).
  { rewrite <- (mmul_1_l' n D) by auto. rewrite <- AB. rewrite mmul_assoc by (simpl; congruence). rewrite BD.
    apply mmul_1_r'; auto. }
  rewrite <- DA. auto.
Qed.

Lemma inj_kinverse : forall A n, shape A n n -> inj A -> exists B, kinverse A = Ok B.
Proof.
  intros A n SA I. pose proof SA as (WA & RA & CA). unfold kinverse. rewrite RA, CA, Nat.eqb_refl.
  destruct (mapM (fun j => ksolve A (unitv n j)) (range n)) as [l|e] eqn:Em; [cbn [bind]; eauto|].
  destruct (mapM_err _ _ _ _ _ Em) as (j & Ij & Ej).
  destruct (ksolve_err A n _ e SA (length_unitv n j) Ej). contradiction.
Qed.

Theorem right_inverse_two_sided : forall A B n, shape A n n -> shape B n n -> mmul A B = meye n -> mmul B A = meye n.
Proof.
  intros A B n SA SB E. pose proof SA as (WA & RA & CA). pose proof SB as (WB & RB & CB).
  assert (IB : inj B) by (apply (left_inverse_inj B A n n); auto).
  destruct (inj_kinverse B n SB IB) as [D ED]. destruct (kinverse_sound B n D SB ED) as (SD & BD & DB).
  pose proof SD as (WD & RD & CD).
  assert (DA : D = A).
  { rewrite <- (mmul_1_l' n D) by auto. rewrite <- E. rewrite mmul_assoc by (simpl; congruence). rewrite BD.
    apply mmul_1_r'; auto. }
  rewrite <- DA. auto.
Qed.

Theorem kinverse_complete : forall A B n, shape A n n -> shape B n n -> mmul A B = meye n -> kinverse A = Ok B.
Proof.
  intros A B n SA SB E. pose proof SA as (WA & RA & CA). pose proof SB as (WB & RB & CB).
  assert (E' : mmul B A = meye n) by (apply right_inverse_two_sided; auto).
  assert (IA : inj A) by (apply (left_inverse_inj A B n n); auto).
  destruct (inj_kinverse A n SA IA) as [D ED]. destruct (kinverse_sound A n D SA ED) as (SD & AD & DA).
  rewrite ED. f_equal. apply (inj_mcancel A D B n n n); auto. congruence.
Qed.

Theorem kinverse_err : forall A e, kinverse A = Err e -> wf A -> e = LinAlgError.
Proof.
  intros A e E W. unfold kinverse in E. destruct (nr A =? nc A)%nat eqn:Es; [|congruence].
  destruct (mapM _ _) as [l|e'] eqn:Em; cbn [bind] in E; [discriminate|]. injection E as <-.
  destruct (mapM_err _ _ _ _ _ Em) as (j & Ij & Ej). apply Nat.eqb_eq in Es.
  destruct (ksolve_err A (nr A) _ e' ltac:(repeat split; try apply W; auto) (length_unitv (nr A) j) Ej). auto.
Qed.

Lemma inverse_sym : forall A B n, shape A n n -> shape B n n -> mmul A B = meye n -> tr A = A -> tr B = B.
Proof.
  intros A B n SA SB E T. pose proof SA as (WA & RA & CA). pose proof SB as (WB & RB & CB).
  assert (E2 : mmul A (tr B) = meye n).
  { assert (E' : mmul B A = meye n) by (apply right_inverse_two_sided; auto).
    rewrite <- (tr_meye n), <- E', tr_mmul by congruence. rewrite T. auto. }
  assert (IA : inj A).
  { apply (left_inverse_inj A B n n); auto. apply right_inverse_two_sided; auto. }
  apply (inj_mcancel A (tr B) B n n n); auto; [|congruence]. unfold tr, mtr. rewrite RB, CB. apply shape_mk.
Qed.
End Lin.
