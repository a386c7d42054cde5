(** Property C109: total least squares returns the smallest correction of the data. *)
From Coq Require Import Arith ZArith Lia List Bool Qcanon.
From Verif Require Import BasePy BaseFld BaseOrd BaseSum BaseMat BaseNumpy BaseLin BaseEx ModelMatrixOps ModelLS SpecMatrix SpecLS SpecOrder SpecTLS ProofMatrixOps ProofLS ProofTLSOpt ProofTLSOpt2 PropLS PropOrder.
Import ListNotations.
Close Scope Qc_scope. Close Scope Q_scope. Open Scope nat_scope.

Lemma stands_for_list : forall (K : Type) (O : Ops K) n (b : mat (cplx K)), shape b n 1 -> stands_for n 1 (A1 (concat (dat b))) b.
Proof.
  intros K O n b HB. split; [exact HB|]. split; [reflexivity|]. destruct HB as (W & R & C).
  assert (G : forall l : list (list (cplx K)), (forall r, In r l -> length r = 1) -> length (concat l) = length l /\ forall i, i < length l -> nth i (concat l) 0%K = nth 0 (nth i l []) 0%K).
  { induction l as [|r l IH]; intro H; [split; [reflexivity|intros i Hi; inversion Hi]|]. destruct IH as [IL IH]; [intros; apply H; right; assumption|]. pose proof (H r (or_introl eq_refl)) as E. destruct r as [|z [|z' r]]; try discriminate. split; [cbn; f_equal; exact IL|]. intros [|i] Hi; [reflexivity|]. cbn. apply IH. cbn in Hi. lia. }
  destruct W as [W1 W2]. destruct (G (dat b)) as [G1 G2]; [intros r Hr; rewrite Forall_forall in W2; rewrite (W2 r Hr); exact C|]. split; [rewrite G1, W1; exact R|]. intros i Hi. unfold vget, get. apply G2. lia.
Qed.
Lemma stands_for_unique : forall (K : Type) (O : Ops K) n m r (b b' : mat (cplx K)), stands_for n m r b -> stands_for n m r b' -> b = b'.
Proof.
  intros K O n m [v|c] b b' [H1 H2] [H3 H4]; [|congruence]. destruct H2 as (M1 & L & E). destruct H4 as (_ & _ & E'). subst m. apply (gshape_ext _ _ n 1 H1 H3). intros i j Hi Hj. replace j with 0 by lia. rewrite <- E, <- E' by exact Hi. reflexivity.
Qed.

Theorem C109_least_correction :
  forall (K : Type) (O : Ops K) (F : Fld K) (O2 : OrdOps K) (OF : OrdFld K) (svd : mat (cplx K) -> mat (cplx K) * list K * mat (cplx K)) T n m (x y : mat (cplx K)) r,
  shape x T n -> shape y T m -> 0 < m ->
  (let '(u, s, vh) := svd (hstack2 x y) in is_svd T (n + m) (hstack2 x y) u s vh) ->
  tls_fit svd x (A2 y) = Ok r ->
  exists b, stands_for n m r b /\ least_correction T n m x y b.
Proof.
  intros K O F O2 OF svd T n m x y r HX HY Hm HS H. pose proof (tls_result svd T n m x y r HX HY HS H) as R. destruct (svd (hstack2 x y)) as [[u s] vh]. destruct R as (i & HI & ->).
  exists (mmul (mopp (mslice (ctr vh) 0 n n (n + m))) i). split; [|apply (tls_least_correction T n m x y u vh s HX HY HS i HI)]. cbv zeta. pose proof (shB n m vh i HI) as SB. destruct (Nat.ltb_spec 1 m); [split; [exact SB|reflexivity]|]. assert (m = 1) by lia. subst m. apply stands_for_list. exact SB.
Qed.
Print Assumptions C109_least_correction.

(** the smallest correction is as large as the singular values that belong to the outputs: the sum of their squares *)
Theorem C109_size_of_correction :
  forall (K : Type) (O : Ops K) (F : Fld K) (O2 : OrdOps K) (OF : OrdFld K) (svd : mat (cplx K) -> mat (cplx K) * list K * mat (cplx K)) T n m (x y : mat (cplx K)) r,
  shape x T n -> shape y T m -> 0 < m ->
  (let '(u, s, vh) := svd (hstack2 x y) in is_svd T (n + m) (hstack2 x y) u s vh) ->
  tls_fit svd x (A2 y) = Ok r ->
  let '(_, s, _) := svd (hstack2 x y) in
  exists b dx dy, stands_for n m r b /\ corrects T n m x y b dx dy /\ effort dx dy = sumn m (fun k => (vget s (n + k)%nat * vget s (n + k)%nat)%K).
Proof.
  intros K O F O2 OF svd T n m x y r HX HY Hm HS H. pose proof (tls_result svd T n m x y r HX HY HS H) as R. destruct (svd (hstack2 x y)) as [[u s] vh]. destruct R as (i & HI & ->).
  destruct (tls_least T n m x y u vh s HX HY HS i HI) as (dx & dy & HC & HE & _). exists (mmul (mopp (mslice (ctr vh) 0 n n (n + m))) i), dx, dy. split; [|split; [exact HC|exact HE]].
  cbv zeta. pose proof (shB n m vh i HI) as SB. destruct (Nat.ltb_spec 1 m); [split; [exact SB|reflexivity]|]. assert (m = 1) by lia. subst m. apply stands_for_list. exact SB.
Qed.
Print Assumptions C109_size_of_correction.

(** no other matrix needs so small a correction, when the singular values are apart *)
Theorem C109_only_one :
  forall (K : Type) (O : Ops K) (F : Fld K) (O2 : OrdOps K) (OF : OrdFld K) (svd : mat (cplx K) -> mat (cplx K) * list K * mat (cplx K)) T n m (x y : mat (cplx K)) r b,
  shape x T n -> shape y T m -> 0 < m ->
  (let '(u, s, vh) := svd (hstack2 x y) in is_svd T (n + m) (hstack2 x y) u s vh /\ apart n (n + m) s) ->
  tls_fit svd x (A2 y) = Ok r ->
  (stands_for n m r b <-> least_correction T n m x y b).
Proof.
  intros K O F O2 OF svd T n m x y r b HX HY Hm HS H. assert (HS' : let '(u, s, vh) := svd (hstack2 x y) in is_svd T (n + m) (hstack2 x y) u s vh) by (destruct (svd (hstack2 x y)) as [[u s] vh]; exact (proj1 HS)).
  destruct (C109_least_correction K O F O2 OF svd T n m x y r HX HY Hm HS' H) as (b0 & S0 & L0). pose proof (tls_result svd T n m x y r HX HY HS' H) as R. destruct (svd (hstack2 x y)) as [[u s] vh]. destruct R as (i & HI & ER). destruct HS as [HS SEP].
  split; [intro S; rewrite (stands_for_unique K O n m r b b0 S S0); exact L0|]. intro L. rewrite (tls_unique T n m x y u vh s HX HY HS i HI Hm SEP b L). rewrite <- (tls_unique T n m x y u vh s HX HY HS i HI Hm SEP b0 L0). exact S0.
Qed.
Print Assumptions C109_only_one.

(** the outputs given as a list *)
Theorem C109_single_output :
  forall (K : Type) (O : Ops K) (F : Fld K) (O2 : OrdOps K) (OF : OrdFld K) (svd : mat (cplx K) -> mat (cplx K) * list K * mat (cplx K)) T n (x : mat (cplx K)) (y : list (cplx K)) r,
  shape x T n -> length y = T ->
  (let '(u, s, vh) := svd (hstack2 x (colm y)) in is_svd T (n + 1) (hstack2 x (colm y)) u s vh) ->
  tls_fit svd x (A1 y) = Ok r ->
  exists v, r = A1 v /\ length v = n /\ least_correction T n 1 x (colm y) (colm v).
Proof.
  intros K O F O2 OF svd T n x y r HX L HS H. change (tls_fit svd x (A1 y)) with (tls_fit svd x (A2 (colm y))) in H. assert (HY : shape (colm y) T 1) by (rewrite <- L; apply shape_mk).
  destruct (C109_least_correction K O F O2 OF svd T n 1 x (colm y) r HX HY ltac:(lia) HS H) as (b & S & LC). pose proof (tls_result svd T n 1 x (colm y) r HX HY HS H) as R. destruct (svd (hstack2 x (colm y))) as [[u s] vh]. destruct R as (i & _ & ER). change (1 <? 1) with false in ER. cbv zeta iota in ER. destruct r as [v|]; [|discriminate].
  exists v. split; [reflexivity|]. destruct S as (SB & _ & LV & E). split; [exact LV|]. replace (colm v) with b; [exact LC|]. apply (gshape_ext _ _ n 1 SB); [rewrite <- LV; apply shape_mk|]. intros p q Hp Hq. unfold colm. rewrite get_mk by lia. replace q with 0 by lia. symmetry. apply E. exact Hp.
Qed.
Print Assumptions C109_single_output.

(** *** two samples: the estimate 4/3 needs a correction of size 1, and only it *)
Example C109_ex :
  tls_fit tl_svd tl_x (A2 tl_y) = Ok (A1 [Cx (qq 4 3) (zq 0)]) /\
  least_correction 2 1 1 tl_x tl_y (rows [[Cx (qq 4 3) (zq 0)]]) /\
  (forall b, least_correction 2 1 1 tl_x tl_y b -> b = rows [[Cx (qq 4 3) (zq 0)]]) /\
  exists b dx dy, corrects 2 1 1 tl_x tl_y b dx dy /\ effort dx dy = zq 1.
Proof.
  assert (R : tls_fit tl_svd tl_x (A2 tl_y) = Ok (A1 [Cx (qq 4 3) (zq 0)])). { assert (G : match tls_fit tl_svd tl_x (A2 tl_y) with Ok (A1 [b]) => b = Cx (qq 4 3) (zq 0) | _ => False end) by (apply cplx_eq; vm_compute; reflexivity). destruct (tls_fit tl_svd tl_x (A2 tl_y)) as [[[|b [|]]|]|]; try contradiction. rewrite G. reflexivity. }
  assert (X : shape tl_x 2 1) by (apply shapeb_shape; reflexivity). assert (Y : shape tl_y 2 1) by (apply shapeb_shape; reflexivity).
  assert (ES : tl_svd (hstack2 tl_x tl_y) = (meye 2, [zq 2; zq 1], ex_vh)). { unfold tl_svd. replace (meqb (hstack2 tl_x tl_y) (hstack2 tl_x tl_y)) with true by (vm_compute; reflexivity). reflexivity. }
  assert (S : stands_for 1 1 (A1 [Cx (qq 4 3) (zq 0)]) (rows [[Cx (qq 4 3) (zq 0)]])). { split; [apply shapeb_shape; reflexivity|]. split; [reflexivity|]. split; [reflexivity|]. intros [|i] Hi; [reflexivity|lia]. }
  assert (U : forall b, stands_for 1 1 (A1 [Cx (qq 4 3) (zq 0)]) b <-> least_correction 2 1 1 tl_x tl_y b).
  { intro b. apply (C109_only_one Qc _ _ _ _ tl_svd 2 1 1 tl_x tl_y _ b X Y ltac:(lia)); [|exact R]. rewrite ES. split; [exact tl_ok|]. intros [|i] [|[|j]] Hi Hj HM; try lia. vm_compute. reflexivity. }
  split; [exact R|]. split; [apply U; exact S|]. split; [intros b L; apply U in L; exact (stands_for_unique _ _ _ _ _ _ _ L S)|].
  pose proof (C109_size_of_correction Qc _ _ _ _ tl_svd 2 1 1 tl_x tl_y (A1 [Cx (qq 4 3) (zq 0)]) X Y ltac:(lia)) as Z. rewrite ES in Z. destruct (Z tl_ok R) as (b & dx & dy & _ & C & E). exists b, dx, dy. split; [exact C|]. rewrite E. vm_compute. reflexivity.
Qed.
