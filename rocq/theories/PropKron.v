(** C43 to C45: network reduction. *)
From Coq Require Import Arith List Permutation Lia ZArith QArith Qcanon.
From Verif Require Import BasePy BaseFld BaseSum BaseMat BaseLin BaseOrd BaseEx ModelSet ModelKron SpecMatrix SpecLS SpecKron ProofSet ProofKron.
Import ListNotations.
Close Scope Qc_scope. Close Scope Q_scope. Open Scope nat_scope.

(** ** C43: external behaviour.  [order] is the node each row of the result belongs to; see C45. *)
Theorem C43_external_behaviour : forall K (O : Ops K) (F : Fld K) (FR : FReal K) (pinv : mat (cplx K) -> mat (cplx K)) Y B n idx,
  shape Y n n -> (forall i, In i idx -> i < n) ->
  shape B (length idx) (length idx) -> mmul (block_of Y idx idx) B = meye (length idx) ->
  penrose (length idx) (length idx) (block_of Y idx idx) (pinv (block_of Y idx idx)) ->
  exists Z order, kron_reduction pinv idx Y = Ok Z /\ Permutation order (kept_ascending n idx) /\ describes n order idx Y Z.
Proof. exact @p_kron_external. Qed.
Theorem C43_description_unique : forall K (O : Ops K) (F : Fld K) (FR : FReal K) n order idx (Y Z Z' : mat (cplx K)),
  describes n order idx Y Z -> describes n order idx Y Z' -> Z = Z'.
Proof. exact @p_kron_unique. Qed.
Theorem C43_listing_order_irrelevant : forall K (O : Ops K) (F : Fld K) (FR : FReal K) (pinv : mat (cplx K) -> mat (cplx K)) Y B n idx idx',
  shape Y n n -> (forall i, In i idx -> i < n) ->
  shape B (length idx) (length idx) -> mmul (block_of Y idx idx) B = meye (length idx) -> Permutation idx idx' ->
  penrose (length idx) (length idx) (block_of Y idx idx) (pinv (block_of Y idx idx)) ->
  penrose (length idx') (length idx') (block_of Y idx' idx') (pinv (block_of Y idx' idx')) ->
  kron_reduction pinv idx' Y = kron_reduction pinv idx Y.
Proof. exact @p_kron_listing. Qed.
Theorem C43_unknown_node_rejected : forall K (O : Ops K) (pinv : mat (cplx K) -> mat (cplx K)) Y n idx i,
  shape Y n n -> In i idx -> n <= i -> kron_reduction pinv idx Y = Err IndexError.
Proof. exact @p_kron_outside. Qed.
Print Assumptions C43_external_behaviour.
Print Assumptions C43_description_unique.
Print Assumptions C43_listing_order_irrelevant.
Print Assumptions C43_unknown_node_rejected.

(** ** C44 *)
Theorem C44_symmetry_kept : forall K (O : Ops K) (F : Fld K) (FR : FReal K) (pinv : mat (cplx K) -> mat (cplx K)) Y B n idx,
  shape Y n n -> (forall i, In i idx -> i < n) ->
  shape B (length idx) (length idx) -> mmul (block_of Y idx idx) B = meye (length idx) ->
  penrose (length idx) (length idx) (block_of Y idx idx) (pinv (block_of Y idx idx)) ->
  tr Y = Y -> exists Z, kron_reduction pinv idx Y = Ok Z /\ tr Z = Z.
Proof. exact @p_kron_symmetric. Qed.
Theorem C44_zero_sums_kept : forall K (O : Ops K) (F : Fld K) (FR : FReal K) (pinv : mat (cplx K) -> mat (cplx K)) Y B n idx,
  shape Y n n -> (forall i, In i idx -> i < n) ->
  shape B (length idx) (length idx) -> mmul (block_of Y idx idx) B = meye (length idx) ->
  penrose (length idx) (length idx) (block_of Y idx idx) (pinv (block_of Y idx idx)) ->
  exists Z m, kron_reduction pinv idx Y = Ok Z /\ shape Z m m /\ m = length (kept_ascending n idx) /\
  ((forall i, i < n -> sumn n (fun j => get Y i j) = 0%K) -> forall i, i < m -> sumn m (fun j => get Z i j) = 0%K) /\
  ((forall j, j < n -> sumn n (fun i => get Y i j) = 0%K) -> forall j, j < m -> sumn m (fun i => get Z i j) = 0%K).
Proof. exact @p_kron_sums. Qed.
Print Assumptions C44_symmetry_kept.
Print Assumptions C44_zero_sums_kept.

(** ** C45: when rows are in the order of the remaining measurement columns *)
Theorem C45_ascending_order : forall K (O : Ops K) (F : Fld K) (FR : FReal K) (pinv : mat (cplx K) -> mat (cplx K)) Y B n idx,
  shape Y n n -> (forall i, In i idx -> i < n) ->
  shape B (length idx) (length idx) -> mmul (block_of Y idx idx) B = meye (length idx) ->
  penrose (length idx) (length idx) (block_of Y idx idx) (pinv (block_of Y idx idx)) ->
  let k := length (kept_ascending n idx) in
  (n <= 8 \/ (5 <= k /\ n <= 32) \/ (19 <= k /\ n <= 128) \/ (77 <= k /\ n <= 512) \/ (307 <= k /\ n <= 2048) \/ 3 * n <= 5 * k) ->
  exists Z, kron_reduction pinv idx Y = Ok Z /\ describes n (kept_ascending n idx) idx Y Z.
Proof. exact @p_kron_ascending. Qed.
Print Assumptions C45_ascending_order.

(** a feeder of [n] nodes in a row, every line with admittance 1 - 2j *)
Definition feeder (n : nat) : mat (cplx Qc) := mk n n (fun i j =>
  if i =? j then (if (i =? 0) || (S i =? n) then cz 1 (-2) else cz 2 (-4))
  else if (S i =? j) || (S j =? i) then cz (-1) 2 else cz 0 0)%bool.
Definition inv_of (a : mat (cplx Qc)) : mat (cplx Qc) := match kinverse a with Ok b => b | Err _ => a end.
Definition penroseb (r : nat) (x p : mat (cplx Qc)) : bool :=
  shapeb x r r && shapeb p r r && meqb (mmul x p) (meye r) && meqb (mmul p x) (meye r).
Lemma penroseb_ok : forall r x p, penroseb r x p = true -> penrose r r x p /\ shape p r r /\ mmul x p = meye r /\ mmul p x = meye r.
Proof.
  intros r x p H. unfold penroseb in H. rewrite !Bool.andb_true_iff in H. destruct H as [[[H1 H2] H3] H4].
  apply shapeb_shape in H1, H2. apply meqb_eq in H3, H4.
  assert (C1 : ctr (meye r : mat (cplx Qc)) = meye r).
  { apply (gshape_ext _ _ r r); [split; [apply wf_mk|cbn; auto]|apply shape_meye|].
    intros i j Hi Hj. unfold ctr. rewrite get_mk by (cbn; auto). rewrite !get_meye by auto. rewrite (Nat.eqb_sym j i).
    destruct (i =? j); apply keqb_eq; vm_compute; reflexivity. }
  repeat split; try apply H1; try apply H2; auto; rewrite ?H3, ?H4; auto.
  - apply mmul_1_l'; apply H1.
  - apply mmul_1_l'; apply H2.
Qed.

(** 33 nodes in a row, every fourth node kept *)
Definition c45_idx : list nat := filter (fun i => negb (i mod 4 =? 0)) (seq 0 33).
Definition c45_P := inv_of (block_of (feeder 33) c45_idx c45_idx).
Lemma c45_penrose : penroseb (length c45_idx) (block_of (feeder 33) c45_idx c45_idx) c45_P = true.
Proof. vm_compute. reflexivity. Qed.
Definition row_sums_zero n (Y : mat (cplx Qc)) : bool := forallb (fun i => keqb (sumn n (fun j => get Y i j)) 0%K) (seq 0 n).
Lemma row_sums_zero_ok : forall n Y, row_sums_zero n Y = true -> forall i, i < n -> sumn n (fun j => get Y i j) = 0%K.
Proof. intros n Y H i Hi. unfold row_sums_zero in H. rewrite forallb_forall in H. apply keqb_eq, H, in_seq. lia. Qed.
Lemma c45_sym : tr (feeder 33) = feeder 33.
Proof. apply meqb_eq. vm_compute. reflexivity. Qed.
Lemma c45_sums : row_sums_zero 33 (feeder 33) = true.
Proof. vm_compute. reflexivity. Qed.
Lemma c45_nodup : NoDup c45_idx.
Proof. apply NoDup_filter, seq_NoDup. Qed.
Lemma c45_in : forall i, In i c45_idx -> i < 33.
Proof. assert (H : forallb (fun i => i <? 33) c45_idx = true) by (vm_compute; reflexivity). rewrite forallb_forall in H. intros i I. apply Nat.ltb_lt. auto. Qed.
Lemma c45_differ : meqb (reduced (feeder 33) c45_P (remaining 33 c45_idx) c45_idx) (reduced (feeder 33) c45_P (kept_ascending 33 c45_idx) c45_idx) = false.
Proof. vm_compute. reflexivity. Qed.
Lemma order_witness : forall Y P N idx, shape Y N N -> N = 33 -> tr Y = Y -> row_sums_zero N Y = true -> NoDup idx -> (forall i, In i idx -> i < N) ->
  penroseb (length idx) (block_of Y idx idx) P = true ->
  meqb (reduced Y P (remaining N idx) idx) (reduced Y P (kept_ascending N idx) idx) = false ->
  exists (pinv : mat (cplx Qc) -> mat (cplx Qc)) Y n idx Z, shape Y n n /\ n = 33 /\ tr Y = Y /\
  (forall i, i < n -> sumn n (fun j => get Y i j) = 0%K) /\ NoDup idx /\ (forall i, In i idx -> i < n) /\
  penrose (length idx) (length idx) (block_of Y idx idx) (pinv (block_of Y idx idx)) /\
  mmul (block_of Y idx idx) (pinv (block_of Y idx idx)) = meye (length idx) /\
  kron_reduction pinv idx Y = Ok Z /\ shape Z (length (kept_ascending n idx)) (length (kept_ascending n idx)) /\
  ~ describes n (kept_ascending n idx) idx Y Z.
Proof.
  intros Y P N idx SY H33 T S N' Hi HPb D.
  destruct (penroseb_ok _ _ _ HPb) as (HP & SP & E1 & E2).
  exists (fun _ => P), Y, N, idx, (reduced Y P (remaining N idx) idx).
  split; [exact SY|]. split; [exact H33|]. split; [exact T|]. split; [apply row_sums_zero_ok; exact S|].
  split; [exact N'|]. split; [exact Hi|]. split; [exact HP|]. split; [exact E1|]. split; [apply (kron_ok (fun _ => P) Y N idx); auto|].
  split; [|apply (p_ascending_wrong Y P); auto; apply meqb_neq; exact D].
  assert (L : length (kept_ascending N idx) = length (remaining N idx)) by (symmetry; apply Permutation_length, (remaining_perm N idx)).
  rewrite L. split; [apply wf_mk|split; reflexivity].
Qed.
Theorem C45_ascending_order_refuted : exists (pinv : mat (cplx Qc) -> mat (cplx Qc)) Y n idx Z, shape Y n n /\ n = 33 /\ tr Y = Y /\
  (forall i, i < n -> sumn n (fun j => get Y i j) = 0%K) /\ NoDup idx /\ (forall i, In i idx -> i < n) /\
  penrose (length idx) (length idx) (block_of Y idx idx) (pinv (block_of Y idx idx)) /\
  mmul (block_of Y idx idx) (pinv (block_of Y idx idx)) = meye (length idx) /\
  kron_reduction pinv idx Y = Ok Z /\ shape Z (length (kept_ascending n idx)) (length (kept_ascending n idx)) /\
  ~ describes n (kept_ascending n idx) idx Y Z.
Proof. exact (order_witness (feeder 33) c45_P 33 c45_idx (shape_mk _ _ _) eq_refl c45_sym c45_sums c45_nodup c45_in c45_penrose c45_differ). Qed.
Print Assumptions C45_ascending_order_refuted.
(** the rows are in the order 0, 32, 4, 8, ..., 28 *)
Example C45_order_of_the_witness : remaining 33 c45_idx = [0; 32; 4; 8; 12; 16; 20; 24; 28] /\
  kept_ascending 33 c45_idx = [0; 4; 8; 12; 16; 20; 24; 28; 32].
Proof. split; vm_compute; reflexivity. Qed.

(** a case of C43, C44 and of the proved part of C45: five nodes in a row, two eliminated *)
Definition c43_P := inv_of (block_of (feeder 5) [3; 1] [3; 1]).
Lemma c43_penrose : penroseb 2 (block_of (feeder 5) [3; 1] [3; 1]) c43_P = true.
Proof. vm_compute. reflexivity. Qed.
Example C43_ex : shape (feeder 5) 5 5 /\ (forall i, In i [3; 1] -> i < 5) /\ shape c43_P 2 2 /\
  mmul (block_of (feeder 5) [3; 1] [3; 1]) c43_P = meye 2 /\
  penrose 2 2 (block_of (feeder 5) [3; 1] [3; 1]) c43_P /\ tr (feeder 5) = feeder 5 /\
  (forall i, i < 5 -> sumn 5 (fun j => get (feeder 5) i j) = 0%K) /\
  kron_reduction (fun _ => c43_P) [3; 1] (feeder 5) = Ok (rows
    [[Cx (qq 1 2) (zq (-1)); Cx (qq (-1) 2) (zq 1); cz 0 0];
     [Cx (qq (-1) 2) (zq 1); cz 1 (-2); Cx (qq (-1) 2) (zq 1)];
     [cz 0 0; Cx (qq (-1) 2) (zq 1); Cx (qq 1 2) (zq (-1))]]).
Proof.
  destruct (penroseb_ok _ _ _ c43_penrose) as (HP & SP & E1 & E2).
  split; [apply shape_mk|]. split; [intros i [<-|[<-|[]]]; lia|]. split; [exact SP|]. split; [exact E1|]. split; [exact HP|].
  split; [apply meqb_eq; vm_compute; reflexivity|]. split; [apply row_sums_zero_ok; vm_compute; reflexivity|].
  apply res_meqb_eq. vm_compute. reflexivity.
Qed.

Fixpoint list_beq (a b : list nat) : bool := match a, b with [], [] => true | x :: a, y :: b => (x =? y) && list_beq a b | _, _ => false end%bool.
(** the model of sets against CPython 3.11: orders printed by the interpreter for random cases *)
Example C45_orders_of_the_interpreter :
  forallb (fun c => let '(n, idx, l) := c in list_beq (remaining n idx) l) [
    (90, [82; 49; 25; 22; 79; 67; 34; 64; 2; 68; 59; 4; 31; 28; 88; 77; 19; 29; 76; 32; 61; 83; 56; 14; 38; 8; 71; 58; 70; 47; 41; 65; 50; 53; 43; 13; 7; 89; 73; 17; 26; 40; 20; 1; 86; 55; 10; 52; 37; 85; 46; 35; 11; 16; 5; 62; 23; 74; 44; 80], [0; 3; 6; 9; 12; 15; 18; 21; 24; 27; 30; 33; 36; 39; 42; 45; 48; 51; 54; 57; 60; 63; 66; 69; 72; 75; 78; 81; 84; 87]);
    (12, [4; 7; 5; 2], [0; 1; 3; 6; 8; 9; 10; 11]);
    (60, [23; 26; 28; 20; 16; 4; 50; 44; 55; 47; 7; 41; 19; 52; 14; 49; 43; 13; 31; 32; 59; 17; 46; 11; 5; 10; 29; 8; 56; 53; 22; 1; 37; 35; 40; 58; 38; 34; 2; 25], [0; 3; 6; 9; 12; 15; 18; 21; 24; 27; 30; 33; 36; 39; 42; 45; 48; 51; 54; 57]);
    (40, [20; 19; 11; 5; 9; 38; 30; 10; 3; 2; 34; 17; 12; 1; 7; 23; 29; 37; 8; 14; 13; 4; 26; 28; 15; 36; 24; 31; 33; 35; 22; 6; 16; 25], [0; 32; 39; 18; 21; 27]);
    (60, [54; 26; 18; 9; 29; 39; 10; 33; 55; 31; 44; 46; 20; 30; 17; 57; 48; 25; 56; 7; 24; 34; 11], [0; 1; 2; 3; 4; 5; 6; 8; 12; 13; 14; 15; 16; 19; 21; 22; 23; 27; 28; 32; 35; 36; 37; 38; 40; 41; 42; 43; 45; 47; 49; 50; 51; 52; 53; 58; 59]);
    (120, [43; 23; 11; 62; 34; 65; 100; 70; 111; 64; 46; 8; 113; 101; 99; 45; 88; 75; 84; 4; 97; 39; 109; 71; 90; 85; 35; 116; 33; 103; 37; 119; 83; 22; 74; 1; 60; 112; 32; 41; 93; 59; 36; 110; 104; 44; 79; 94; 52; 72; 86; 57; 105; 42; 18; 21; 25; 53; 118; 78; 54; 30; 114; 82; 5; 67; 66; 87; 26; 10; 98; 89; 91; 92; 51; 19; 49; 73; 40; 17; 106; 12; 50; 28; 117; 14; 96; 2; 58; 7; 55; 95; 107; 3; 48; 29; 15; 6; 80; 77; 13; 115; 47; 38; 81; 9; 102; 56; 76; 24; 0; 63; 69; 61; 16; 68; 31; 27; 20], [108]);
    (12, [1; 9; 3; 10; 4; 2; 7; 6; 5; 11], [0; 8]);
    (60, [24; 36; 30; 12; 8; 38; 5; 22; 42], [0; 1; 2; 3; 4; 6; 7; 9; 10; 11; 13; 14; 15; 16; 17; 18; 19; 20; 21; 23; 25; 26; 27; 28; 29; 31; 32; 33; 34; 35; 37; 39; 40; 41; 43; 44; 45; 46; 47; 48; 49; 50; 51; 52; 53; 54; 55; 56; 57; 58; 59]);
    (12, [9; 11; 8; 2; 5; 7], [0; 1; 3; 4; 6; 10]);
    (90, [28; 63; 37; 61; 48; 49; 20; 76; 82; 33; 38; 88; 32; 53; 2; 40; 39; 62; 36; 18; 86; 3; 15; 56; 31; 87; 5; 50; 8; 52; 25; 0; 30; 34; 35; 17; 67; 57; 72; 75; 81; 65; 54; 9; 70; 45; 85; 79], [1; 4; 6; 7; 10; 11; 12; 13; 14; 16; 19; 21; 22; 23; 24; 26; 27; 29; 41; 42; 43; 44; 46; 47; 51; 55; 58; 59; 60; 64; 66; 68; 69; 71; 73; 74; 77; 78; 80; 83; 84; 89]);
    (60, [8; 23; 37; 4; 41; 43; 38; 47; 11; 16; 14; 56; 20; 19; 25; 34; 10; 31; 5; 22; 26; 58; 1; 49; 7; 50; 40; 35; 53; 46; 17; 44; 59; 55; 32; 52; 28; 29; 13; 2], [0; 3; 6; 9; 12; 15; 18; 21; 24; 27; 30; 33; 36; 39; 42; 45; 48; 51; 54; 57]);
    (40, [4; 26; 29; 36; 13; 23; 25; 34; 15; 22; 7; 12; 6; 1; 28; 18; 37; 9; 8; 3; 2; 27; 39; 14; 5; 31; 35; 17; 30; 19; 24; 38; 11; 10; 21; 33; 20], [0; 16; 32]);
    (120, [37; 90; 117; 56; 19; 23; 78; 114; 52; 102; 20; 8; 79; 27; 5; 71; 13; 84; 48; 95; 9; 35; 7; 73; 96; 15; 51; 107; 17; 1; 55; 11; 40; 76; 62; 85; 45; 47; 97; 91; 119; 115; 72; 64; 92; 104; 70; 28; 33; 108; 30; 32; 36; 66; 80; 69; 82; 29; 63; 24; 88; 100; 83; 118; 41; 21; 105; 67; 42; 2; 53; 81; 68; 38; 110; 94; 60; 57; 86; 109; 6; 74; 116; 34; 43; 3; 99; 106; 14; 112; 111; 50; 54; 44; 39; 4; 22; 113; 12; 59; 101; 46; 10; 87; 61; 25; 77; 16; 49; 65; 98; 31; 26; 18], [0; 103; 75; 89; 58; 93]);
    (12, [2; 11; 5; 6; 7; 10; 1; 9; 3], [0; 8; 4]);
    (20, [15], [0; 1; 2; 3; 4; 5; 6; 7; 8; 9; 10; 11; 12; 13; 14; 16; 17; 18; 19]);
    (120, [54; 60; 38; 113; 79; 119; 41; 59; 112; 12; 24; 19; 83; 20; 9; 47; 49; 118; 108; 70; 32; 14; 35; 106; 36; 86; 30; 4; 61; 92; 44; 104; 40; 7; 2; 58; 102; 101; 15; 116; 37; 84; 93; 96; 90; 25; 3; 29; 10; 51; 46; 39; 23; 111; 69; 95; 8; 65; 45; 72; 71; 103; 81; 11; 43; 13; 85; 80; 117; 27; 62; 17; 0; 107; 73; 28; 55; 26; 66; 53; 87; 97; 33; 64; 22; 6; 75; 57; 31; 68; 78; 99; 1; 21; 94; 76; 50], [5; 16; 18; 34; 42; 48; 52; 56; 63; 67; 74; 77; 82; 88; 89; 91; 98; 100; 105; 109; 110; 114; 115]);
    (60, [50; 59; 23; 58; 2; 37; 32; 7; 34; 31; 13; 20; 14; 28; 56; 49; 22; 1; 46; 35; 55; 8; 44; 41; 53; 47; 16; 52; 11; 26; 10; 38; 17; 19; 4; 5; 29; 43; 40; 25], [0; 3; 6; 9; 12; 15; 18; 21; 24; 27; 30; 33; 36; 39; 42; 45; 48; 51; 54; 57]);
    (60, [52; 30; 50; 9; 55; 41; 25; 2; 47; 43; 19; 37; 49; 13; 34; 22; 17; 26; 38; 5; 58; 11; 1; 45; 59; 33; 54; 12; 28; 15; 3; 7; 27; 21; 14; 44; 46; 36; 4; 20; 51; 42; 31; 53; 18; 35; 6; 39; 57; 10; 23; 29], [0; 32; 8; 40; 16; 48; 24; 56]);
    (40, [31; 20; 18; 2; 4; 34; 1; 33; 7; 32], [0; 3; 5; 6; 8; 9; 10; 11; 12; 13; 14; 15; 16; 17; 19; 21; 22; 23; 24; 25; 26; 27; 28; 29; 30; 35; 36; 37; 38; 39]);
    (20, [8; 0; 7; 16; 13; 2; 5; 3; 15; 11; 18], [1; 4; 6; 9; 10; 12; 14; 17; 19]);
    (20, [17; 19; 18; 1; 7; 5; 9; 10; 14; 3; 13; 11; 6; 2; 15], [0; 4; 8; 12; 16]);
    (60, [38; 27; 10; 28; 3; 49; 42; 57; 34; 30; 31; 59; 0; 6; 8; 26; 43; 55; 13; 47; 2; 36; 15; 50; 22; 25; 29; 41; 12; 45; 44; 46; 9; 17; 16; 11; 7; 24; 35; 23; 1; 37; 54; 21; 4; 39; 32; 53; 20; 56; 40; 19; 14; 33; 58; 51; 48; 52], [18; 5]);
    (60, [34; 39; 5; 51; 12; 24; 44; 0; 6; 32; 38; 37; 58; 11; 54; 1; 20; 53; 47; 19; 50; 45; 41; 30; 59; 25; 28; 3; 9; 35; 13; 46; 18; 52; 21; 49; 16; 56; 31; 36; 2; 26; 40], [33; 4; 7; 8; 10; 42; 43; 14; 15; 48; 17; 55; 22; 23; 57; 27; 29]);
    (40, [29; 20; 30; 27; 35; 15; 2; 14; 11; 38; 28; 22; 9; 13; 6; 8; 4; 31; 18; 36; 7; 37; 33; 39; 25; 24; 12; 10; 23; 34; 26; 3; 5; 17; 19; 1; 21], [0; 16; 32]);
    (60, [44; 56; 35; 59; 45; 23; 15; 6; 13; 18; 19; 17; 39; 4; 10; 46; 40; 26; 11; 14], [0; 1; 2; 3; 5; 7; 8; 9; 12; 16; 20; 21; 22; 24; 25; 27; 28; 29; 30; 31; 32; 33; 34; 36; 37; 38; 41; 42; 43; 47; 48; 49; 50; 51; 52; 53; 54; 55; 57; 58]);
    (120, [20; 9; 2; 85; 97; 36; 50; 28; 95; 46; 69; 18; 29; 24; 93; 117; 35; 113; 74; 111; 3; 108; 91; 37; 33; 84; 87; 104; 102; 103; 115; 90; 60; 27; 17; 6; 75; 54; 47; 56; 89; 73; 5; 55; 65; 61; 79; 100; 109; 49; 68; 98; 70; 51; 30; 62; 39; 7; 52; 42; 94; 81; 23; 12; 101; 22; 78; 1; 13; 116; 118; 53; 63; 92; 43; 86; 71; 19; 67; 8; 10; 106; 88; 14; 114; 44; 26; 59; 105; 99; 107; 76; 77; 40; 15; 21; 4; 110; 25; 45; 83; 11; 38; 119; 41; 34; 82; 72; 66; 58; 31; 57], [0; 32; 64; 96; 16; 48; 80; 112]);
    (40, [14; 29; 17; 16; 25; 1; 19; 22; 8; 35; 2; 26; 10; 28; 31; 37; 23; 5; 34; 7; 4; 32; 13; 38; 20; 11], [0; 33; 3; 36; 6; 39; 9; 12; 15; 18; 21; 24; 27; 30]);
    (12, [7; 5; 3; 6; 11; 8; 10; 4; 1; 2; 9], [0]);
    (40, [12; 10; 9; 24; 36; 17; 8; 33; 37; 5; 15; 6; 3; 18; 19; 26; 13; 25; 39; 14; 1; 7; 38; 31; 28; 21; 22; 23; 30; 20; 34; 29; 27; 11; 4; 2; 35], [0; 16; 32]);
    (20, [11; 9; 0; 3; 5; 12; 7; 1], [2; 4; 6; 8; 10; 13; 14; 15; 16; 17; 18; 19]);
    (12, [6; 2; 3; 0; 7; 10; 4; 9; 1; 5], [8; 11]);
    (20, [14; 5; 19; 13; 11; 8; 16; 17; 7; 2; 10; 4; 1], [0; 3; 6; 9; 12; 15; 18]);
    (40, [16; 26; 8; 32; 25; 35; 2; 20; 10; 28; 13; 1; 7; 4; 29; 11; 22; 23; 34; 38; 17; 19; 31; 37; 5; 14], [0; 33; 3; 36; 6; 39; 9; 12; 15; 18; 21; 24; 27; 30]);
    (60, [31; 35; 1; 18; 23; 42; 14; 6; 27; 55; 57; 53; 34; 58; 41; 50; 19; 54; 7; 13; 29; 17; 49; 37; 51; 11; 22; 25; 15; 45; 39; 10; 9; 46; 38; 59; 47; 2; 30; 33; 3; 21; 43; 5; 26], [0; 32; 4; 36; 8; 40; 12; 44; 16; 48; 20; 52; 24; 56; 28]);
    (40, [36; 13; 29; 2], [0; 1; 3; 4; 5; 6; 7; 8; 9; 10; 11; 12; 14; 15; 16; 17; 18; 19; 20; 21; 22; 23; 24; 25; 26; 27; 28; 30; 31; 32; 33; 34; 35; 37; 38; 39]);
    (12, [5; 2; 11; 9; 4; 6; 10; 3; 1; 8; 0], [7]);
    (40, [37; 36; 3; 29; 27; 26; 10; 7; 14; 39; 38; 9; 11; 15; 23; 25; 31; 1; 4; 20; 13; 2; 35; 5; 22; 6; 30; 17; 34; 33; 21; 19; 18; 12; 28], [0; 32; 8; 16; 24]);
    (90, [8; 87; 75; 11; 5; 89; 58; 38; 67; 69; 84; 34; 15; 51; 39; 33; 83; 82; 72; 0; 41; 66; 63; 59; 48; 19; 27; 60; 16; 20; 88; 13; 29; 85; 9; 22; 56; 40; 81; 28; 68; 74; 80; 25; 86; 12; 79; 31; 10; 32; 50; 36; 54; 1; 55; 76; 17; 42; 73; 65; 7; 21; 53; 52; 30; 43; 47; 35; 64; 3; 6; 24; 26; 45; 18; 57; 23; 61; 46; 71; 44; 37; 78; 70; 49; 2; 77; 14; 62], [4]);
    (20, [3; 10; 12; 11; 1; 19; 9; 7; 17; 13; 14; 5; 2; 6; 18; 15; 4], [0; 8; 16]);
    (20, [17; 8; 12; 13; 3; 11; 6; 18; 5; 9; 10; 1; 7; 19; 2; 14; 15; 4], [0; 16])] = true /\
  forallb (fun c => let '(a, b, l) := c in list_beq (union_list a b) l) [
    ([196; 62; 29; 157; 137], [21; 167; 169], [29; 169; 196; 21; 167; 137; 157; 62]);
    ([64], [128; 112; 96; 0], [64; 0; 96; 128; 112]);
    ([], [0], [0]);
    ([32; 0; 24; 8; 16], [24; 16; 8; 32; 0], [32; 0; 16; 8; 24]);
    ([24; 32; 16], [0; 8; 16; 32], [32; 0; 8; 16; 24]);
    ([59; 34; 63; 42; 164; 22; 184; 114; 65; 158; 118; 173; 41; 178], [26; 76; 148; 64; 160; 91; 178; 13; 138; 184; 142; 31; 52; 195; 6], [6; 138; 13; 142; 148; 22; 26; 158; 31; 160; 34; 164; 41; 42; 173; 178; 52; 184; 59; 63; 64; 65; 195; 76; 91; 114; 118]);
    ([96; 64; 32; 0], [64; 0; 32; 96], [96; 0; 32; 64]);
    ([88; 32; 72; 160; 48; 8; 0; 120; 40; 176; 104; 168; 80], [104; 144; 168; 112; 80; 128; 152; 160; 0], [32; 160; 0; 128; 72; 8; 40; 104; 168; 48; 176; 80; 144; 112; 88; 120; 152]);
    ([0], [32; 0], [0; 32]);
    ([68; 0; 61; 15; 94; 25; 21], [109; 64; 30; 85; 106], [0; 64; 68; 15; 21; 85; 25; 94; 30; 106; 109; 61]);
    ([106; 165; 58; 70; 2; 52; 168; 60; 148; 17; 190; 128], [111; 149; 78; 57; 188; 24; 95; 142; 152; 141; 193], [128; 2; 141; 142; 17; 148; 149; 24; 152; 165; 168; 52; 57; 58; 188; 60; 190; 193; 70; 78; 95; 106; 111]);
    ([135; 0; 37; 108; 14; 118; 3; 48], [48; 27; 44; 117; 112; 120; 122; 74; 133; 19; 6; 178; 156; 159; 119; 158; 157; 154; 184; 52; 5; 166; 113; 128], [0; 128; 3; 133; 6; 135; 5; 14; 19; 154; 27; 156; 157; 158; 159; 37; 166; 44; 48; 178; 52; 184; 74; 108; 112; 113; 117; 118; 119; 120; 122]);
    ([21; 12; 6; 34; 23; 5; 11; 14; 25; 0; 1; 13; 29; 9; 37; 35; 38; 24; 36; 3; 22; 31], [8; 25; 28; 9; 26; 1], [0; 1; 3; 5; 6; 8; 9; 11; 12; 13; 14; 21; 22; 23; 24; 25; 26; 28; 29; 31; 34; 35; 36; 37; 38]);
    ([48; 80; 96; 32; 0; 112; 16; 64], [112; 80; 16; 96; 32; 48; 64; 0], [0; 32; 96; 64; 48; 80; 112; 16]);
    ([], [0], [0]);
    ([160; 72; 40; 0], [32; 176; 104; 24; 0; 136; 112; 80; 16; 120; 128; 40; 160; 96; 72; 184; 56], [160; 0; 32; 128; 96; 40; 72; 104; 136; 176; 112; 80; 16; 24; 56; 120; 184]);
    ([64; 96; 32], [96], [64; 32; 96]);
    ([192; 0; 32; 96; 128; 160; 64], [32; 0; 128; 64; 160; 96; 192], [192; 0; 32; 96; 128; 160; 64]);
    ([88; 196; 198; 10; 78; 160; 172; 30; 132; 20], [164; 174; 162; 20; 10; 124; 130; 120; 54; 112; 76; 38; 108; 70; 156; 114; 146; 18; 132; 62; 74; 22; 150; 178], [130; 132; 10; 146; 18; 20; 22; 150; 156; 30; 160; 162; 164; 38; 172; 174; 178; 54; 62; 196; 198; 70; 74; 76; 78; 88; 108; 112; 114; 120; 124]);
    ([0], [], [0]);
    ([24; 0; 8; 32; 16], [0; 24; 8; 32; 16], [0; 32; 16; 8; 24]);
    ([57; 89; 111; 119; 7; 76; 29; 113; 36; 39; 33; 58; 105; 64; 67; 44; 65; 11; 108; 72; 112], [52; 84; 25; 78; 93; 51; 119; 54; 15; 16; 8; 56; 41; 112], [64; 65; 67; 7; 72; 8; 11; 76; 78; 15; 16; 84; 89; 25; 29; 93; 33; 36; 39; 105; 41; 44; 108; 111; 112; 113; 51; 52; 54; 119; 56; 57; 58]);
    ([8], [0; 8], [8; 0]);
    ([], [0], [0]);
    ([], [], []);
    ([8; 0], [0], [8; 0]);
    ([0], [], [0]);
    ([96; 32; 64; 0], [64], [96; 0; 32; 64]);
    ([16; 24; 112; 64; 88; 80; 184; 96; 136; 176; 32; 192; 104; 160; 168; 56; 40; 120; 8], [104; 0; 168; 96; 80], [64; 192; 0; 136; 8; 16; 80; 24; 88; 120; 184; 32; 160; 96; 168; 40; 104; 176; 112; 56]);
    ([18; 54; 78; 66; 58; 14; 36; 48; 4; 24; 100; 84; 50; 30; 88; 62; 74; 96; 64], [], [64; 66; 4; 74; 14; 78; 18; 84; 24; 88; 30; 96; 36; 100; 48; 50; 54; 58; 62]);
    ([0], [0], [0]);
    ([], [24], [24]);
    ([121; 134; 52; 11; 57; 84; 80; 56], [116; 4; 8; 178; 31; 194; 49; 27; 177; 79; 30], [4; 134; 8; 11; 27; 30; 31; 49; 178; 177; 52; 56; 57; 194; 79; 80; 84; 116; 121]);
    ([7; 37; 22; 21; 16; 26; 10; 17; 19; 2; 12; 5; 39; 23; 15; 0; 9; 25; 27; 1], [35; 13; 24; 36; 6; 18; 31; 2; 16; 0; 14; 4; 3; 23; 32; 7; 10; 11; 37; 19; 15; 30; 34], [0; 1; 2; 3; 4; 5; 6; 7; 9; 10; 11; 12; 13; 14; 15; 16; 17; 18; 19; 21; 22; 23; 24; 25; 26; 27; 30; 31; 32; 34; 35; 36; 37; 39]);
    ([64; 32; 96], [64], [64; 32; 96]);
    ([2; 150; 148; 50; 58; 0; 144; 76; 22; 60; 52; 98; 170; 164; 54; 72; 186; 34; 194; 42; 30], [150; 156; 180; 186; 152; 124; 56; 112; 160; 78; 176; 64; 20; 46; 118; 138; 166; 24; 172], [0; 2; 20; 22; 24; 30; 34; 42; 46; 50; 52; 54; 56; 58; 60; 64; 72; 76; 78; 98; 112; 118; 124; 138; 144; 148; 150; 152; 156; 160; 164; 166; 170; 172; 176; 180; 186; 194]);
    ([0; 32; 96], [32; 64; 0; 96], [0; 32; 64; 96]);
    ([152; 192; 160; 80; 32; 48; 112; 136; 184; 24; 72; 104; 0; 56; 16], [136; 0; 48; 64; 40; 168; 96; 152; 16], [0; 136; 16; 152; 24; 32; 160; 40; 168; 48; 56; 184; 192; 64; 72; 80; 96; 104; 112]);
    ([72; 24; 0], [32; 96; 48; 56; 112; 8; 88], [32; 96; 0; 72; 8; 48; 112; 24; 56; 88]);
    ([96; 160], [112; 128; 0; 96; 160; 48; 64; 80; 32; 144; 192], [96; 0; 128; 160; 64; 32; 192; 112; 48; 80; 144])] = true.
Proof. split; vm_compute; reflexivity. Qed.
