(** Proofs about the csv reader for load profiles. *)
From Coq Require Import Bool Arith List ZArith Lia Permutation.
From Coq Require Import Ring Field.
From Verif Require Import BasePy BaseFld BaseOrd BaseSum BaseMat BaseLin BaseNumpy ModelNet ModelLoads ModelCsv SpecLoads SpecCsv ProofLoads.
Import ListNotations.
Local Open Scope nat_scope.

Section Csv.
Context {K : Type} {O : Ops K} {F : Fld K} {O2 : OrdOps K} {OF : OrdFld K}.
Add Field KfldCsv : (@k_field K O F).
(** the listed rows *)
Definition pick (file : mat K) (L : list nat) : mat K := mk (length L) (nc file) (fun t j => get file (nth t L 0) j).
Lemma shape_pick : forall file L, shape (pick file L) (length L) (nc file). Proof. intros. apply shape_mk. Qed.
Lemma pick_seq : forall file a n, mk n (nc file) (fun t j => get file (a + t) j) = pick file (seq a n).
Proof.
  intros file a n. pose proof (shape_pick file (seq a n)) as S. rewrite seq_length in S. apply (gshape_ext _ _ n (nc file) (shape_mk _ _ _) S). intros t j Ht Hj. unfold pick. rewrite !get_mk by (rewrite ?seq_length; assumption).
  rewrite seq_nth by exact Ht. reflexivity.
Qed.
Lemma pick_app : forall file L M, vstack2 (pick file L) (pick file M) = pick file (L ++ M).
Proof.
  intros file L M. pose proof (shape_pick file (L ++ M)) as S. rewrite app_length in S. apply (gshape_ext _ _ (length L + length M) (nc file)); [unfold vstack2; apply shape_mk|exact S|]. intros t j Ht Hj.
  unfold pick at 3. rewrite get_mk by (rewrite ?app_length; assumption). destruct (Nat.lt_ge_cases t (length L)) as [H|H].
  - rewrite get_vstack2_l by assumption. unfold pick. rewrite get_mk by assumption. rewrite app_nth1 by exact H. reflexivity.
  - replace t with (nr (pick file L) + (t - length L)) at 1 by (change (nr (pick file L)) with (length L); lia). rewrite get_vstack2_r by (first [change (nr (pick file M)) with (length M); lia|exact Hj]). unfold pick. rewrite get_mk by lia. rewrite app_nth2 by exact H. reflexivity.
Qed.
Lemma read_ok : forall file h f, readable (nr file) (h, f) -> read_csv file h f = Ok (pick file (kept_lines (nr file) [(h, f)])).
Proof.
  intros file h f [H1 H2]. cbn [fst snd] in *. unfold read_csv. replace (f <? 0)%Z with false by (symmetry; apply Z.ltb_ge; exact H1). replace (nr file <=? Z.to_nat h) with false by (symmetry; apply Nat.leb_gt; exact H2). cbv zeta.
  rewrite pick_seq. unfold kept_lines. cbn [flat_map fst snd]. rewrite app_nil_r. reflexivity.
Qed.
Lemma read_bad : forall file h f, ~ readable (nr file) (h, f) -> read_csv file h f = Err ValueError.
Proof.
  intros file h f N. unfold read_csv. destruct (Z.ltb_spec f 0) as [H|H]; [reflexivity|]. destruct (Nat.leb_spec (nr file) (Z.to_nat h)) as [H'|H']; [reflexivity|]. exfalso. apply N. split; assumption.
Qed.
Definition readable_dec : forall N part, {readable N part} + {~ readable N part}.
Proof. intros N [h f]. unfold readable. cbn [fst snd]. destruct (Z_le_dec 0 f); [|right; intros [? _]; contradiction]. destruct (lt_dec (Z.to_nat h) N); [left; auto|right; intros [_ ?]; contradiction]. Defined.

Lemma parts_some : forall active reactive hs fs L M, length hs <= length fs -> (forall part, In part (combine hs fs) -> readable (nr active) part /\ readable (nr reactive) part) ->
  csv_parts active reactive hs fs (Some (pick active L, pick reactive M)) =
  Ok (Some (pick active (L ++ kept_lines (nr active) (combine hs fs)), pick reactive (M ++ kept_lines (nr reactive) (combine hs fs)))).
Proof.
  intros active reactive. induction hs as [|h hs IH]; intros fs L M Hl H; [cbn; rewrite !app_nil_r; reflexivity|]. destruct fs as [|f fs]; [cbn in Hl; lia|]. cbn [csv_parts combine] in *.
  destruct (H (h, f) (or_introl eq_refl)) as [R1 R2]. rewrite (read_ok active h f R1), (read_ok reactive h f R2). cbn [bind]. rewrite !pick_app. rewrite IH by (first [cbn in Hl; lia|intros part Hp; apply H; right; exact Hp]).
  unfold kept_lines. cbn [flat_map]. rewrite !app_nil_r, !app_assoc. reflexivity.
Qed.
Theorem profiles_ok : forall active reactive hs fs, hs <> [] -> length hs <= length fs -> (forall part, In part (combine hs fs) -> readable (nr active) part /\ readable (nr reactive) part) ->
  csv_profiles active reactive hs fs = Ok (mmap (fun x => x / million)%K (pick active (kept_lines (nr active) (combine hs fs))), mmap (fun x => x / million)%K (pick reactive (kept_lines (nr reactive) (combine hs fs)))).
Proof.
  intros active reactive [|h hs] fs N Hl H; [contradiction|]. destruct fs as [|f fs]; [cbn in Hl; lia|]. unfold csv_profiles. cbn [csv_parts combine] in *.
  destruct (H (h, f) (or_introl eq_refl)) as [R1 R2]. rewrite (read_ok active h f R1), (read_ok reactive h f R2). cbn [bind]. rewrite parts_some by (first [cbn in Hl; lia|intros part Hp; apply H; right; exact Hp]). cbn [bind].
  unfold kept_lines. cbn [flat_map]. rewrite !app_nil_r. reflexivity.
Qed.
Lemma parts_bad : forall active reactive hs fs acc part, In part (combine hs fs) -> ~ (readable (nr active) part /\ readable (nr reactive) part) -> csv_parts active reactive hs fs acc = Err ValueError.
Proof.
  intros active reactive. induction hs as [|h hs IH]; intros fs acc part HI N; [destruct HI|]. destruct fs as [|f fs]; [destruct HI|]. cbn [csv_parts combine] in *.
  destruct (readable_dec (nr active) (h, f)) as [R1|R1]; [|rewrite (read_bad active h f R1); reflexivity]. rewrite (read_ok active h f R1). cbn [bind].
  destruct (readable_dec (nr reactive) (h, f)) as [R2|R2]; [|rewrite (read_bad reactive h f R2); reflexivity]. rewrite (read_ok reactive h f R2). cbn [bind].
  destruct HI as [<-|HI]; [exfalso; apply N; split; assumption|]. apply (IH fs _ part HI N).
Qed.
Lemma parts_short : forall active reactive hs fs acc, length fs < length hs -> (forall part, In part (combine hs fs) -> readable (nr active) part /\ readable (nr reactive) part) -> csv_parts active reactive hs fs acc = Err IndexError.
Proof.
  intros active reactive. induction hs as [|h hs IH]; intros fs acc Hl H; [cbn in Hl; lia|]. destruct fs as [|f fs]; [reflexivity|]. cbn [csv_parts combine] in *.
  destruct (H (h, f) (or_introl eq_refl)) as [R1 R2]. rewrite (read_ok active h f R1), (read_ok reactive h f R2). cbn [bind]. apply IH; [cbn in Hl; lia|intros part Hp; apply H; right; exact Hp].
Qed.
Lemma pick_lines : forall file L, lines_of file L (mmap (fun x => x / million)%K (pick file L)).
Proof.
  intros file L. split; [apply shape_mmap; apply shape_pick|]. intros t h Ht Hh. unfold get at 1. rewrite gget_mmap with (d := 0%K); [|apply wf_mk|exact Ht|exact Hh].
  change (gget 0%K (pick file L) t h) with (get (pick file L) t h). unfold pick. rewrite get_mk by assumption. change (knat 10 * knat 10 * knat 10 * knat 10 * knat 10 * knat 10)%K with (million : K). rewrite kdiv_mul by apply million_neq0. reflexivity.
Qed.
(** the reader of npy files *)
Lemma stack_pick : forall file (size : Z) len hs L, (forall h, In h hs -> 0 <= h /\ h + Z.of_nat len <= Z.of_nat (nr file))%Z ->
  fold_left (fun m i => vstack2 m (rows_slice file i (size - (size - (Z.of_nat len + i)))%Z)) hs (pick file L) = pick file (L ++ flat_map (fun h => seq (Z.to_nat h) len) hs).
Proof.
  intros file size len. induction hs as [|h hs IH]; intros L H; [cbn; rewrite app_nil_r; reflexivity|]. cbn [fold_left flat_map]. destruct (H h (or_introl eq_refl)) as [H1 H2].
  replace (rows_slice file h (size - (size - (Z.of_nat len + h)))%Z) with (pick file (seq (Z.to_nat h) len)).
  - rewrite pick_app, IH by (intros w Hw; apply H; right; exact Hw). rewrite app_assoc. reflexivity.
  - unfold rows_slice. replace (size - (size - (Z.of_nat len + h)))%Z with (Z.of_nat len + h)%Z by lia. rewrite !slice_bound_in by lia. rewrite pick_seq. f_equal. f_equal. lia.
Qed.
Theorem npy_profile : forall size file len hs, (forall h, In h hs -> 0 <= h /\ h + Z.of_nat len <= Z.of_nat (nr file))%Z ->
  read_profile size file hs (Z.of_nat len) = mmap (fun x => x / million)%K (pick file (flat_map (fun h => seq (Z.to_nat h) len) hs)).
Proof. intros size file len hs H. unfold read_profile. cbv zeta. change (mk 0 (nc file) (fun _ _ => 0%K)) with (pick file []). rewrite (stack_pick file (Z.of_nat size) len hs [] H). reflexivity. Qed.
Lemma footer_lines : forall N len hs, (forall h, In h hs -> 0 <= h /\ h + Z.of_nat len <= Z.of_nat N)%Z ->
  kept_lines N (combine hs (map (fun h => Z.of_nat N - (Z.of_nat len + h))%Z hs)) = flat_map (fun h => seq (Z.to_nat h) len) hs.
Proof.
  intros N len. unfold kept_lines. induction hs as [|h hs IH]; intros H; [reflexivity|]. cbn [map combine flat_map fst snd]. destruct (H h (or_introl eq_refl)). rewrite IH by (intros w Hw; apply H; right; exact Hw). do 2 f_equal. lia.
Qed.
Lemma footers_readable : forall N len hs part, 0 < len -> (forall h, In h hs -> 0 <= h /\ h + Z.of_nat len <= Z.of_nat N)%Z -> In part (combine hs (map (fun h => Z.of_nat N - (Z.of_nat len + h))%Z hs)) -> readable N part.
Proof.
  intros N len hs part Hl. induction hs as [|h hs IH]; intros H HI; [destruct HI|]. cbn [map combine] in HI. destruct HI as [<-|HI]; [destruct (H h (or_introl eq_refl)); split; cbn [fst snd]; lia|]. apply IH; [intros w Hw; apply H; right; exact Hw|exact HI].
Qed.
Theorem csv_is_npy : forall active reactive len hs, nr reactive = nr active -> hs <> [] -> 0 < len -> (forall h, In h hs -> 0 <= h /\ h + Z.of_nat len <= Z.of_nat (nr active))%Z ->
  csv_profiles active reactive hs (map (fun h => Z.of_nat (nr active) - (Z.of_nat len + h))%Z hs) = Ok (read_profile (nr active) active hs (Z.of_nat len), read_profile (nr active) reactive hs (Z.of_nat len)).
Proof.
  intros active reactive len hs E N Hl H. rewrite profiles_ok; [|exact N|rewrite map_length; lia|].
  - rewrite E. rewrite (footer_lines (nr active) len hs H). rewrite !npy_profile by (rewrite ?E; exact H). reflexivity.
  - intros part Hp. rewrite E. split; apply (footers_readable (nr active) len hs part Hl H Hp).
Qed.
End Csv.
