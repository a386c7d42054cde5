(** Fitting again with the same estimator: the loop with records of earlier fits in front. *)
From Coq Require Import Bool Arith List Lia.
From Verif Require Import BasePy BaseFld BaseOrd BaseMat ModelFit.
Import ListNotations.
Local Open Scope nat_scope.

Section Refit.
Context {K : Type} {O : Ops K} {O2 : OrdOps K}.
Variables (at_ rt : K) (step : lstate K -> res (lstate K * K)).
Notation loop := (fit_loop at_ rt step).

(** the records are added behind those found *)
Lemma loop_adds : forall fuel it l s, exists new, fst (loop fuel it l s) = l ++ new.
Proof.
  induction fuel as [|fuel IH]; intros it l s; cbn [fit_loop]; [exists []; rewrite app_nil_r; reflexivity|].
  destruct (step s) as [[s' t]|e]; [|exists []; rewrite app_nil_r; reflexivity]. cbv zeta.
  destruct (if 0 <? it then _ else _); [exists [St it (fst (fst s')) t]; reflexivity|].
  destruct (IH (S it) (l ++ [St it (fst (fst s')) t]) s') as [new E]. exists (St it (fst (fst s')) t :: new). rewrite E, <- app_assoc. reflexivity.
Qed.
(** behind records that begin with those of the same fit the loop stops at the same place *)
Lemma loop_again : forall fuel it done s new q, length done = it -> fst (loop fuel it done s) = done ++ new ->
  loop fuel it (((done ++ new) ++ q) ++ done) s = (((done ++ new) ++ q) ++ done ++ new, snd (loop fuel it done s)).
Proof.
  induction fuel as [|fuel IH]; intros it done s new q HL H; cbn [fit_loop] in *.
  - cbn [fst] in H. assert (new = []) by (apply (app_inv_head done); rewrite <- H, app_nil_r; reflexivity). subst new. rewrite app_nil_r in *. reflexivity.
  - destruct (step s) as [[s' t]|e].
    2: { cbn [fst] in H. assert (new = []) by (apply (app_inv_head done); rewrite <- H, app_nil_r; reflexivity). subst new. rewrite app_nil_r in *. reflexivity. }
    cbv zeta in *.
    assert (E : forall (b b' : bool) (u v : list (status K)), 0 < it -> nth_error (((done ++ new) ++ q) ++ u) (it - 1) = nth_error (done ++ v) (it - 1)).
    { intros _ _ u v Hi. rewrite <- !app_assoc. rewrite !(nth_error_app1 done) by lia. reflexivity. }
    set (st := St it (fst (fst s')) t) in *.
    assert (ES : (if 0 <? it then match nth_error ((((done ++ new) ++ q) ++ done) ++ [st]) (it - 1) with Some prev => is_stationary_point at_ rt t (st_target prev) | None => false end else false) =
                 (if 0 <? it then match nth_error (done ++ [st]) (it - 1) with Some prev => is_stationary_point at_ rt t (st_target prev) | None => false end else false)).
    { destruct (0 <? it) eqn:Hi; [|reflexivity]. apply Nat.ltb_lt in Hi. rewrite <- (app_assoc _ done [st]). rewrite (E true true (done ++ [st]) [st] Hi). reflexivity. }
    rewrite ES. destruct (if 0 <? it then _ else _).
    + cbn [fst snd] in *. assert (new = [st]) by (apply (app_inv_head done); rewrite <- H; reflexivity). subst new. rewrite <- !app_assoc. reflexivity.
    + destruct (loop_adds fuel (S it) (done ++ [st]) s') as [new' EN]. assert (EQ : new = st :: new').
      { apply (app_inv_head done). rewrite <- H, EN, <- app_assoc. reflexivity. }
      subst new. specialize (IH (S it) (done ++ [st]) s' new' q ltac:(rewrite app_length; cbn; lia) EN). rewrite <- !app_assoc in *. cbn [app] in *. exact IH.
Qed.
(** behind any records: the same steps are made, possibly fewer or more of them *)
Lemma loop_path : forall fuel it l1 l2 s, exists n1 n2 rest, fst (loop fuel it l1 s) = l1 ++ n1 /\ fst (loop fuel it l2 s) = l2 ++ n2 /\
  (n2 = n1 ++ rest \/ n1 = n2 ++ rest) /\ (rest = [] -> forall a b, snd (loop fuel it l1 s) = Ok a -> snd (loop fuel it l2 s) = Ok b -> a = b).
Proof.
  induction fuel as [|fuel IH]; intros it l1 l2 s; cbn [fit_loop].
  - exists [], [], []. cbn [fst snd]. rewrite !app_nil_r. repeat split; auto. congruence.
  - destruct (step s) as [[s' t]|e].
    2: { exists [], [], []. cbn [fst snd]. rewrite !app_nil_r. repeat split; auto. discriminate. }
    cbv zeta. set (st := St it (fst (fst s')) t).
    destruct (if 0 <? it then match nth_error (l1 ++ [st]) (it - 1) with Some prev => is_stationary_point at_ rt t (st_target prev) | None => false end else false).
    + destruct (if 0 <? it then _ else _).
      * exists [st], [st], []. cbn [fst snd]. repeat split; auto. congruence.
      * destruct (loop_adds fuel (S it) (l2 ++ [st]) s') as [new EN]. exists [st], (st :: new), new. cbn [fst]. rewrite EN, <- app_assoc. repeat split; auto.
        intros -> a b HA HB. cbn [snd] in HA. injection HA as <-. destruct fuel as [|fuel]; cbn [fit_loop] in HB, EN; [injection HB as <-; reflexivity|].
        destruct (step s') as [[s2 t2]|e2]; [|discriminate]. cbv zeta in EN, HB. destruct (if 0 <? S it then _ else _).
        -- cbn [fst] in EN. rewrite app_nil_r in EN. apply (f_equal (@length _)) in EN. rewrite app_length in EN. cbn in EN. lia.
        -- destruct (loop_adds fuel (S (S it)) ((l2 ++ [st]) ++ [St (S it) (fst (fst s2)) t2]) s2) as [n' EN']. rewrite EN' in EN.
           apply (f_equal (@length _)) in EN. rewrite !app_length in EN. cbn in EN. lia.
    + destruct (if 0 <? it then _ else _).
      * destruct (loop_adds fuel (S it) (l1 ++ [st]) s') as [new EN]. exists (st :: new), [st], new. cbn [fst]. rewrite EN, <- app_assoc. repeat split; auto.
        intros -> a b HA HB. cbn [snd] in HB. injection HB as <-. destruct fuel as [|fuel]; cbn [fit_loop] in HA, EN; [injection HA as <-; reflexivity|].
        destruct (step s') as [[s2 t2]|e2]; [|discriminate]. cbv zeta in EN, HA. destruct (if 0 <? S it then _ else _).
        -- cbn [fst] in EN. rewrite app_nil_r in EN. apply (f_equal (@length _)) in EN. rewrite app_length in EN. cbn in EN. lia.
        -- destruct (loop_adds fuel (S (S it)) ((l1 ++ [st]) ++ [St (S it) (fst (fst s2)) t2]) s2) as [n' EN']. rewrite EN' in EN.
           apply (f_equal (@length _)) in EN. rewrite !app_length in EN. cbn in EN. lia.
      * destruct (IH (S it) (l1 ++ [st]) (l2 ++ [st]) s') as (n1 & n2 & rest & E1 & E2 & ER & EV). exists (st :: n1), (st :: n2), rest.
        rewrite E1, E2, <- !app_assoc. repeat split; auto. destruct ER as [->| ->]; [left|right]; reflexivity.
Qed.
End Refit.
