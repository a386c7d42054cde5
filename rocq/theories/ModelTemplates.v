(** The networks shipped with the package: /repo/src/simulation/net_templates.py and net_templates_3ph.py, and the list of
    hidden nodes of /repo/conf/simulation.py.  The tables are copied by a script, number by number, from the Python text.
    A row keeps the fields a network reads (ModelNet.v); the shunts, areas, limits and rates of the rows, which nothing
    reads, are left out.  Python's decimal literals are exact numbers here. *)
From Coq Require Import String.
From Coq Require Import Bool Arith List ZArith.
From Verif Require Import BasePy BaseFld BaseOrd BaseSum BaseMat ModelSet ModelNet ModelScript.
Import ListNotations.
Local Open Scope K_scope.

Section Templates.
Context {K : Type} {O : Ops K}.
(** a decimal literal: digits over a power of ten *)
Definition dec (n d : positive) : K := of_pos n / of_pos d.
(** load_profile.py:13-48: the defaults of [z_perc] and [i_perc] are 0 *)
Definition bus (i t : nat) (p q kv : K) : bus_data (K := K) := BusData i t (Single p) (Single q) kv 0 0.
Definition bus3 (i t : nat) (a b c x y z kv : K) : bus_data (K := K) := BusData i t (Phases a b c) (Phases x y z) kv 0 0.
(** lines.py:15-50; with a type name the other parameters have their defaults *)
Definition line (f t : nat) (l r x : K) (s : Z) : line_data (K := K) := LineData f t l r x s None.
Definition line3 (f t : nat) (l : K) (typ : string) : line_data (K := K) := LineData f t l 0 0 1 (Some typ).

(** net_templates.py:18-74 *)
Definition bolognani56_bus : list (bus_data (K := K)) := [
  bus 1 1 (dec 16 100) (dec 8 100) (dec 416 100);
  bus 2 1 (dec 2 100) (dec 1 100) (dec 416 100);
  bus 3 1 (dec 12 100) (dec 6 100) (dec 416 100);
  bus 4 1 (dec 1 10) (dec 5 100) (dec 416 100);
  bus 5 1 (dec 4 100) (dec 2 100) (dec 416 100);
  bus 6 1 (dec 4 100) (dec 2 100) (dec 416 100);
  bus 7 1 0 0 (dec 416 100);
  bus 8 1 (dec 2 100) (dec 1 100) (dec 416 100);
  bus 9 1 (dec 2 100) (dec 1 100) (dec 416 100);
  bus 10 1 (dec 4 100) (dec 2 100) (dec 416 100);
  bus 11 1 (dec 2 100) (dec 1 100) (dec 416 100);
  bus 12 1 (dec 4 100) (dec 2 100) (dec 416 100);
  bus 13 1 (dec 4 100) (dec 2 100) (dec 416 100);
  bus 14 1 (dec 75 1000) (dec 35 1000) (dec 416 100);
  bus 15 1 (dec 14 100) (dec 1 10) (dec 416 100);
  bus 16 1 (dec 75 1000) (dec 35 1000) (dec 416 100);
  bus 17 1 (dec 12 100) (dec 6 100) (dec 416 100);
  bus 18 1 (dec 12 100) (dec 6 100) (dec 416 100);
  bus 19 1 (dec 245 1000) (dec 18 100) (dec 416 100);
  bus 20 1 (dec 4 100) (dec 2 100) (dec 416 100);
  bus 21 1 0 0 (dec 416 100);
  bus 22 1 (dec 4 100) (dec 2 100) (dec 416 100);
  bus 23 1 (dec 4 100) (dec 2 100) (dec 416 100);
  bus 24 1 (dec 6 100) (dec 3 100) (dec 416 100);
  bus 25 1 (dec 4 100) (dec 2 100) (dec 416 100);
  bus 26 1 (dec 2 100) (dec 1 100) (dec 416 100);
  bus 27 1 (dec 2 100) (dec 1 100) (dec 416 100);
  bus 28 1 (dec 8 100) (dec 4 100) (dec 416 100);
  bus 29 1 (dec 4 100) (dec 2 100) (dec 416 100);
  bus 30 1 (dec 4 100) (dec 2 100) (dec 416 100);
  bus 31 1 (dec 4 100) (dec 2 100) (dec 416 100);
  bus 32 1 (dec 4 100) (dec 2 100) (dec 416 100);
  bus 33 1 0 0 (dec 416 100);
  bus 34 1 (dec 4 100) (dec 2 100) (dec 416 100);
  bus 35 1 (dec 4 100) (dec 2 100) (dec 416 100);
  bus 36 1 (dec 4 100) (dec 2 100) (dec 416 100);
  bus 37 1 (dec 1 10) (dec 5 100) (dec 416 100);
  bus 38 1 (dec 8 100) (dec 4 100) (dec 416 100);
  bus 39 1 (dec 14 100) (dec 7 100) (dec 416 100);
  bus 40 1 (dec 8 100) (dec 4 100) (dec 416 100);
  bus 41 1 (dec 4 100) (dec 2 100) (dec 416 100);
  bus 42 1 (dec 4 100) (dec 2 100) (dec 416 100);
  bus 43 1 (dec 8 100) (dec 4 100) (dec 416 100);
  bus 44 1 (dec 4 100) (dec 2 100) (dec 416 100);
  bus 45 1 (dec 4 100) (dec 2 100) (dec 416 100);
  bus 46 1 (dec 4 100) (dec 2 100) (dec 416 100);
  bus 47 1 (dec 12 100) (dec 6 100) (dec 416 100);
  bus 48 1 (dec 2 100) (dec 1 100) (dec 416 100);
  bus 49 1 (dec 6 100) (dec 3 100) (dec 416 100);
  bus 50 1 (dec 4 100) (dec 2 100) (dec 416 100);
  bus 51 1 (dec 105 1000) (dec 75 1000) (dec 416 100);
  bus 52 1 (dec 21 100) (dec 15 100) (dec 416 100);
  bus 53 1 (dec 14 100) (dec 95 1000) (dec 416 100);
  bus 54 1 (dec 4 100) (dec 2 100) (dec 416 100);
  bus 55 1 (dec 2 100) (dec 1 100) (dec 416 100);
  bus 56 3 (dec 5 1) (dec 5 1) (dec 416 100)].
(** net_templates.py:76-131 *)
Definition bolognani56_net : list (line_data (K := K)) := [
  line 56 1 (dec 400 1) (dec 13398623 10000000000 * dec 173 10) (dec 27450827 10000000000 * dec 173 10) 1;
  line 1 2 (dec 300 1) (dec 10048967 10000000000 * dec 173 10) (dec 2058812 1000000000 * dec 173 10) 1;
  line 2 3 (dec 200 1) (dec 6699312 10000000000 * dec 173 10) (dec 13725413 10000000000 * dec 173 10) 1;
  line 3 4 (dec 300 1) (dec 10048967 10000000000 * dec 173 10) (dec 2058812 1000000000 * dec 173 10) 1;
  line 4 5 (dec 400 1) (dec 13398623 10000000000 * dec 173 10) (dec 27450827 10000000000 * dec 173 10) 1;
  line 5 6 (dec 200 1) (dec 6699312 10000000000 * dec 173 10) (dec 13725413 10000000000 * dec 173 10) 1;
  line 6 7 (dec 125 1) (dec 418707 1000000000 * dec 173 10) (dec 8578383 10000000000 * dec 173 10) 1;
  line 7 8 (dec 275 1) (dec 9211553 10000000000 * dec 173 10) (dec 18872444 10000000000 * dec 173 10) 1;
  line 8 9 (dec 275 1) (dec 9211553 10000000000 * dec 173 10) (dec 18872444 10000000000 * dec 173 10) 1;
  line 7 10 (dec 350 1) (dec 11723795 10000000000 * dec 173 10) (dec 24019474 10000000000 * dec 173 10) 1;
  line 10 11 (dec 750 1) (dec 25122418 10000000000 * dec 173 10) (dec 514703 100000000 * dec 173 10) 1;
  line 11 12 (dec 250 1) (dec 27749546 10000000000 * dec 173 10) (dec 13221274 10000000000 * dec 173 10) 1;
  line 12 13 (dec 175 1) (dec 19424682 10000000000 * dec 173 10) (dec 9254892 10000000000 * dec 173 10) 1;
  line 13 14 (dec 350 1) (dec 38849364 10000000000 * dec 173 10) (dec 18509784 10000000000 * dec 173 10) 1;
  line 14 15 (dec 425 1) (dec 47174228 10000000000 * dec 173 10) (dec 22476166 10000000000 * dec 173 10) 1;
  line 15 16 (dec 325 1) (dec 36074409 10000000000 * dec 173 10) (dec 17187657 10000000000 * dec 173 10) 1;
  line 11 17 (dec 350 1) (dec 11723795 10000000000 * dec 173 10) (dec 24019474 10000000000 * dec 173 10) 1;
  line 17 18 (dec 275 1) (dec 9211553 10000000000 * dec 173 10) (dec 18872444 10000000000 * dec 173 10) 1;
  line 18 19 (dec 200 1) (dec 6699312 10000000000 * dec 173 10) (dec 13725413 10000000000 * dec 173 10) 1;
  line 19 20 (dec 400 1) (dec 13398623 10000000000 * dec 173 10) (dec 27450827 10000000000 * dec 173 10) 1;
  line 20 21 (dec 100 1) (dec 3349656 10000000000 * dec 173 10) (dec 6862707 10000000000 * dec 173 10) 1;
  line 21 22 (dec 225 1) (dec 7536726 10000000000 * dec 173 10) (dec 1544109 1000000000 * dec 173 10) 1;
  line 21 23 (dec 475 1) (dec 15910865 10000000000 * dec 173 10) (dec 32597857 10000000000 * dec 173 10) 1;
  line 23 24 (dec 475 1) (dec 15910865 10000000000 * dec 173 10) (dec 32597857 10000000000 * dec 173 10) 1;
  line 24 25 (dec 250 1) (dec 8374139 10000000000 * dec 173 10) (dec 17156767 10000000000 * dec 173 10) 1;
  line 25 26 (dec 250 1) (dec 8374139 10000000000 * dec 173 10) (dec 17156767 10000000000 * dec 173 10) 1;
  line 19 27 (dec 700 1) (dec 2344759 1000000000 * dec 173 10) (dec 48038947 10000000000 * dec 173 10) 1;
  line 27 28 (dec 450 1) (dec 15073451 10000000000 * dec 173 10) (dec 3088218 1000000000 * dec 173 10) 1;
  line 28 29 (dec 275 1) (dec 9211553 10000000000 * dec 173 10) (dec 18872444 10000000000 * dec 173 10) 1;
  line 29 30 (dec 225 1) (dec 7536726 10000000000 * dec 173 10) (dec 1544109 1000000000 * dec 173 10) 1;
  line 30 31 (dec 225 1) (dec 7536726 10000000000 * dec 173 10) (dec 1544109 1000000000 * dec 173 10) 1;
  line 31 32 (dec 300 1) (dec 10048967 10000000000 * dec 173 10) (dec 2058812 1000000000 * dec 173 10) 1;
  line 17 33 (dec 250 1) (dec 8374139 10000000000 * dec 173 10) (dec 17156767 10000000000 * dec 173 10) 1;
  line 33 34 (dec 275 1) (dec 9211553 10000000000 * dec 173 10) (dec 18872444 10000000000 * dec 173 10) 1;
  line 34 35 (dec 550 1) (dec 18423107 10000000000 * dec 173 10) (dec 37744887 10000000000 * dec 173 10) 1;
  line 35 36 (dec 300 1) (dec 10048967 10000000000 * dec 173 10) (dec 2058812 1000000000 * dec 173 10) 1;
  line 33 37 (dec 250 1) (dec 8374139 10000000000 * dec 173 10) (dec 17156767 10000000000 * dec 173 10) 1;
  line 37 38 (dec 275 1) (dec 9211553 10000000000 * dec 173 10) (dec 18872444 10000000000 * dec 173 10) 1;
  line 38 39 (dec 325 1) (dec 10886381 10000000000 * dec 173 10) (dec 22303797 10000000000 * dec 173 10) 1;
  line 4 40 (dec 825 1) (dec 2763466 1000000000 * dec 173 10) (dec 56617331 10000000000 * dec 173 10) 1;
  line 40 41 (dec 300 1) (dec 10048967 10000000000 * dec 173 10) (dec 2058812 1000000000 * dec 173 10) 1;
  line 41 42 (dec 250 1) (dec 8374139 10000000000 * dec 173 10) (dec 17156767 10000000000 * dec 173 10) 1;
  line 42 43 (dec 275 1) (dec 9211553 10000000000 * dec 173 10) (dec 18872444 10000000000 * dec 173 10) 1;
  line 43 44 (dec 200 1) (dec 6699312 10000000000 * dec 173 10) (dec 13725413 10000000000 * dec 173 10) 1;
  line 44 45 (dec 300 1) (dec 10048967 10000000000 * dec 173 10) (dec 2058812 1000000000 * dec 173 10) 1;
  line 45 46 (dec 350 1) (dec 11723795 10000000000 * dec 173 10) (dec 24019474 10000000000 * dec 173 10) 1;
  line 40 47 (dec 375 1) (dec 12561209 10000000000 * dec 173 10) (dec 2573515 1000000000 * dec 173 10) 1;
  line 47 48 (dec 250 1) (dec 8374139 10000000000 * dec 173 10) (dec 17156767 10000000000 * dec 173 10) 1;
  line 48 49 (dec 250 1) (dec 8374139 10000000000 * dec 173 10) (dec 17156767 10000000000 * dec 173 10) 1;
  line 49 50 (dec 200 1) (dec 6699312 10000000000 * dec 173 10) (dec 13725413 10000000000 * dec 173 10) 1;
  line 50 51 (dec 250 1) (dec 8374139 10000000000 * dec 173 10) (dec 17156767 10000000000 * dec 173 10) 1;
  line 51 52 (dec 150 1) (dec 5024484 10000000000 * dec 173 10) (dec 1029406 1000000000 * dec 173 10) 1;
  line 51 53 (dec 250 1) (dec 8374139 10000000000 * dec 173 10) (dec 17156767 10000000000 * dec 173 10) 1;
  line 53 54 (dec 250 1) (dec 8374139 10000000000 * dec 173 10) (dec 17156767 10000000000 * dec 173 10) 1;
  line 54 55 (dec 250 1) (dec 8374139 10000000000 * dec 173 10) (dec 17156767 10000000000 * dec 173 10) 1].
(** net_templates.py:138-171 *)
Definition bolognani33_bus : list (bus_data (K := K)) := [
  bus 1 1 (dec 16 100) (dec 8 100) (dec 416 100);
  bus 2 1 (dec 2 100) (dec 1 100) (dec 416 100);
  bus 3 1 (dec 12 100) (dec 6 100) (dec 416 100);
  bus 4 1 (dec 1 10) (dec 5 100) (dec 416 100);
  bus 5 1 (dec 4 100) (dec 2 100) (dec 416 100);
  bus 6 1 (dec 4 100) (dec 2 100) (dec 416 100);
  bus 7 1 0 0 (dec 416 100);
  bus 8 1 (dec 2 100) (dec 1 100) (dec 416 100);
  bus 9 1 (dec 2 100) (dec 1 100) (dec 416 100);
  bus 10 1 (dec 4 100) (dec 2 100) (dec 416 100);
  bus 11 1 (dec 2 100) (dec 1 100) (dec 416 100);
  bus 12 1 (dec 4 100) (dec 2 100) (dec 416 100);
  bus 13 1 (dec 4 100) (dec 2 100) (dec 416 100);
  bus 14 1 (dec 75 1000) (dec 35 1000) (dec 416 100);
  bus 15 1 (dec 14 100) (dec 1 10) (dec 416 100);
  bus 16 1 (dec 75 1000) (dec 35 1000) (dec 416 100);
  bus 17 1 (dec 12 100) (dec 6 100) (dec 416 100);
  bus 18 1 (dec 12 100) (dec 6 100) (dec 416 100);
  bus 19 1 (dec 245 1000) (dec 18 100) (dec 416 100);
  bus 20 1 (dec 4 100) (dec 2 100) (dec 416 100);
  bus 21 1 0 0 (dec 416 100);
  bus 22 1 (dec 4 100) (dec 2 100) (dec 416 100);
  bus 23 1 (dec 4 100) (dec 2 100) (dec 416 100);
  bus 24 1 (dec 6 100) (dec 3 100) (dec 416 100);
  bus 25 1 (dec 4 100) (dec 2 100) (dec 416 100);
  bus 26 1 (dec 2 100) (dec 1 100) (dec 416 100);
  bus 27 1 (dec 2 100) (dec 1 100) (dec 416 100);
  bus 28 1 (dec 8 100) (dec 4 100) (dec 416 100);
  bus 29 1 (dec 4 100) (dec 2 100) (dec 416 100);
  bus 30 1 (dec 4 100) (dec 2 100) (dec 416 100);
  bus 31 1 (dec 4 100) (dec 2 100) (dec 416 100);
  bus 32 1 (dec 4 100) (dec 2 100) (dec 416 100);
  bus 33 3 (dec 5 1) (dec 5 1) (dec 416 100)].
(** net_templates.py:173-205 *)
Definition bolognani33_net : list (line_data (K := K)) := [
  line 33 1 (dec 400 1) (dec 13398623 10000000000 * dec 173 10) (dec 27450827 10000000000 * dec 173 10) 1;
  line 1 2 (dec 300 1) (dec 10048967 10000000000 * dec 173 10) (dec 2058812 1000000000 * dec 173 10) 1;
  line 2 3 (dec 200 1) (dec 6699312 10000000000 * dec 173 10) (dec 13725413 10000000000 * dec 173 10) 1;
  line 3 4 (dec 300 1) (dec 10048967 10000000000 * dec 173 10) (dec 2058812 1000000000 * dec 173 10) 1;
  line 4 5 (dec 400 1) (dec 13398623 10000000000 * dec 173 10) (dec 27450827 10000000000 * dec 173 10) 1;
  line 5 6 (dec 200 1) (dec 6699312 10000000000 * dec 173 10) (dec 13725413 10000000000 * dec 173 10) 1;
  line 6 7 (dec 125 1) (dec 418707 1000000000 * dec 173 10) (dec 8578383 10000000000 * dec 173 10) 1;
  line 7 8 (dec 275 1) (dec 9211553 10000000000 * dec 173 10) (dec 18872444 10000000000 * dec 173 10) 1;
  line 8 9 (dec 275 1) (dec 9211553 10000000000 * dec 173 10) (dec 18872444 10000000000 * dec 173 10) 1;
  line 7 10 (dec 350 1) (dec 11723795 10000000000 * dec 173 10) (dec 24019474 10000000000 * dec 173 10) 1;
  line 10 11 (dec 750 1) (dec 25122418 10000000000 * dec 173 10) (dec 514703 100000000 * dec 173 10) 1;
  line 11 12 (dec 250 1) (dec 27749546 10000000000 * dec 173 10) (dec 13221274 10000000000 * dec 173 10) 1;
  line 12 13 (dec 175 1) (dec 19424682 10000000000 * dec 173 10) (dec 9254892 10000000000 * dec 173 10) 1;
  line 13 14 (dec 350 1) (dec 38849364 10000000000 * dec 173 10) (dec 18509784 10000000000 * dec 173 10) 1;
  line 14 15 (dec 425 1) (dec 47174228 10000000000 * dec 173 10) (dec 22476166 10000000000 * dec 173 10) 1;
  line 15 16 (dec 325 1) (dec 36074409 10000000000 * dec 173 10) (dec 17187657 10000000000 * dec 173 10) 1;
  line 11 17 (dec 350 1) (dec 11723795 10000000000 * dec 173 10) (dec 24019474 10000000000 * dec 173 10) 1;
  line 17 18 (dec 275 1) (dec 9211553 10000000000 * dec 173 10) (dec 18872444 10000000000 * dec 173 10) 1;
  line 18 19 (dec 200 1) (dec 6699312 10000000000 * dec 173 10) (dec 13725413 10000000000 * dec 173 10) 1;
  line 19 20 (dec 400 1) (dec 13398623 10000000000 * dec 173 10) (dec 27450827 10000000000 * dec 173 10) 1;
  line 20 21 (dec 100 1) (dec 3349656 10000000000 * dec 173 10) (dec 6862707 10000000000 * dec 173 10) 1;
  line 21 22 (dec 225 1) (dec 7536726 10000000000 * dec 173 10) (dec 1544109 1000000000 * dec 173 10) 1;
  line 21 23 (dec 475 1) (dec 15910865 10000000000 * dec 173 10) (dec 32597857 10000000000 * dec 173 10) 1;
  line 23 24 (dec 475 1) (dec 15910865 10000000000 * dec 173 10) (dec 32597857 10000000000 * dec 173 10) 1;
  line 24 25 (dec 250 1) (dec 8374139 10000000000 * dec 173 10) (dec 17156767 10000000000 * dec 173 10) 1;
  line 25 26 (dec 250 1) (dec 8374139 10000000000 * dec 173 10) (dec 17156767 10000000000 * dec 173 10) 1;
  line 19 27 (dec 700 1) (dec 2344759 1000000000 * dec 173 10) (dec 48038947 10000000000 * dec 173 10) 1;
  line 27 28 (dec 450 1) (dec 15073451 10000000000 * dec 173 10) (dec 3088218 1000000000 * dec 173 10) 1;
  line 28 29 (dec 275 1) (dec 9211553 10000000000 * dec 173 10) (dec 18872444 10000000000 * dec 173 10) 1;
  line 29 30 (dec 225 1) (dec 7536726 10000000000 * dec 173 10) (dec 1544109 1000000000 * dec 173 10) 1;
  line 30 31 (dec 225 1) (dec 7536726 10000000000 * dec 173 10) (dec 1544109 1000000000 * dec 173 10) 1;
  line 31 32 (dec 300 1) (dec 10048967 10000000000 * dec 173 10) (dec 2058812 1000000000 * dec 173 10) 1].
(** net_templates.py:213-234 *)
Definition bolognani21_bus : list (bus_data (K := K)) := [
  bus 1 1 (dec 16 100) (dec 8 100) (dec 416 100);
  bus 2 1 (dec 2 100) (dec 1 100) (dec 416 100);
  bus 3 1 (dec 12 100) (dec 6 100) (dec 416 100);
  bus 4 1 (dec 1 10) (dec 5 100) (dec 416 100);
  bus 5 1 (dec 8 100) (dec 4 100) (dec 416 100);
  bus 6 1 (dec 4 100) (dec 2 100) (dec 416 100);
  bus 7 1 (dec 4 100) (dec 2 100) (dec 416 100);
  bus 8 1 (dec 8 100) (dec 4 100) (dec 416 100);
  bus 9 1 (dec 4 100) (dec 2 100) (dec 416 100);
  bus 10 1 (dec 4 100) (dec 2 100) (dec 416 100);
  bus 11 1 (dec 4 100) (dec 2 100) (dec 416 100);
  bus 12 1 (dec 12 100) (dec 6 100) (dec 416 100);
  bus 13 1 (dec 2 100) (dec 1 100) (dec 416 100);
  bus 14 1 (dec 6 100) (dec 3 100) (dec 416 100);
  bus 15 1 (dec 4 100) (dec 2 100) (dec 416 100);
  bus 16 1 (dec 105 1000) (dec 75 1000) (dec 416 100);
  bus 17 1 (dec 21 100) (dec 15 100) (dec 416 100);
  bus 18 1 (dec 14 100) (dec 95 1000) (dec 416 100);
  bus 19 1 (dec 4 100) (dec 2 100) (dec 416 100);
  bus 20 1 (dec 2 100) (dec 1 100) (dec 416 100);
  bus 21 3 (dec 5 1) (dec 5 1) (dec 416 100)].
(** net_templates.py:236-256 *)
Definition bolognani21_net : list (line_data (K := K)) := [
  line 21 1 (dec 400 1) (dec 13398623 10000000000 * dec 173 10) (dec 27450827 10000000000 * dec 173 10) 1;
  line 1 2 (dec 300 1) (dec 10048967 10000000000 * dec 173 10) (dec 2058812 1000000000 * dec 173 10) 1;
  line 2 3 (dec 200 1) (dec 6699312 10000000000 * dec 173 10) (dec 13725413 10000000000 * dec 173 10) 1;
  line 3 4 (dec 300 1) (dec 10048967 10000000000 * dec 173 10) (dec 2058812 1000000000 * dec 173 10) 1;
  line 4 5 (dec 825 1) (dec 2763466 1000000000 * dec 173 10) (dec 56617331 10000000000 * dec 173 10) 1;
  line 5 6 (dec 300 1) (dec 10048967 10000000000 * dec 173 10) (dec 2058812 1000000000 * dec 173 10) 1;
  line 6 7 (dec 250 1) (dec 8374139 10000000000 * dec 173 10) (dec 17156767 10000000000 * dec 173 10) 1;
  line 7 8 (dec 275 1) (dec 9211553 10000000000 * dec 173 10) (dec 18872444 10000000000 * dec 173 10) 1;
  line 8 9 (dec 200 1) (dec 6699312 10000000000 * dec 173 10) (dec 13725413 10000000000 * dec 173 10) 1;
  line 9 10 (dec 300 1) (dec 10048967 10000000000 * dec 173 10) (dec 2058812 1000000000 * dec 173 10) 1;
  line 10 11 (dec 350 1) (dec 11723795 10000000000 * dec 173 10) (dec 24019474 10000000000 * dec 173 10) 1;
  line 5 12 (dec 375 1) (dec 12561209 10000000000 * dec 173 10) (dec 2573515 1000000000 * dec 173 10) 1;
  line 12 13 (dec 250 1) (dec 8374139 10000000000 * dec 173 10) (dec 17156767 10000000000 * dec 173 10) 1;
  line 13 14 (dec 250 1) (dec 8374139 10000000000 * dec 173 10) (dec 17156767 10000000000 * dec 173 10) 1;
  line 14 15 (dec 200 1) (dec 6699312 10000000000 * dec 173 10) (dec 13725413 10000000000 * dec 173 10) 1;
  line 15 16 (dec 250 1) (dec 8374139 10000000000 * dec 173 10) (dec 17156767 10000000000 * dec 173 10) 1;
  line 16 17 (dec 150 1) (dec 5024484 10000000000 * dec 173 10) (dec 1029406 1000000000 * dec 173 10) 1;
  line 16 18 (dec 250 1) (dec 8374139 10000000000 * dec 173 10) (dec 17156767 10000000000 * dec 173 10) 1;
  line 18 19 (dec 250 1) (dec 8374139 10000000000 * dec 173 10) (dec 17156767 10000000000 * dec 173 10) 1;
  line 20 21 (dec 250 1) (dec 8374139 10000000000 * dec 173 10) (dec 17156767 10000000000 * dec 173 10) 1].
(** net_templates.py:259-269 *)
Definition cigre_mv_feeder1_bus : list (bus_data (K := K)) := [
  bus 1 1 (dec 5017 10000) (dec 208882 1000000) (dec 20 1);
  bus 2 1 (dec 43165 100000) (dec 108182 1000000) (dec 20 1);
  bus 3 1 (dec 7275 10000) (dec 182329 1000000) (dec 20 1);
  bus 4 1 (dec 54805 100000) (dec 137354 1000000) (dec 20 1);
  bus 5 1 (dec 765 10000) (dec 4741 100000) (dec 20 1);
  bus 6 1 (dec 58685 100000) (dec 147078 1000000) (dec 20 1);
  bus 7 1 (dec 57375 100000) (dec 355578 1000000) (dec 20 1);
  bus 8 1 (dec 5433 10000) (dec 161264 1000000) (dec 20 1);
  bus 9 1 (dec 3298 10000) (dec 82656 1000000) (dec 20 1);
  bus 10 3 (dec 10 1) (dec 10 1) (dec 20 1)].
(** net_templates.py:271-282 *)
Definition cigre_mv_feeder1_net : list (line_data (K := K)) := [
  line 10 1 (dec 442 100) (dec 221442 100000) (dec 316472 100000) 1;
  line 1 2 (dec 61 100) (dec 30561 100000) (dec 43676 100000) 1;
  line 2 3 (dec 56 100) (dec 28056 100000) (dec 40096 100000) 1;
  line 3 4 (dec 154 100) (dec 77154 100000) (dec 110264 100000) 1;
  line 4 5 (dec 24 100) (dec 12024 100000) (dec 17184 100000) 1;
  line 5 6 (dec 167 100) (dec 83667 100000) (dec 119572 100000) 1;
  line 6 7 (dec 32 100) (dec 16032 100000) (dec 22912 100000) 1;
  line 7 8 (dec 77 100) (dec 38577 100000) (dec 55132 100000) 1;
  line 8 9 (dec 33 100) (dec 16533 100000) (dec 23628 100000) 1;
  line 1 6 (dec 13 10) (dec 6513 10000) (dec 9308 10000) 1;
  line 9 2 (dec 49 100) (dec 24549 100000) (dec 35084 100000) 1].
(** net_templates.py:285-318 *)
Definition ieee_33_bus : list (bus_data (K := K)) := [
  bus 1 3 (dec 10 1) (dec 10 1) (dec 1266 100);
  bus 2 1 (dec 1 10) (dec 6 100) (dec 1266 100);
  bus 3 1 (dec 9 100) (dec 4 100) (dec 1266 100);
  bus 4 1 (dec 12 100) (dec 8 100) (dec 1266 100);
  bus 5 1 (dec 6 100) (dec 3 100) (dec 1266 100);
  bus 6 1 (dec 6 100) (dec 2 100) (dec 1266 100);
  bus 7 1 (dec 2 10) (dec 1 10) (dec 1266 100);
  bus 8 1 (dec 2 10) (dec 1 10) (dec 1266 100);
  bus 9 1 (dec 6 100) (dec 2 100) (dec 1266 100);
  bus 10 1 (dec 6 100) (dec 2 100) (dec 1266 100);
  bus 11 1 (dec 45 1000) (dec 3 100) (dec 1266 100);
  bus 12 1 (dec 6 100) (dec 35 1000) (dec 1266 100);
  bus 13 1 (dec 6 100) (dec 35 1000) (dec 1266 100);
  bus 14 1 (dec 12 100) (dec 8 100) (dec 1266 100);
  bus 15 1 (dec 6 100) (dec 1 100) (dec 1266 100);
  bus 16 1 (dec 6 100) (dec 2 100) (dec 1266 100);
  bus 17 1 (dec 6 100) (dec 2 100) (dec 1266 100);
  bus 18 1 (dec 9 100) (dec 4 100) (dec 1266 100);
  bus 19 1 (dec 9 100) (dec 4 100) (dec 1266 100);
  bus 20 1 (dec 9 100) (dec 4 100) (dec 1266 100);
  bus 21 1 (dec 9 100) (dec 4 100) (dec 1266 100);
  bus 22 1 (dec 9 100) (dec 4 100) (dec 1266 100);
  bus 23 1 (dec 9 100) (dec 5 100) (dec 1266 100);
  bus 24 1 (dec 42 100) (dec 2 10) (dec 1266 100);
  bus 25 1 (dec 42 100) (dec 2 10) (dec 1266 100);
  bus 26 1 (dec 6 100) (dec 25 1000) (dec 1266 100);
  bus 27 1 (dec 6 100) (dec 25 1000) (dec 1266 100);
  bus 28 1 (dec 6 100) (dec 2 100) (dec 1266 100);
  bus 29 1 (dec 12 100) (dec 7 100) (dec 1266 100);
  bus 30 1 (dec 2 10) (dec 6 10) (dec 1266 100);
  bus 31 1 (dec 15 100) (dec 7 100) (dec 1266 100);
  bus 32 1 (dec 21 100) (dec 1 10) (dec 1266 100);
  bus 33 1 (dec 6 100) (dec 4 100) (dec 1266 100)].
(** net_templates.py:321-359 *)
Definition ieee_33_net : list (line_data (K := K)) := [
  line 1 2 (dec 1 1) (dec 922 10000) (dec 47 1000) 1;
  line 2 3 (dec 1 1) (dec 493 1000) (dec 2511 10000) 1;
  line 3 4 (dec 1 1) (dec 366 1000) (dec 1864 10000) 1;
  line 4 5 (dec 1 1) (dec 3811 10000) (dec 1941 10000) 1;
  line 5 6 (dec 1 1) (dec 819 1000) (dec 707 1000) 1;
  line 6 7 (dec 1 1) (dec 1872 10000) (dec 6188 10000) 1;
  line 7 8 (dec 1 1) (dec 7114 10000) (dec 2351 10000) 1;
  line 8 9 (dec 1 1) (dec 103 100) (dec 74 100) 1;
  line 9 10 (dec 1 1) (dec 1044 1000) (dec 74 100) 1;
  line 10 11 (dec 1 1) (dec 1966 10000) (dec 65 1000) 1;
  line 11 12 (dec 1 1) (dec 3744 10000) (dec 1238 10000) 1;
  line 12 13 (dec 1 1) (dec 1468 1000) (dec 1155 1000) 1;
  line 13 14 (dec 1 1) (dec 5416 10000) (dec 7129 10000) 1;
  line 14 15 (dec 1 1) (dec 591 1000) (dec 526 1000) 1;
  line 15 16 (dec 1 1) (dec 7463 10000) (dec 545 1000) 1;
  line 16 17 (dec 1 1) (dec 1289 1000) (dec 1721 1000) 1;
  line 17 18 (dec 1 1) (dec 732 1000) (dec 574 1000) 1;
  line 2 19 (dec 1 1) (dec 164 1000) (dec 1565 10000) 1;
  line 19 20 (dec 1 1) (dec 15042 10000) (dec 13554 10000) 1;
  line 20 21 (dec 1 1) (dec 4095 10000) (dec 4784 10000) 1;
  line 21 22 (dec 1 1) (dec 7089 10000) (dec 9373 10000) 1;
  line 3 23 (dec 1 1) (dec 4512 10000) (dec 3083 10000) 1;
  line 23 24 (dec 1 1) (dec 898 1000) (dec 7091 10000) 1;
  line 24 25 (dec 1 1) (dec 896 1000) (dec 7011 10000) 1;
  line 6 26 (dec 1 1) (dec 203 1000) (dec 1034 10000) 1;
  line 26 27 (dec 1 1) (dec 2842 10000) (dec 1447 10000) 1;
  line 27 28 (dec 1 1) (dec 1059 1000) (dec 9337 10000) 1;
  line 28 29 (dec 1 1) (dec 8042 10000) (dec 7006 10000) 1;
  line 29 30 (dec 1 1) (dec 5075 10000) (dec 2585 10000) 1;
  line 30 31 (dec 1 1) (dec 9744 10000) (dec 963 1000) 1;
  line 31 32 (dec 1 1) (dec 3105 10000) (dec 3619 10000) 1;
  line 32 33 (dec 1 1) (dec 341 1000) (dec 5302 10000) 1;
  line 21 8 (dec 1 1) (dec 2 1) (dec 2 1) 0;
  line 9 15 (dec 1 1) (dec 2 1) (dec 2 1) 0;
  line 12 22 (dec 1 1) (dec 2 1) (dec 2 1) 0;
  line 18 33 (dec 1 1) (dec 5 10) (dec 5 10) 0;
  line 25 29 (dec 1 1) (dec 5 10) (dec 5 10) 0].

(** net_templates_3ph.py:12-22 *)
Definition cigre_mv_feeder3_bus : list (bus_data (K := K)) := [
  bus3 1 1 (dec 5017 10000) (dec 5017 10000) (dec 5017 10000) (dec 208882 1000000) (dec 208882 1000000) (dec 208882 1000000) (dec 20 1);
  bus3 2 1 (dec 43165 100000) (dec 43165 100000) (dec 43165 100000) (dec 108182 1000000) (dec 108182 1000000) (dec 108182 1000000) (dec 20 1);
  bus3 3 1 (dec 7275 10000) (dec 7275 10000) (dec 7275 10000) (dec 182329 1000000) (dec 182329 1000000) (dec 182329 1000000) (dec 20 1);
  bus3 4 1 (dec 54805 100000) (dec 54805 100000) (dec 54805 100000) (dec 137354 1000000) (dec 137354 1000000) (dec 137354 1000000) (dec 20 1);
  bus3 5 1 (dec 765 10000) (dec 765 10000) (dec 765 10000) (dec 4741 100000) (dec 4741 100000) (dec 4741 100000) (dec 20 1);
  bus3 6 1 (dec 58685 100000) (dec 58685 100000) (dec 58685 100000) (dec 147078 1000000) (dec 147078 1000000) (dec 147078 1000000) (dec 20 1);
  bus3 7 1 (dec 57375 100000) (dec 57375 100000) (dec 57375 100000) (dec 355578 1000000) (dec 355578 1000000) (dec 355578 1000000) (dec 20 1);
  bus3 8 1 (dec 5433 10000) (dec 5433 10000) (dec 5433 10000) (dec 161264 1000000) (dec 161264 1000000) (dec 161264 1000000) (dec 20 1);
  bus3 9 1 (dec 3298 10000) (dec 3298 10000) (dec 3298 10000) (dec 82656 1000000) (dec 82656 1000000) (dec 82656 1000000) (dec 20 1);
  bus 10 3 (dec 5 1) (dec 5 1) (dec 20 1)].
(** net_templates_3ph.py:24-35 *)
Definition cigre_mv_feeder3_net : list (line_data (K := K)) := [
  line3 10 1 (dec 442 100) "UG3CIGRE";
  line3 1 2 (dec 61 100) "UG3CIGRE";
  line3 2 3 (dec 56 100) "UG3CIGRE";
  line3 3 4 (dec 154 100) "UG3CIGRE";
  line3 4 5 (dec 24 100) "UG3CIGRE";
  line3 5 6 (dec 167 100) "UG3CIGRE";
  line3 6 7 (dec 32 100) "UG3CIGRE";
  line3 7 8 (dec 77 100) "UG3CIGRE";
  line3 8 9 (dec 33 100) "UG3CIGRE";
  line3 1 6 (dec 13 10) "UG3CIGRE";
  line3 9 2 (dec 49 100) "UG3CIGRE"].
(** net_templates_3ph.py:37-42 *)
Definition test_3phase_bus : list (bus_data (K := K)) := [
  bus3 1 1 (dec 4 100) (dec 2 100) (dec 2 100) (dec 1 100) (dec 2 100) (dec 1 100) (dec 416 100);
  bus3 2 1 (dec 8 100) (dec 8 100) (dec 8 100) (dec 2 100) (dec 2 100) (dec 2 100) (dec 416 100);
  bus3 3 1 (dec 8 100) 0 0 (dec 4 100) 0 0 (dec 416 100);
  bus3 4 1 0 (dec 12 100) 0 0 (dec 8 100) 0 (dec 416 100);
  bus 5 3 (dec 10 1) (dec 10 1) (dec 416 100)].
(** net_templates_3ph.py:44-48 *)
Definition test_3phase_net : list (line_data (K := K)) := [
  line3 5 1 (dec 4 10) "OG3";
  line3 1 2 (dec 2 10) "OG3";
  line3 2 3 (dec 2 10) "OG3";
  line3 2 4 (dec 2 10) "OG3"].
(** net_templates_3ph.py:52-110 *)
Definition ieee123center_bus : list (bus_data (K := K)) := [
  bus3 1 1 (dec 4 100) (dec 2 100) (dec 1 10) (dec 2 100) (dec 1 100) (dec 5 100) (dec 416 100);
  bus3 2 1 (dec 2 100) 0 0 (dec 1 100) 0 0 (dec 416 100);
  bus3 3 1 (dec 1 10) (dec 2 100) 0 (dec 5 100) (dec 1 100) 0 (dec 416 100);
  bus3 4 1 0 0 (dec 1 10) 0 0 (dec 5 100) (dec 416 100);
  bus3 5 1 (dec 4 100) 0 0 (dec 2 100) 0 0 (dec 416 100);
  bus3 6 1 (dec 4 100) 0 0 (dec 2 100) 0 0 (dec 416 100);
  bus3 7 1 0 0 0 0 0 0 (dec 416 100);
  bus3 8 1 (dec 2 100) 0 0 (dec 1 100) 0 0 (dec 416 100);
  bus3 9 1 0 (dec 2 100) 0 0 (dec 1 100) 0 (dec 416 100);
  bus3 10 1 0 (dec 4 100) 0 0 (dec 2 100) 0 (dec 416 100);
  bus3 11 1 (dec 2 100) 0 0 (dec 1 100) 0 0 (dec 416 100);
  bus3 12 1 0 0 (dec 4 100) 0 0 (dec 2 100) (dec 416 100);
  bus3 13 1 (dec 4 100) 0 0 (dec 2 100) 0 0 (dec 416 100);
  bus3 14 1 0 (dec 75 1000) 0 0 (dec 35 1000) 0 (dec 416 100);
  bus3 15 1 (dec 35 1000) (dec 35 1000) (dec 7 100) (dec 25 1000) (dec 25 1000) (dec 5 100) (dec 416 100);
  bus3 16 1 0 0 (dec 75 1000) 0 0 (dec 35 1000) (dec 416 100);
  bus3 17 1 (dec 12 100) 0 0 (dec 6 100) 0 0 (dec 416 100);
  bus3 18 1 0 0 (dec 12 100) 0 0 (dec 6 100) (dec 416 100);
  bus3 19 1 (dec 105 1000) (dec 7 100) (dec 7 100) (dec 8 100) (dec 5 100) (dec 5 100) (dec 416 100);
  bus3 20 1 0 (dec 4 100) 0 0 (dec 2 100) 0 (dec 416 100);
  bus3 21 1 0 0 0 0 0 0 (dec 416 100);
  bus3 22 1 (dec 4 100) 0 0 (dec 2 100) 0 0 (dec 416 100);
  bus3 23 1 0 (dec 4 100) 0 0 (dec 2 100) 0 (dec 416 100);
  bus3 24 1 0 0 (dec 6 100) 0 0 (dec 3 100) (dec 416 100);
  bus3 25 1 (dec 4 100) 0 0 (dec 2 100) 0 0 (dec 416 100);
  bus3 26 1 0 0 (dec 2 100) 0 0 (dec 1 100) (dec 416 100);
  bus3 27 1 0 (dec 2 100) 0 0 (dec 1 100) 0 (dec 416 100);
  bus3 28 1 (dec 4 100) (dec 4 100) 0 (dec 2 100) (dec 2 100) 0 (dec 416 100);
  bus3 29 1 0 (dec 4 100) 0 0 (dec 2 100) 0 (dec 416 100);
  bus3 30 1 0 0 (dec 4 100) 0 0 (dec 2 100) (dec 416 100);
  bus3 31 1 (dec 4 100) 0 0 (dec 2 100) 0 0 (dec 416 100);
  bus3 32 1 0 (dec 4 100) 0 0 (dec 2 100) 0 (dec 416 100);
  bus3 33 1 0 0 0 0 0 0 (dec 416 100);
  bus3 34 1 (dec 4 100) 0 0 (dec 2 100) 0 0 (dec 416 100);
  bus3 35 1 0 (dec 4 100) 0 0 (dec 2 100) 0 (dec 416 100);
  bus3 36 1 0 0 (dec 4 100) 0 0 (dec 2 100) (dec 416 100);
  bus3 37 1 0 0 (dec 1 10) 0 0 (dec 5 100) (dec 416 100);
  bus3 38 1 0 (dec 8 100) 0 0 (dec 4 100) 0 (dec 416 100);
  bus3 39 1 (dec 14 100) 0 0 (dec 7 100) 0 0 (dec 416 100);
  bus3 40 1 (dec 8 100) 0 0 (dec 4 100) 0 0 (dec 416 100);
  bus3 41 1 0 (dec 4 100) 0 0 (dec 2 100) 0 (dec 416 100);
  bus3 42 1 0 0 (dec 4 100) 0 0 (dec 2 100) (dec 416 100);
  bus3 43 1 (dec 4 100) 0 (dec 4 100) (dec 2 100) 0 (dec 2 100) (dec 416 100);
  bus3 44 1 (dec 4 100) 0 0 (dec 2 100) 0 0 (dec 416 100);
  bus3 45 1 (dec 4 100) 0 0 (dec 2 100) 0 0 (dec 416 100);
  bus3 46 1 0 0 (dec 4 100) 0 0 (dec 2 100) (dec 416 100);
  bus3 47 1 (dec 8 100) (dec 4 100) 0 (dec 4 100) (dec 2 100) 0 (dec 416 100);
  bus3 48 1 0 0 (dec 2 100) 0 0 (dec 1 100) (dec 416 100);
  bus3 49 1 (dec 2 100) (dec 4 100) 0 (dec 1 100) (dec 2 100) 0 (dec 416 100);
  bus3 50 1 (dec 4 100) 0 0 (dec 2 100) 0 0 (dec 416 100);
  bus3 51 1 (dec 35 1000) (dec 35 1000) (dec 35 1000) (dec 25 1000) (dec 25 1000) (dec 25 1000) (dec 416 100);
  bus3 52 1 (dec 7 100) (dec 7 100) (dec 7 100) (dec 5 100) (dec 5 100) (dec 5 100) (dec 416 100);
  bus3 53 1 (dec 35 1000) (dec 7 100) (dec 35 1000) (dec 25 1000) (dec 5 100) (dec 2 100) (dec 416 100);
  bus3 54 1 0 0 (dec 4 100) 0 0 (dec 2 100) (dec 416 100);
  bus3 55 1 (dec 2 100) 0 0 (dec 1 100) 0 0 (dec 416 100);
  bus 56 3 (dec 5 1) (dec 5 1) (dec 416 100)].
(** net_templates_3ph.py:112-167 *)
Definition ieee123center_net : list (line_data (K := K)) := [
  line3 56 1 (dec 400 1 * dec 3 10 / dec 1000 1) "OG3";
  line3 1 2 (dec 300 1 * dec 3 10 / dec 1000 1) "OG3";
  line3 2 3 (dec 200 1 * dec 3 10 / dec 1000 1) "OG3";
  line3 3 4 (dec 300 1 * dec 3 10 / dec 1000 1) "OG3";
  line3 4 5 (dec 400 1 * dec 3 10 / dec 1000 1) "OG3";
  line3 5 6 (dec 200 1 * dec 3 10 / dec 1000 1) "OG3";
  line3 6 7 (dec 125 1 * dec 3 10 / dec 1000 1) "OG3";
  line3 7 8 (dec 275 1 * dec 3 10 / dec 1000 1) "OG3";
  line3 8 9 (dec 275 1 * dec 3 10 / dec 1000 1) "OG3";
  line3 7 10 (dec 350 1 * dec 3 10 / dec 1000 1) "OG3";
  line3 10 11 (dec 750 1 * dec 3 10 / dec 1000 1) "OG3";
  line3 11 12 (dec 250 1 * dec 3 10 / dec 1000 1) "UG3";
  line3 12 13 (dec 175 1 * dec 3 10 / dec 1000 1) "UG3";
  line3 13 14 (dec 350 1 * dec 3 10 / dec 1000 1) "UG3";
  line3 14 15 (dec 425 1 * dec 3 10 / dec 1000 1) "UG3";
  line3 15 16 (dec 325 1 * dec 3 10 / dec 1000 1) "UG3";
  line3 11 17 (dec 350 1 * dec 3 10 / dec 1000 1) "OG3";
  line3 17 18 (dec 275 1 * dec 3 10 / dec 1000 1) "OG3";
  line3 18 19 (dec 200 1 * dec 3 10 / dec 1000 1) "OG3";
  line3 19 20 (dec 400 1 * dec 3 10 / dec 1000 1) "OG3";
  line3 20 21 (dec 100 1 * dec 3 10 / dec 1000 1) "OG3";
  line3 21 22 (dec 225 1 * dec 3 10 / dec 1000 1) "OG3";
  line3 21 23 (dec 475 1 * dec 3 10 / dec 1000 1) "OG3";
  line3 23 24 (dec 475 1 * dec 3 10 / dec 1000 1) "OG3";
  line3 24 25 (dec 250 1 * dec 3 10 / dec 1000 1) "OG3";
  line3 25 26 (dec 250 1 * dec 3 10 / dec 1000 1) "OG3";
  line3 19 27 (dec 700 1 * dec 3 10 / dec 1000 1) "OG3";
  line3 27 28 (dec 450 1 * dec 3 10 / dec 1000 1) "OG3";
  line3 28 29 (dec 275 1 * dec 3 10 / dec 1000 1) "OG3";
  line3 29 30 (dec 225 1 * dec 3 10 / dec 1000 1) "OG3";
  line3 30 31 (dec 225 1 * dec 3 10 / dec 1000 1) "OG3";
  line3 31 32 (dec 300 1 * dec 3 10 / dec 1000 1) "OG3";
  line3 17 33 (dec 250 1 * dec 3 10 / dec 1000 1) "OG3";
  line3 33 34 (dec 275 1 * dec 3 10 / dec 1000 1) "OG3";
  line3 34 35 (dec 550 1 * dec 3 10 / dec 1000 1) "OG3";
  line3 35 36 (dec 300 1 * dec 3 10 / dec 1000 1) "OG3";
  line3 33 37 (dec 250 1 * dec 3 10 / dec 1000 1) "OG3";
  line3 37 38 (dec 275 1 * dec 3 10 / dec 1000 1) "OG3";
  line3 38 39 (dec 325 1 * dec 3 10 / dec 1000 1) "OG3";
  line3 4 40 (dec 825 1 * dec 3 10 / dec 1000 1) "OG3";
  line3 40 41 (dec 300 1 * dec 3 10 / dec 1000 1) "OG3";
  line3 41 42 (dec 250 1 * dec 3 10 / dec 1000 1) "OG3";
  line3 42 43 (dec 275 1 * dec 3 10 / dec 1000 1) "OG3";
  line3 43 44 (dec 200 1 * dec 3 10 / dec 1000 1) "OG3";
  line3 44 45 (dec 300 1 * dec 3 10 / dec 1000 1) "OG3";
  line3 45 46 (dec 350 1 * dec 3 10 / dec 1000 1) "OG3";
  line3 40 47 (dec 375 1 * dec 3 10 / dec 1000 1) "OG3";
  line3 47 48 (dec 250 1 * dec 3 10 / dec 1000 1) "OG3";
  line3 48 49 (dec 250 1 * dec 3 10 / dec 1000 1) "OG3";
  line3 49 50 (dec 200 1 * dec 3 10 / dec 1000 1) "OG3";
  line3 50 51 (dec 250 1 * dec 3 10 / dec 1000 1) "OG3";
  line3 51 52 (dec 150 1 * dec 3 10 / dec 1000 1) "OG3";
  line3 51 53 (dec 250 1 * dec 3 10 / dec 1000 1) "OG3";
  line3 53 54 (dec 250 1 * dec 3 10 / dec 1000 1) "OG3";
  line3 54 55 (dec 250 1 * dec 3 10 / dec 1000 1) "OG3"].

(** net_templates_3ph.py:184-190: complex numbers as pairs; positive-sequence impedances *)
Definition Z3_1_og : K * K := (((dec 87 1000) - (dec 29 1000)) / (dec 3 10), ((dec 20 100) - (dec 8 100)) / (dec 3 10)).
Definition Z1_1_og : K * K := ((dec 25 100) / (dec 3 10), (dec 25 100) / (dec 3 10)).
Definition Z3_1_ug : K * K := (((dec 29 100) - (dec 95 1000)) / (dec 3 10), ((dec 14 100) - (dec 5 100)) / (dec 3 10)).
(** net_templates_3ph.py:192-207: resistance and reactance per km; capacitances are 0, zero-sequence values and limits are left out *)
Definition ieee123_types : list (string * (K * K)) := [
  ("OG3"%string, Z3_1_og);
  ("UG3"%string, Z3_1_ug);
  ("OG1"%string, Z1_1_og);
  ("UG3CIGRE"%string, (fst Z3_1_ug / (dec 3 1), (dec 3 1) * snd Z3_1_ug / (dec 3 1)))].

(** run.py:19-20: [getattr] of the two tables *)
Definition template1 (name : string) : option (list (bus_data (K := K)) * list (line_data (K := K))) :=
  if String.eqb name "bolognani56" then Some (bolognani56_bus, bolognani56_net)
  else if String.eqb name "bolognani33" then Some (bolognani33_bus, bolognani33_net)
  else if String.eqb name "bolognani21" then Some (bolognani21_bus, bolognani21_net)
  else if String.eqb name "cigre_mv_feeder1" then Some (cigre_mv_feeder1_bus, cigre_mv_feeder1_net)
  else if String.eqb name "ieee_33" then Some (ieee_33_bus, ieee_33_net)
  else None.
(** run3ph.py:21-22: [getattr] of the two tables *)
Definition template3 (name : string) : option (list (bus_data (K := K)) * list (line_data (K := K))) :=
  if String.eqb name "cigre_mv_feeder3" then Some (cigre_mv_feeder3_bus, cigre_mv_feeder3_net)
  else if String.eqb name "test_3phase" then Some (test_3phase_bus, test_3phase_net)
  else if String.eqb name "ieee123center" then Some (ieee123center_bus, ieee123center_net)
  else None.
End Templates.

(** conf/simulation.py:5-12 *)
Definition list1 := [3; 16; 18; 28; 40; 47; 52]%nat.
Definition list2 := [8; 9; 22; 36; 49; 46; 51]%nat.
Definition list3 := [6; 12; 55; 26; 44; 50]%nat.
Definition list4 := [1; 4; 10; 15; 17; 37]%nat.
Definition list5 := [19; 24; 32; 39; 43; 53]%nat.
Definition observed_nodes : list nat := (list1 ++ list2 ++ list3 ++ list4 ++ list5)%list.
(** conf/simulation.py:13: [list(set(range(1,56)) - set(np.array(observed_nodes)-1))]; the difference goes through the first set
    in order and adds what the second does not have (set_difference in setobject.c: the second set has more than a quarter
    of the elements of the first) *)
Definition set_difference (a b : table) : table := fold_left set_add (filter (fun x => negb (mem x (keys b))) (keys a)) (empty_table MINSIZE).
Definition shipped_hidden_nodes : list nat := keys (set_difference (set_of (seq 1 55)) (set_of (map (fun x => x - 1)%nat observed_nodes))).
(** net_templates.py:136,210-211: dictionaries from labels of a sub-network to labels of bolognani56 *)
Definition bolognani_mapping33 : list (nat * nat) := combine [33]%nat [56]%nat.
Definition bolognani_mapping21 : list (nat * nat) :=
  combine [5; 6; 7; 8; 9; 10; 11; 12; 13; 14; 15; 16; 17; 18; 19; 20; 21]%nat [40; 41; 42; 43; 44; 45; 46; 47; 48; 49; 50; 51; 52; 53; 54; 55; 56]%nat.
