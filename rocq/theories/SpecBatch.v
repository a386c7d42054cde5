(** Configuration files with numbers that may vary, written independently of sed. *)
From Coq Require Import String.
From Coq Require Import Bool Arith List Ascii.
From Verif Require Import ModelBatch.
Import ListNotations.
Close Scope string_scope.
Local Open Scope list_scope.
Local Open Scope nat_scope.

Definition occurs (k s : text) : Prop := exists a b, s = a ++ k ++ b.

(** digits and decimal points *)
Definition number_char (c : ascii) : bool := (48 <=? nat_of_ascii c) && (nat_of_ascii c <=? 57) || Ascii.eqb c "."%char.
Definition number (v : text) : Prop := v <> [] /\ forallb number_char v = true.

Definition seed_key := txt "seed = ".
Definition noise_key := txt "noise_level = ".
Definition days_key := txt "days = ".

(** values of the three settings *)
Record settings := Set_ { the_seed : text; the_level : text; the_days : text }.
Definition original : settings := Set_ (txt "131") (txt "1") (txt "7").
Definition numbers (e : settings) : Prop := number (the_seed e) /\ number (the_level e) /\ number (the_days e).

(** a line of a file: fixed, or with one of the settings *)
Inductive line := Fixed (s : text) | Setting (k : text) (before after : text).
Definition value (k : text) (e : settings) : text :=
  if list_eq_dec ascii_dec k seed_key then the_seed e else if list_eq_dec ascii_dec k noise_key then the_level e else the_days e.
Definition line_with (e : settings) (l : line) : text :=
  match l with Fixed s => s | Setting k b a => b ++ k ++ value k e ++ a end.
Definition file_with (e : settings) (f : list line) : list text := map (line_with e) f.

(** settings with keys from [ks] are where they are said to be, and nowhere else *)
Definition clean_line (ks : list text) (l : line) : Prop :=
  match l with
  | Fixed s => forall k, In k ks -> ~ occurs k s
  | Setting k b a => In k ks /\ (forall k', In k' ks -> k' <> k -> ~ occurs k' (b ++ k)) /\ (forall k', In k' ks -> ~ occurs k' a) /\
      (forall x y, b ++ k = x ++ k ++ y -> y = []) /\ match a with [] => True | c :: _ => number_char c = false end
  end.
Definition clean (ks : list text) (f : list line) : Prop := Forall (clean_line ks) f.
(** the two files *)
Definition disk_with (e : settings) (c s : list line) : disk := Disk (file_with e c) (file_with e s).
Definition clean_disk (c s : list line) : Prop := clean [seed_key; noise_key] c /\ clean [days_key] s.
Definition mentions (k : text) (f : list line) : Prop := exists b a, In (Setting k b a) f.

(** what the batch announces: the programs with the settings they are meant to use *)
Definition identify_args := txt "identify_network.py -q --max-iterations 20 --network ieee123center --phases 012".
Definition plot_args := txt "plot_results.py -v --network ieee123center".
Definition noise_plan (seeds levels : list text) : list (text * settings) :=
  flat_map (fun seed => (txt "simulate_network.py -vqte --network ieee123center", Set_ seed (txt "1") (txt "7")) ::
    flat_map (fun i => map (fun a => (a, Set_ seed i (txt "7"))) [txt "simulate_network.py -qtde --network ieee123center"; identify_args; plot_args]) levels) seeds.
Definition size_plan (seeds days : list text) : list (text * settings) :=
  flat_map (fun seed => flat_map (fun i => map (fun a => (a, Set_ seed (txt "1") i)) [txt "simulate_network.py -qte --network ieee123center"; identify_args; plot_args]) days) seeds.
(** the settings a batch may leave behind *)
Definition among (seeds levels days : list text) (e : settings) : Prop :=
  In (the_seed e) (txt "131" :: seeds) /\ In (the_level e) (txt "1" :: levels) /\ In (the_days e) (txt "7" :: days).
(** the settings left behind from which the same batch, run again, finds back to the original ones *)
Definition healed (e : settings) : Prop := the_seed e <> txt "111" /\ ~ In (the_days e) [txt "10"; txt "15"; txt "21"; txt "30"].
