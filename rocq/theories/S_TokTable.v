(* Specification vocabulary for the word tables. *)
From Coq Require Import Sorted.
From Verif Require Import Base M_Encoding M_TokTable.
Local Open Scope N_scope.

(* Reading the list [m] gives exactly [xs]. *)
Definition lists (m : matches) (xs : list N) : Prop := exists q, read_matches m = RA_ok xs q.

(* Message numbers the list format can hold in any combination. *)
Definition small (x : N) : Prop := x < 63 * 2 ^ 24.

(* A loaded list: what reading a file gives where [m] was written, followed by the end marker. *)
Definition reloaded (m m' : matches) : Prop :=
  exists garbage pre tail, copy_list garbage (pre ++ msginfo m ++ 255 :: tail) (length pre) = Some m'.

(* Purging messages: [live] tells which survive; survivors are numbered consecutively. *)
Definition alive (live : list bool) (x : N) : bool := nth (N.to_nat x) live false.
Definition new_number (live : list bool) (x : N) : N :=
  N.of_nat (length (filter (fun b => b) (firstn (N.to_nat x) live))).
Definition renumber (live : list bool) (xs : list N) : list N :=
  map (new_number live) (filter (alive live) xs).

(* The tables a run of the program can have in memory: built word by word, written out and loaded
   again, purged, in any order. *)
Inductive index_table (hashf : bytes -> N) : toktable matches -> Prop :=
| IT_new : index_table hashf new_toktable
| IT_add t w x t' : index_table hashf t -> small x ->
    add_token hashf init_matches upd1 t w x = Ok t' -> index_table hashf t'
| IT_load t ents t' : index_table hashf t ->
    Forall2 (fun e0 e => fst e = fst e0 /\ reloaded (snd e0) (snd e)) (entries t) ents ->
    import_toktable hashf true ents = Ok t' -> index_table hashf t'
| IT_purge t live fuel t' : index_table hashf t -> N.of_nat (length live) <= 63 * 2 ^ 24 ->
    recode_table fuel (recode1 (new_index_array live 0)) dead1 t = Ok t' -> index_table hashf t'.

(* The message-id table, whose entries carry two lists. *)
Inductive index_table2 (hashf : bytes -> N) : toktable (matches * matches) -> Prop :=
| IT2_new : index_table2 hashf new_toktable
| IT2_add t w x b t' : index_table2 hashf t -> small x ->
    add_token hashf (init_matches, init_matches) upd2 t w (x, b) = Ok t' -> index_table2 hashf t'
| IT2_load t ents t' : index_table2 hashf t ->
    Forall2 (fun e0 e => fst e = fst e0 /\ reloaded (fst (snd e0)) (fst (snd e)) /\
                         reloaded (snd (snd e0)) (snd (snd e))) (entries t) ents ->
    import_toktable hashf false ents = Ok t' -> index_table2 hashf t'
| IT2_purge t live fuel t' : index_table2 hashf t -> N.of_nat (length live) <= 63 * 2 ^ 24 ->
    recode_table fuel (recode2 (new_index_array live 0)) dead2 t = Ok t' -> index_table2 hashf t'.

(* Any table at all that the code can produce, from any file contents and any per-list operations;
   used for termination. *)
Inductive any_table {P U : Type} (hashf : bytes -> N) (pinit : P) (upd : U -> P -> option P)
  : toktable P -> Prop :=
| AT_new : any_table hashf pinit upd new_toktable
| AT_add t w u t' : any_table hashf pinit upd t -> add_token hashf pinit upd t w u = Ok t' ->
    any_table hashf pinit upd t'
| AT_load dupcheck ents t' : import_toktable hashf dupcheck ents = Ok t' -> any_table hashf pinit upd t'
| AT_purge rec dead fuel t t' : any_table hashf pinit upd t -> recode_table fuel rec dead t = Ok t' ->
    any_table hashf pinit upd t'.
