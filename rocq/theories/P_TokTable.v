(* C05-C07: the word tables behave like maps, never hang, and survive purging. *)
From Coq Require Import Sorted.
From Verif Require Import Base M_Encoding M_TokTable S_TokTable L_TokTable2.
Local Open Scope N_scope.

(* C05.  Recording any history of (word, message) pairs, message numbers non-decreasing, with any hash
   function: nothing fails, each word has one entry, the entry count is exact, the words present are
   exactly the lower-cased words recorded, and each word's list reads back as exactly the messages it
   was recorded for. *)
Theorem C05_word_table_is_map : forall (hashf : bytes -> N) (history : list (bytes * N)),
  StronglySorted N.le (map snd history) -> Forall small (map snd history) ->
  exists t, add_tokens hashf init_matches upd1 new_toktable history = Ok t /\
    NoDup (map fst (entries t)) /\ tn t = N.of_nat (length (entries t)) /\
    (forall w, In w (map fst (entries t)) <-> exists v i, In (v, i) history /\ map tolower v = w) /\
    (forall w m, In (w, m) (entries t) -> exists ys, lists m ys /\ StronglySorted N.lt ys /\
        forall i, In i ys <-> exists v, In (v, i) history /\ map tolower v = w).
Proof. exact table_is_map. Qed.
Print Assumptions C05_word_table_is_map.

(* The message-id table: the second list holds the messages recorded with the chain flag set. *)
Theorem C05_id_table_is_map : forall (hashf : bytes -> N) (history : list (bytes * (N * bool))),
  StronglySorted N.le (map (fun h => fst (snd h)) history) ->
  Forall small (map (fun h => fst (snd h)) history) ->
  exists t, add_tokens hashf (init_matches, init_matches) upd2 new_toktable history = Ok t /\
    NoDup (map fst (entries t)) /\ tn t = N.of_nat (length (entries t)) /\
    (forall w, In w (map fst (entries t)) <-> exists v i b, In (v, (i, b)) history /\ map tolower v = w) /\
    (forall w m0 m1, In (w, (m0, m1)) (entries t) -> exists ys zs, lists m0 ys /\ lists m1 zs /\
        StronglySorted N.lt ys /\ StronglySorted N.lt zs /\
        (forall i, In i ys <-> exists v b, In (v, (i, b)) history /\ map tolower v = w) /\
        (forall i, In i zs <-> exists v, In (v, (i, true)) history /\ map tolower v = w)).
Proof. exact table2_is_map. Qed.
Print Assumptions C05_id_table_is_map.

(* After any mixture of insertions, write-and-reload cycles and purges, the tables still have one
   entry per word, an exact count, and readable ascending lists. *)
Theorem C05_every_reachable_table : forall hashf t, index_table hashf t ->
  NoDup (map fst (entries t)) /\ tn t = N.of_nat (length (entries t)) /\
  (forall w m, In (w, m) (entries t) -> exists ys, lists m ys /\ StronglySorted N.lt ys).
Proof. exact index_table_distinct. Qed.
Print Assumptions C05_every_reachable_table.

Theorem C05_every_reachable_id_table : forall hashf t, index_table2 hashf t ->
  NoDup (map fst (entries t)) /\ tn t = N.of_nat (length (entries t)) /\
  (forall w m0 m1, In (w, (m0, m1)) (entries t) -> exists ys zs, lists m0 ys /\ lists m1 zs /\
      StronglySorted N.lt ys /\ StronglySorted N.lt zs).
Proof. exact index_table2_distinct. Qed.
Print Assumptions C05_every_reachable_id_table.

(* And in any such table, one more insertion finds the existing entry, whatever its case: other words
   keep exactly what they had, this word gains exactly the new message. *)
Theorem C05_insert_into_reachable_table : forall hashf t w x, index_table hashf t -> small x ->
  (forall m ys i, In (map tolower w, m) (entries t) -> lists m ys -> In i ys -> i <= x) ->
  exists t', add_token hashf init_matches upd1 t w x = Ok t' /\
    (forall v, v <> map tolower w -> forall m, In (v, m) (entries t') <-> In (v, m) (entries t)) /\
    exists m' ys', In (map tolower w, m') (entries t') /\ lists m' ys' /\
      forall i, In i ys' <-> i = x \/ exists m ys, In (map tolower w, m) (entries t) /\ lists m ys /\ In i ys.
Proof. exact index_table_insert. Qed.
Print Assumptions C05_insert_into_reachable_table.

(* C06.  In every table the code can produce (built, loaded from any file contents, purged), with any
   hash function and any per-word update: adding a word finishes without running out of slots or
   reading outside the table (it stores the word, or stops at the list's own assertion), and purging
   finishes. *)
Theorem C06_insertion_terminates : forall {P U} hashf (pinit : P) (upd : U -> P -> option P) t,
  any_table hashf pinit upd t ->
  (forall w u, (exists t', add_token hashf pinit upd t w u = Ok t') \/
               add_token hashf pinit upd t w u = Err E_assert) /\
  (forall rec dead, (forall w p, In (w, p) (entries t) -> exists p', rec p = Ok p') ->
     exists bound t', forall fuel, (bound <= fuel)%nat -> recode_table fuel rec dead t = Ok t').
Proof. exact @insertion_terminates. Qed.
Print Assumptions C06_insertion_terminates.

(* Loading any list of entries also finishes: it builds the table or reports a duplicate word. *)
Theorem C06_loading_terminates : forall {P} hashf dupcheck (ents : list (bytes * P)),
  (exists t, import_toktable hashf dupcheck ents = Ok t) \/
  import_toktable hashf dupcheck ents = Err (E_exit 1).
Proof. exact @loading_terminates. Qed.
Print Assumptions C06_loading_terminates.

(* C07.  Purging: each word keeps exactly its surviving messages under their new consecutive numbers,
   words left with none disappear, nothing else appears, and the result is again a reachable table, so
   C05_insert_into_reachable_table and C06 apply to it. *)
Theorem C07_purge_word_table : forall hashf live t, index_table hashf t ->
  N.of_nat (length live) <= 63 * 2 ^ 24 ->
  (forall w m ys i, In (w, m) (entries t) -> lists m ys -> In i ys -> i < N.of_nat (length live)) ->
  exists t' bound, (forall fuel, (bound <= fuel)%nat ->
      recode_table fuel (recode1 (new_index_array live 0)) dead1 t = Ok t') /\
    index_table hashf t' /\
    forall w ys, (exists m', In (w, m') (entries t') /\ lists m' ys) <->
      ys <> [] /\ exists m xs, In (w, m) (entries t) /\ lists m xs /\ ys = renumber live xs.
Proof. exact purge_table. Qed.
Print Assumptions C07_purge_word_table.

Theorem C07_purge_id_table : forall hashf live t, index_table2 hashf t ->
  N.of_nat (length live) <= 63 * 2 ^ 24 ->
  (forall w m0 m1 ys i, In (w, (m0, m1)) (entries t) -> lists m0 ys \/ lists m1 ys -> In i ys ->
     i < N.of_nat (length live)) ->
  exists t' bound, (forall fuel, (bound <= fuel)%nat ->
      recode_table fuel (recode2 (new_index_array live 0)) dead2 t = Ok t') /\
    index_table2 hashf t' /\
    forall w ys zs, (exists m0 m1, In (w, (m0, m1)) (entries t') /\ lists m0 ys /\ lists m1 zs) <->
      ~ (ys = [] /\ zs = []) /\ exists m0 m1 xs us, In (w, (m0, m1)) (entries t) /\
         lists m0 xs /\ lists m1 us /\ ys = renumber live xs /\ zs = renumber live us.
Proof. exact purge_table2. Qed.
Print Assumptions C07_purge_id_table.

(* Concrete cases.  Every word collides under this hash function. *)
Definition ex_hash : bytes -> N := fun _ => 1023.
Definition ex_history : list (bytes * N) :=
  [(bs "Hello", 0); (bs "there", 0); (bs "gone", 1); (bs "hello", 2); (bs "HELLO", 3)].
Definition ex_table := match add_tokens ex_hash init_matches upd1 new_toktable ex_history with
                       | Ok t => t | Err _ => new_toktable end.
Example C05_history_ok : StronglySorted N.le (map snd ex_history) /\ Forall small (map snd ex_history).
Proof. split; repeat constructor; vm_compute; congruence. Qed.
Example C05_three_words : map fst (entries ex_table) = [bs "there"; bs "gone"; bs "hello"].
Proof. now vm_compute. Qed.
Example C06_reachable : exists t, any_table ex_hash init_matches upd1 t /\ map fst (entries t) = [bs "word"].
Proof.
  destruct (add_token ex_hash init_matches upd1 new_toktable (bs "Word") 5) as [t1|] eqn:E1; [|now vm_compute in E1].
  exists t1. split; [eapply AT_add; [apply AT_new|exact E1]|]. vm_compute in E1. injection E1 as <-. now vm_compute.
Qed.
Example C07_reachable : exists t, index_table ex_hash t /\ map fst (entries t) = [bs "gone"; bs "hello"].
Proof.
  destruct (add_token ex_hash init_matches upd1 new_toktable (bs "Hello") 0) as [t1|] eqn:E1; [|now vm_compute in E1].
  destruct (add_token ex_hash init_matches upd1 t1 (bs "gone") 1) as [t2|] eqn:E2.
  - exists t2. split.
    + eapply IT_add; [eapply IT_add; [apply IT_new| |exact E1]| |exact E2]; now vm_compute.
    + vm_compute in E1. injection E1 as <-. vm_compute in E2. injection E2 as <-. now vm_compute.
  - exfalso. vm_compute in E1. injection E1 as <-. now vm_compute in E2.
Qed.
Example C07_purged : match recode_table 100 (recode1 (new_index_array [false; false; true; true] 0)) dead1 ex_table with
  | Ok t => map (fun e => (fst e, read_matches (snd e))) (entries t) = [(bs "hello", RA_ok [0; 1] 2)]
  | Err _ => False end.
Proof. now vm_compute. Qed.
