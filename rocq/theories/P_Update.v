(* Indexing runs: C23-C25, C57-C62. *)
From Coq Require Import Permutation Sorted.
From Verif Require Import Base M_Encoding M_TokTable S_TokTable M_DbFile S_DbFile M_Search S_Search M_Thread S_Thread M_Purge S_Purge M_Tokens S_Tokens M_Mbox S_Mbox M_Update S_Update
  L_DbFile7 L_Search6 L_Update L_Mbox4 L_Update13 L_Update14 L_Update15 L_Update16.
From Verif Require M_Paths.
Local Open Scope N_scope.

(* W is everything a run takes from outside, fnd the messages found in the folders (files, or messages
   on the server), paths the mailboxes listed; [runnable] (S_Update) is what a run needs. *)

(* C23.  Full statement: after a run the entries of files that are not dead are exactly the files
   found, each with its present modification time and size.  Proved for the modification time. *)
Theorem C23_files_partial : forall W symlinks fnd paths db ch db', runnable W symlinks fnd paths db ->
  index_run W false symlinks fnd paths db = Ok (ch, db') ->
  forall p mt, (exists sz, lists_src db' (S_file p mt sz)) <->
    In {| is_imap := false; fpath := p |} fnd /\ exists sz, w_stat W p = Some (M_Paths.K_reg, mt, sz).
Proof. exact run_files. Qed.
Print Assumptions C23_files_partial.
(* A file that changed without changing its modification time keeps its old size (and old words). *)
Theorem C23_size_refuted : exists W fnd db db', runnable W false fnd [] db /\ index_run W false false fnd [] db = Ok (false, db') /\
  In (file "/m/1") fnd /\ w_stat W (bs "/m/1") = Some (M_Paths.K_reg, 10, 5) /\
  lists_src db' (S_file (bs "/m/1") 10 17) /\ ~ lists_src db' (S_file (bs "/m/1") 10 5).
Proof. exact size_stale. Qed.
Print Assumptions C23_size_refuted.
(* A fast run keeps the entries of all files still there. *)
Theorem C23_fast : forall W symlinks fnd paths db ch db', runnable W symlinks fnd paths db ->
  index_run W true symlinks fnd paths db = Ok (ch, db') ->
  forall p, (exists mt sz, lists_src db' (S_file p mt sz)) <-> In {| is_imap := false; fpath := p |} fnd /\
    ((exists mt sz, lists_src db (S_file p mt sz)) \/ exists mt sz, w_stat W p = Some (M_Paths.K_reg, mt, sz)).
Proof. exact run_fast. Qed.
Print Assumptions C23_fast.
Theorem C23_server : forall W fast symlinks fnd paths db ch db', runnable W symlinks fnd paths db ->
  index_run W fast symlinks fnd paths db = Ok (ch, db') ->
  forall p, lists_src db' (S_imap p) <-> In {| is_imap := true; fpath := p |} fnd.
Proof. exact run_imap. Qed.
Print Assumptions C23_server.
Theorem C23_each_once : forall W fast symlinks fnd paths db ch db', runnable W symlinks fnd paths db ->
  index_run W fast symlinks fnd paths db = Ok (ch, db') -> each_once db -> each_once db'.
Proof. exact run_once. Qed.
Print Assumptions C23_each_once.
Theorem C23_mailboxes : forall W fast symlinks fnd paths db ch db', runnable W symlinks fnd paths db ->
  index_run W fast symlinks fnd paths db = Ok (ch, db') -> (forall p, In p paths -> w_map W p <> Map_failed) ->
  forall p, (exists mb, In mb (mboxen db') /\ mb_path mb = Some p) <-> eligible W symlinks paths p.
Proof. exact run_boxes. Qed.
Print Assumptions C23_mailboxes.
(* From nothing, and again after changes. *)
Example C23_example : runnable ex_w1 false ex_fnd1 ex_paths (new_database 7) /\ each_once (new_database 7) /\
  index_run ex_w1 false false ex_fnd1 ex_paths (new_database 7) = Ok (true, ex_db1) /\
  runnable ex_w2 false ex_fnd2 ex_paths ex_db1 /\ each_once ex_db1 /\
  index_run ex_w2 false false ex_fnd2 ex_paths ex_db1 = Ok (true, ex_db2) /\
  map src (msgs ex_db1) = [S_file (bs "/m/1") 10 17; S_file (bs "/m/2") 20 9; S_imap (bs "s1"); S_mbox 0 0; S_mbox 0 1] /\
  map src (msgs ex_db2) = [S_dead; S_dead; S_imap (bs "s1"); S_mbox 0 0; S_mbox 0 1; S_file (bs "/m/1") 11 11; S_file (bs "/m/3") 21 9; S_mbox 0 2].
Proof.
  split; [exact ex_runnable1|]. split; [apply (new_ok (w_hash ex_w1) 7 eq_refl)|]. split; [exact ex_run1_ok|]. split; [exact ex_runnable2|].
  split; [apply ex_db1_ok|]. split; [exact ex_run2_ok|]. split; apply ex_srcs.
Qed.

(* C24.  A run keeps the number, date and flags of every entry; an entry stays what it was or becomes
   dead; a dead one stays dead.  An entry of a file or a message on the server stays iff it agrees with
   one of those found.  New entries have the numbers that follow. *)
Theorem C24_entries : forall W fast symlinks fnd paths db ch db', runnable W symlinks fnd paths db ->
  index_run W fast symlinks fnd paths db = Ok (ch, db') ->
  n_msgs db <= n_msgs db' /\ forall i m, message db i = Some m -> exists m', message db' i = Some m' /\
    (src m' = src m \/ src m' = S_dead) /\ date m' = date m /\ seen m' = seen m /\ replied m' = replied m /\ flagged m' = flagged m /\
    (forall x, name_of m = Some x -> src m' = src m <-> exists y, In y fnd /\ agrees W fast m y).
Proof. exact run_old. Qed.
Print Assumptions C24_entries.
(* See C23_example for a case. *)

(* C25.  Sorting the list of messages found gives a strictly sorted list of the same messages when there
   are no duplicates, duplicates are detected, and looking up in a strictly sorted list is exact. *)
Theorem C25_sorted : forall l, Permutation l (qsort message_compare l) /\
  (duplicates (qsort message_compare l) = false <-> NoDup l) /\
  (NoDup l -> StronglySorted before (qsort message_compare l)).
Proof. exact sorted_paths. Qed.
Print Assumptions C25_sorted.
Theorem C25_lookup : forall sp key, StronglySorted before sp ->
  exists o, lookup_msgpath sp key = Ok o /\ match o with Some k => nth_error sp k = Some key | None => ~ In key sp end.
Proof. exact lookup_exact. Qed.
Print Assumptions C25_lookup.
(* The same for the list of mailboxes. *)
Theorem C25_mailbox_lookup : forall sp key, StronglySorted (fun a b => lex (e_path a) (e_path b)) sp ->
  exists o, lookup_extant_mbox sp key = Ok o /\
    match o with Some k => exists e, nth_error sp k = Some e /\ e_path e = key | None => ~ In key (map e_path sp) end.
Proof. exact lookup_box_exact. Qed.
Print Assumptions C25_mailbox_lookup.
Example C25_example : NoDup ex_fnd1 /\ qsort message_compare ex_fnd1 = [file "/m/1"; file "/m/2"; imap "s1"] /\
  lookup_msgpath (qsort message_compare ex_fnd1) (imap "s1") = Ok (Some 2%nat) /\
  lookup_msgpath (qsort message_compare ex_fnd1) (file "s1") = Ok None.
Proof. split; [exact (ri_found _ _ _ _ _ ex_runnable1)|]. split; [now vm_compute|]. split; now vm_compute. Qed.

(* C57.  Words and message-ids after a run: those of old entries are as before; those of a new entry are
   exactly the words, in lower case, of what the message says (none for files ending in /.gitignore and
   those that cannot be parsed). *)
Theorem C57_words : forall W fast symlinks fnd paths db ch db', runnable W symlinks fnd paths db ->
  index_run W fast symlinks fnd paths db = Ok (ch, db') -> forall x,
  (x < n_msgs db -> (forall p v, recorded db' p v x <-> recorded db p v x) /\
    (forall v, has_id db' v x <-> has_id db v x) /\ (forall v, refers db' v x <-> refers db v x)) /\
  (n_msgs db <= x -> forall m, message db' x = Some m ->
    (forall p v, recorded db' p v x <-> exists r w, says W db' m r /\ mentions (w_alnum W) r p w /\ v = lower w) /\
    (forall v, has_id db' v x <-> exists r w, says W db' m r /\ carries r true w /\ v = lower w) /\
    (forall v, refers db' v x <-> exists r own w, says W db' m r /\ carries r own w /\ v = lower w)).
Proof. exact run_words. Qed.
Print Assumptions C57_words.
(* The date of a new entry is that of the message, as 32 bits; its flags are those in the name of the
   file, or those in the headers for mailboxes.  A file that cannot be parsed has neither. *)
Theorem C57_dates_and_flags : forall W fast symlinks fnd paths db c db', runnable W symlinks fnd paths db ->
  index_run W fast symlinks fnd paths db = Ok (c, db') ->
  forall x m, n_msgs db <= x -> message db' x = Some m ->
  (forall h atts, says W db' m (Rfc822 h atts) -> date m = u32_of_int (h_date h) /\
    (forall p, (exists mt sz, src m = S_file p mt sz) \/ src m = S_imap p ->
      (seen m = true <-> marked p (ch "S")) /\ (replied m = true <-> marked p (ch "R")) /\ (flagged m = true <-> marked p (ch "F"))) /\
    (forall b mi, src m = S_mbox b mi -> seen m = h_seen h /\ replied m = h_replied h /\ flagged m = h_flagged h)) /\
  ((forall r, ~ says W db' m r) -> name_of m <> None -> date m = 0 /\ seen m = false /\ replied m = false /\ flagged m = false).
Proof. exact run_meta. Qed.
Print Assumptions C57_dates_and_flags.
(* A run that adds messages leaves thread numbers that say which messages are connected. *)
Theorem C57_threads : forall W fast symlinks fnd paths db ch db', runnable W symlinks fnd paths db ->
  index_run W fast symlinks fnd paths db = Ok (ch, db') -> n_msgs db < n_msgs db' ->
  (forall i j a b, message db' i = Some a -> message db' j = Some b -> tid a = tid b <-> connected db' i j) /\
  (forall a, In a (msgs db') -> tid a < n_msgs db').
Proof. exact run_threads. Qed.
Print Assumptions C57_threads.
Example C57_example : n_msgs ex_db1 = 5 /\ n_msgs ex_db2 = 8 /\ map tid (msgs ex_db2) = [0; 1; 0; 2; 3; 4; 1; 5] /\
  map fst (entries (d_ids ex_db1)) = [bs "a@x"; bs "b@x"].
Proof. split; [now vm_compute|]. split; [now vm_compute|]. split; [apply ex_srcs|now vm_compute]. Qed.

(* C58.  A run never fails and leaves an index that can be written, searched, purged and, unless a
   mailbox has lost messages at its end and gained none, updated again. *)
Theorem C58_run : forall W fast symlinks fnd paths db, runnable W symlinks fnd paths db ->
  exists ch db', index_run W fast symlinks fnd paths db = Ok (ch, db') /\
  db_ok (w_hash W) db' /\ mailed db' /\ ((forall mb, In mb (mboxen db) -> ~ shrunk W mb) -> tight db') /\ (each_once db -> each_once db').
Proof. exact run_ok. Qed.
Print Assumptions C58_run.
(* The empty index. *)
Theorem C58_start : forall h key, word key -> db_ok h (new_database key) /\ tight (new_database key) /\ each_once (new_database key).
Proof. exact new_ok. Qed.
Print Assumptions C58_start.
(* When a mailbox has shrunk, a later run reads memory that was never written. *)
Theorem C58_shrunk_refuted : exists F1 F2 db1' db2', index_run (box_world 30 ex_box1) false false [] [bs "/box"] (new_database 7) = Ok (true, sh_1) /\
  write_database sh_1 [] = Ok F1 /\ load ex_h (fun _ => 0) 0 F1 = Ok db1' /\
  index_run (box_world 31 short) false false [] [bs "/box"] db1' = Ok (true, sh_2) /\
  map mb_n (mboxen sh_2) = [2] /\ map src (msgs sh_2) = [S_mbox 0 0; S_dead] /\
  write_database sh_2 [] = Ok F2 /\ load ex_h (fun _ => 0) 0 F2 = Ok db2' /\
  index_run (box_world 32 ex_box1) false false [] [bs "/box"] db2' = Err E_ub.
Proof. exact shrunk_breaks. Qed.
Print Assumptions C58_shrunk_refuted.
(* So does one in which a listed mailbox is a dangling symbolic link and links are followed. *)
Theorem C58_dangling_refuted : world_ok dangling /\ index_run dangling false true [] [bs "/box"] (new_database 7) = Err E_ub /\
  exists db', index_run dangling false false [] [bs "/box"] (new_database 7) = Ok (false, db').
Proof. exact dangling_breaks. Qed.
Print Assumptions C58_dangling_refuted.

(* C59.  A run that reports no change (after which the index file is not rewritten) has changed no entry,
   no word and no place of a message in a mailbox. *)
Theorem C59_unchanged : forall W fast symlinks fnd paths db db', runnable W symlinks fnd paths db ->
  index_run W fast symlinks fnd paths db = Ok (false, db') ->
  msgs db' = msgs db /\ (forall p v x, recorded db' p v x <-> recorded db p v x) /\
  forall m fi mi mb mb', In m (msgs db) -> src m = S_mbox fi mi -> nth_error (mboxen db) (N.to_nat fi) = Some mb ->
    nth_error (mboxen db') (N.to_nat fi) = Some mb' ->
    mb_path mb' = mb_path mb /\ starts mb' = starts mb /\ lens mb' = lens mb /\ checks mb' = checks mb.
Proof. exact run_unchanged. Qed.
Print Assumptions C59_unchanged.
Example C59_example : exists db', index_run ex_w1 false false ex_fnd1 ex_paths (reload ex_db1) = Ok (false, db') /\ length (msgs db') = 5%nat.
Proof. eexists. split; [vm_compute; reflexivity|]. now vm_compute. Qed.

(* C60.  From folders to search results: index from nothing, write, open, search for a word in a part.
   The result is exactly the messages of the folders that have that word, in any case, in that part. *)
Theorem C60_index_and_search : forall sd W fast symlinks fnd paths key c db' old F r p w,
  runnable W symlinks fnd paths (new_database key) -> index_run W fast symlinks fnd paths (new_database key) = Ok (c, db') ->
  write_database db' old = Ok F -> open_db F = Ok r ->
  w <> [] -> Forall plain w -> (forall c s, w = c :: s -> c <> ch "~" /\ c <> ch "^") ->
  exists l, search sd F r false [part_key p ++ bs ":" ++ w] = Ok l /\
    forall i, In i l <-> exists m rf w', message db' i = Some m /\ says W db' m rf /\ mentions (w_alnum W) rf p w' /\ lower w' = lower w.
Proof. exact fresh_search. Qed.
Print Assumptions C60_index_and_search.
Example C60_example : match write_database ex_db1 [] with Ok F => match open_db F with Ok r =>
    search no_dates F r false [bs "s:hello"] = Ok [0; 2; 3] /\ search no_dates F r false [bs "s:alice"] = Ok [0] /\
    search no_dates F r false [bs "s:three"] = Ok [] | _ => False end | _ => False end.
Proof. vm_compute. auto. Qed.

(* C61.  Full statement: the index depends on the mail only.  A mailbox message that cannot be parsed gets
   the date and flags that happened to be in memory. *)
Theorem C61_deterministic_refuted : exists db1 db2, index_run (jw 1) false false [] [bs "/box"] (new_database 7) = Ok (true, db1) /\
  index_run (jw 9) false false [] [bs "/box"] (new_database 7) = Ok (true, db2) /\
  map date (msgs db1) = [1] /\ map date (msgs db2) = [9] /\ map seen (msgs db1) = [false] /\ map seen (msgs db2) = [true].
Proof. exact junk_matters. Qed.
Print Assumptions C61_deterministic_refuted.

(* C62.  What a run makes of each mailbox (box_now in S_Update): nothing if modification time and size
   are those recorded; otherwise the unchanged messages at the beginning (C27) keep their entries and the
   text that follows is cut at the separators (C26) and entered, pieces being joined where a message
   contains a separator. *)
Theorem C62_mailboxes : forall W fast symlinks fnd paths db c db', runnable W symlinks fnd paths db ->
  index_run W fast symlinks fnd paths db = Ok (c, db') ->
  forall b mb' p, nth_error (mboxen db') b = Some mb' -> mb_path mb' = Some p ->
  exists link k, w_lstat W p = Some (link, c_mtime mb', c_size mb') /\ mb_path (was db b p) = Some p /\
    box_now W p (was db b p) (c_mtime mb') (c_size mb') mb' k /\
    forall i m mi, message db i = Some m -> src m = S_mbox (N.of_nat b) mi -> exists m', message db' i = Some m' /\ (src m' = src m <-> mi < k).
Proof. exact run_mailboxes. Qed.
Print Assumptions C62_mailboxes.
Example C62_example : runnable join_world false [file "/m/1:2,FS"] [bs "/box"] (new_database 7) /\
  index_run join_world false false [file "/m/1:2,FS"] [bs "/box"] (new_database 7) = Ok (true, join_db) /\
  build_new_message_list ex_from_ok None join_box = Ok [(9, 5); (23, 5); (37, 5); (51, 6)] /\
  map (fun mb => (mb_n mb, starts mb, lens mb)) (mboxen join_db) = [(3, [Some 9; Some 37; Some 51; None], [Some 19; Some 5; Some 6; None])] /\
  map (fun m => (date m, seen m, replied m, flagged m)) (msgs join_db) = [(2, true, false, true); (19, false, false, false); (5, false, false, false); (6, false, false, false)].
Proof. split; [exact join_runnable|exact join_run]. Qed.
