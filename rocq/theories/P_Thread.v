(* Threads and purging: C21, C22 (continued), C55. *)
From Coq Require Import Relations.
From Verif Require Import Base M_Encoding M_TokTable S_TokTable M_DbFile S_DbFile S_Match M_Search S_Search M_Thread S_Thread M_Purge S_Purge
  L_DbFile5 L_DbFile7 L_Search5 L_Search6 L_Purge2 L_Thread2.
Local Open Scope N_scope.

(* C21.  Threading changes nothing but thread numbers; afterwards two messages carry the same number
   iff a chain of messages joins them in which neighbours mention a common message-id; the numbers are
   below the number of messages, and every number below a used one is used. *)
Theorem C21_threads : forall hashf db, db_ok hashf db -> exists db',
  find_threading db = Ok db' /\ same_but_threads db db' /\
  (forall i j a b, message db' i = Some a -> message db' j = Some b -> tid a = tid b <-> connected db i j) /\
  (forall a, In a (msgs db') -> tid a < n_msgs db') /\
  (forall a t, In a (msgs db') -> t <= tid a -> exists b, In b (msgs db') /\ tid b = t).
Proof. exact (fun hashf db OK => thread_main db (ids_below_ok hashf db OK)). Qed.
Print Assumptions C21_threads.
Example C21_example : db_ok ex_h th_db /\ map tid (msgs th_db') = [0; 0; 1; 0; 0].
Proof. split; [exact th_db_ok|now vm_compute]. Qed.

(* C22 together with C21: in an index written after threading, a search with -t returns exactly the
   live messages joined by such a chain to a message that matches.  (Same restriction on d: and z:
   arguments as C22_threads_partial.) *)
Theorem C22_connected_partial : forall sd hashf db db' old F r args, db_ok hashf db -> n_msgs db <= 2 ^ 32 -> find_threading db = Ok db' ->
  write_database db' old = Ok F -> open_db F = Ok r -> Forall (arg_ok sd db') args ->
  (forall i, i < n_msgs db' -> live db' i) \/ Forall any_message args ->
  exists l, search sd F r true (map show_arg args) = Ok l /\
    forall i, In i l <-> live db' i /\ exists j, connected db i j /\ j < n_msgs db' /\ Forall (fun a => arg_sat sd db' a j) args.
Proof. exact threads_found. Qed.
Print Assumptions C22_connected_partial.
Example C22_connected_example : write_database th_db' [] = Ok (file_of th_db') /\ open_db (file_of th_db') = Ok (exp_db th_db') /\
  search no_dates (file_of th_db') (exp_db th_db') true [bs "f:alice"] = Ok [0; 1; 3; 4] /\
  search no_dates (file_of th_db') (exp_db th_db') true [bs "b:bye"] = Ok [0; 1; 3; 4] /\
  search no_dates (file_of th_db') (exp_db th_db') true [bs "f:bob"] = Ok [2].
Proof. repeat (split; [now vm_compute|]). now vm_compute. Qed.

(* C22 is violated by a purge: two messages in two threads, the first is gone (th_dead) and purged;
   the same search without -t finds the second, with -t it writes outside its table. *)
Theorem C22_purge_refuted : exists db0 db1 db2 F r, db_ok ex_h db0 /\ find_threading db0 = Ok db1 /\
  cull_dead_messages 2000 true 0 (th_dead db1) = Ok (true, db2) /\ write_database db2 [] = Ok F /\ open_db F = Ok r /\
  search no_dates F r false [bs "alice"] = Ok [0] /\ search no_dates F r true [bs "alice"] = Err E_oob.
Proof. exact purge_breaks_threads. Qed.
Print Assumptions C22_purge_refuted.

(* C55.  A purge succeeds, with or without integrity checks, reports whether anything was dead, and
   leaves exactly the live messages, the mailboxes that still exist, and the words of the live
   messages (S_Purge); the result can be purged, written, loaded and searched again. *)
Theorem C55_purge : forall hashf db checks idx, db_ok hashf db -> n_msgs db <= 63 * 2 ^ 24 -> mailed db ->
  (checks = true -> NoDup (file_paths db) /\ NoDup (imap_paths db)) ->
  exists db' bound, (forall fuel, (bound <= fuel)%nat -> cull_dead_messages fuel checks idx db = Ok (negb (forallb is_live (msgs db)), db')) /\
    db_ok hashf db' /\ purged db db' /\ mailed db' /\ Forall (fun m => src m <> S_dead) (msgs db').
Proof. exact purge_ok. Qed.
Print Assumptions C55_purge.
Example C55_example : db_ok ex_h ex_db /\ mailed ex_db /\ NoDup (file_paths ex_db) /\ NoDup (imap_paths ex_db) /\
  match cull_dead_messages 2000 true 0 ex_db with
  | Ok (c, db) => c = true /\ map src (msgs db) = [S_file (bs "/m/new/1") 10 20; S_mbox 0 0; S_mbox 0 1; S_imap (bs "&3:INBOX")] /\ length (mboxen db) = 1%nat
  | Err _ => False
  end.
Proof. split; [exact ex_db_ok|]. split; [exact ex_db_mailed|]. split; [repeat constructor; cbn; intuition discriminate|]. split; [repeat constructor; cbn; intuition discriminate|]. vm_compute. auto. Qed.
