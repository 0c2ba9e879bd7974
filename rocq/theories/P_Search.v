(* Searching: C12, C16-C20, C22, C45, C51. *)
From Coq Require Import Sorted Permutation.
From Verif Require Import Base M_Encoding M_TokTable S_TokTable M_DbFile S_DbFile S_Match M_Search S_Search L_DbFile5 L_DbFile7 L_Search5 L_Search6.
Local Open Scope N_scope.

(* In all of these, F is the index file written for db, whatever the file held before, and r is the
   open file.  sd is the scanner of date expressions (None: not a date). *)

(* C12.  The search "k:w", k the key letter of a message part and w a word, returns exactly the live
   messages for which w in lower case is recorded in that part. *)
Theorem C12_word_search : forall sd hashf db old F r p w, db_ok hashf db -> write_database db old = Ok F -> open_db F = Ok r ->
  w <> [] -> Forall plain w -> (forall c s, w = c :: s -> c <> ch "~" /\ c <> ch "^") ->
  exists l, search sd F r false [part_key p ++ bs ":" ++ w] = Ok l /\
    forall i, In i l <-> live db i /\ recorded db p (lower w) i.
Proof. exact word_main. Qed.
Print Assumptions C12_word_search.

(* C16.  Any list of arguments returns exactly the live messages that satisfy all of them, each once,
   in index order.  arg_sat gives the documented meaning of each argument: one of the alternatives
   between '/', all of the terms between ',', '~' for not, the parts named by the key letters. *)
Theorem C16_expressions : forall sd hashf db old F r args, db_ok hashf db -> write_database db old = Ok F -> open_db F = Ok r ->
  Forall (arg_ok sd db) args ->
  exists l, search sd F r false (map show_arg args) = Ok l /\ StronglySorted N.lt l /\
    forall i, In i l <-> live db i /\ Forall (fun a => arg_sat sd db a i) args.
Proof. exact search_main. Qed.
Print Assumptions C16_expressions.

(* C17.  Full statement: appending '/' to an argument does not change the result.  It does: with it
   the argument is satisfied by every message. *)
Theorem C17_trailing_separator_refuted : exists hashf db F r w l1 l2, db_ok hashf db /\ write_database db [] = Ok F /\ open_db F = Ok r /\
  search no_dates F r false [w] = Ok l1 /\ search no_dates F r false [w ++ bs "/"] = Ok l2 /\ l1 <> l2 /\
  l2 = [0; 1; 3; 4] /\ l1 = [1].
Proof. exact trailing_refuted. Qed.
Print Assumptions C17_trailing_separator_refuted.

(* C18.  Full statement: "kp:w" matches when "k:w" or "p:w" does.  A message that "f:alice" finds is
   not found by "fp:alice". *)
Theorem C18_path_group_refuted : exists hashf db F r, db_ok hashf db /\ write_database db [] = Ok F /\ open_db F = Ok r /\
  search no_dates F r false [bs "f:alice"] = Ok [0] /\ search no_dates F r false [bs "fp:alice"] = Ok [].
Proof. exact path_group_refuted. Qed.
Print Assumptions C18_path_group_refuted.

(* C19.  Whatever the file and the arguments, with or without whole threads: a search that returns
   gives messages whose entry is not dead (type 0), each once, in increasing order; and the exit
   status is 1 exactly when there is none, otherwise 0. *)
Theorem C19_only_live : forall sd data r threads args l, search sd data r threads args = Ok l ->
  StronglySorted N.lt l /\ (forall j, In j l -> j < r_n r /\ exists ty, rd_msg_type data r j = Ok ty /\ ty <> 0) /\
  (status l = 1 <-> l = []) /\ (status l = 0 <-> l <> []).
Proof. exact search_live. Qed.
Print Assumptions C19_only_live.

(* C20.  A single z:, d: or F: argument (indeed any single argument) returns exactly the live
   messages satisfying it. *)
Theorem C20_size : forall sd hashf db old F r lo hi, db_ok hashf db -> write_database db old = Ok F -> open_db F = Ok r ->
  opt_ok lo -> opt_ok hi -> no_imap db ->
  exists l, search sd F r false [bs "z:" ++ show_opt lo ++ bs "-" ++ show_opt hi] = Ok l /\
    forall i, In i l <-> live db i /\
      exists m s, message db i = Some m /\ size_of db m = Some s /\ between (zopt lo) (zopt hi) (Z.of_N s).
Proof. intros sd hashf db old F r lo hi H1 H2 H3 H4 H5 H6. exact (search_one sd hashf db old F r (A_size lo hi) H1 H2 H3 (conj H4 (conj H5 H6))). Qed.
Print Assumptions C20_size.
Theorem C20_date : forall sd hashf db old F r e, db_ok hashf db -> write_database db old = Ok F -> open_db F = Ok r ->
  c_string e -> sd e <> None ->
  exists l, search sd F r false [bs "d:" ++ e] = Ok l /\
    forall i, In i l <-> live db i /\
      exists m lo hi, message db i = Some m /\ sd e = Some (lo, hi) /\ between lo hi (Z.of_N (date m)).
Proof. intros sd hashf db old F r e H1 H2 H3 H4 H5. exact (search_one sd hashf db old F r (A_date e) H1 H2 H3 (conj H4 H5)). Qed.
Print Assumptions C20_date.
Theorem C20_flags : forall sd hashf db old F r fs, db_ok hashf db -> write_database db old = Ok F -> open_db F = Ok r ->
  (forall ng c, In (ng, c) fs -> In c (bs "sSrRfF")) ->
  exists l, search sd F r false [bs "F:" ++ flat_map show_flag fs] = Ok l /\
    forall i, In i l <-> live db i /\
      exists m, message db i = Some m /\ forall ng c, In (ng, c) fs -> flag_on m c = negb ng.
Proof. intros sd hashf db old F r fs H1 H2 H3 H4. exact (search_one sd hashf db old F r (A_flags fs) H1 H2 H3 H4). Qed.
Print Assumptions C20_flags.

(* C22.  Full statement: with -t a search returns exactly the live messages that share a thread
   number with a matching message, for every index reachable by indexing and purging.
   Proved when every thread number is below the number of messages, as after an indexing run that
   adds messages; and for d: and z: arguments when no entry is dead.  Note that a dead message that
   matches pulls in its thread. *)
Theorem C22_threads_partial : forall sd hashf db old F r args, db_ok hashf db -> write_database db old = Ok F -> open_db F = Ok r ->
  Forall (arg_ok sd db) args ->
  (forall m, In m (msgs db) -> tid m < n_msgs db) ->
  (forall i, i < n_msgs db -> live db i) \/ Forall any_message args ->
  exists l, search sd F r true (map show_arg args) = Ok l /\
    forall i, In i l <-> live db i /\ exists j, same_thread db i j /\ Forall (fun a => arg_sat sd db a j) args.
Proof. exact threads_main. Qed.
Print Assumptions C22_threads_partial.
(* A purge leaves thread numbers as they are: the same search with -t writes outside its table. *)
Theorem C22_threads_refuted : exists hashf db F r, db_ok hashf db /\ write_database db [] = Ok F /\ open_db F = Ok r /\
  search no_dates F r false [bs "alice"] = Ok [0] /\ search no_dates F r true [bs "alice"] = Err E_oob.
Proof. exact threads_refuted. Qed.
Print Assumptions C22_threads_refuted.

(* C45.  Full statement: sorting puts the results in order of non-decreasing date.  Holds when the
   dates are less than 2^31 seconds apart. *)
Theorem C45_date_order_partial : forall dates l l', (forall a, In a l -> dates a < 2 ^ 32) ->
  (forall a b, In a l -> In b l -> (Z.abs (Z.of_N (dates a) - Z.of_N (dates b)) < 2 ^ 31)%Z) ->
  qsorted (date_cmp dates) l l' -> Permutation l l' /\ StronglySorted (fun a b => dates a <= dates b) l'.
Proof. exact date_sort. Qed.
Print Assumptions C45_date_order_partial.
Theorem C45_date_order_refuted : exists dates l l', (forall a, In a l -> dates a < 2 ^ 32) /\ qsorted (date_cmp dates) l l' /\
  ~ StronglySorted (fun a b => dates a <= dates b) l'.
Proof. exact date_sort_refuted. Qed.
Print Assumptions C45_date_order_refuted.

(* C51.  Full statement: path searches work on an index that also holds IMAP messages.  They stop at
   an assertion.  (Without IMAP messages p: arguments are covered by C16_expressions.) *)
Theorem C51_path_search_with_imap_refuted : exists hashf db F r, db_ok hashf db /\ write_database db [] = Ok F /\ open_db F = Ok r /\
  search no_dates F r false [bs "p:box"] = Err E_assert.
Proof. exact imap_path_refuted. Qed.
Print Assumptions C51_path_search_with_imap_refuted.

(* Concrete cases. *)
Example C16_spelling : map show_arg ex_args = [bs "f:alice/Bob,~carol"; bs "helo=1"; bs "F:s-r"].
Proof. now vm_compute. Qed.
Example C16_hypotheses : db_ok ex_h ex_db /\ write_database ex_db [] = Ok (file_of ex_db) /\ open_db (file_of ex_db) = Ok (exp_db ex_db) /\
  Forall (arg_ok no_dates ex_db) ex_args.
Proof. split; [exact ex_db_ok|]. split; [now vm_compute|]. split; [now vm_compute|exact ex_args_ok]. Qed.
Example C16_result : search no_dates (file_of ex_db) (exp_db ex_db) false (map show_arg ex_args) = Ok [0; 1].
Proof. now vm_compute. Qed.
Example C22_result : search no_dates (file_of ex_db) (exp_db ex_db) true [bs "heap"; bs "F:s"] = Ok [1] /\
  search no_dates (file_of ex_db) (exp_db ex_db) true [bs "f:alice"; bs "b:hello"] = Ok [0; 3].
Proof. split; now vm_compute. Qed.
Example C20_result : search no_dates (file_of old_db) (exp_db old_db) false [bs "z:1k-9"] = Ok [0] /\
  search no_dates (file_of old_db) (exp_db old_db) false [bs "z:10-"] = Ok [].
Proof. split; now vm_compute. Qed.
Example C45_case : qsorted (date_cmp (fun i => 1000 - i)) [1; 2; 3] [3; 2; 1].
Proof. exact sorted_case. Qed.
