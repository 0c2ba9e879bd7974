(* Histories of indexing sessions: C84, C85, C86. *)
From Coq Require Import Sorted.
From Verif Require Import Base M_Encoding M_TokTable S_TokTable M_DbFile S_DbFile M_Search S_Search M_Tokens S_Tokens M_Mbox S_Mbox M_Update S_Update M_Session S_Session
  L_DbFile7 L_Search6 L_Update14 L_Session2 L_Session5 L_Session6.
From Verif Require M_Paths.
Local Open Scope N_scope.

(* C84.  After any history the next session runs to its end: no access outside memory, no failed
   assertion, no error exit. *)
Theorem C84_runs : forall h file s, history h file -> Forall (fun x => same_program (fst x) s) h -> fit s file ->
  exists file' bound, forall fuel, (bound <= fuel)%nat -> index_session s fuel file = Ok file'.
Proof. exact history_ok. Qed.
Print Assumptions C84_runs.
(* The file a history ends with holds a good index and can be opened by the search. *)
Theorem C84_opens : forall h F, history h (Some F) -> exists db r s file rest, h = (s, file) :: rest /\
  holds_index (s_world s) F db /\ db_ok (w_hash (s_world s)) db /\ open_db F = Ok r.
Proof. exact history_opens. Qed.
Print Assumptions C84_opens.
Example C84_example : history hi_h hi_f2 /\ Forall (fun x => same_program (fst x) hi_s3) hi_h /\ fit hi_s3 hi_f2.
Proof. split; [exact hi_history|exact hi_next]. Qed.

(* C85.  If changes can be noticed (honest) and mailboxes change only from some message on
   (undisturbed), then after any history every live entry records exactly the words, the message-ids and
   the date of its message as it was when the last session looked. *)
Theorem C85_faithful : forall s file h F db, history ((s, file) :: h) (Some F) -> orderly ((s, file) :: h) -> holds_index (s_world s) F db ->
  faithful (s_world s) db.
Proof. exact history_faithful. Qed.
Print Assumptions C85_faithful.
(* So the search for a word returns exactly the messages that have this word now. *)
Theorem C85_search : forall sd s file h F db r p w, history ((s, file) :: h) (Some F) -> orderly ((s, file) :: h) -> holds_index (s_world s) F db -> open_db F = Ok r ->
  w <> [] -> Forall plain w -> (forall c t, w = c :: t -> c <> ch "~" /\ c <> ch "^") ->
  exists l, search sd F r false [part_key p ++ bs ":" ++ w] = Ok l /\
    forall i, In i l <-> exists m rf w', message db i = Some m /\ says (s_world s) db m rf /\ mentions (w_alnum (s_world s)) rf p w' /\ lower w' = lower w.
Proof. exact history_search. Qed.
Print Assumptions C85_search.
(* A message edited in place inside a mailbox whose last message is unchanged is not noticed, although
   the modification time of the mailbox has changed. *)
Theorem C85_undisturbed_refuted : exists s file s0 F db, history [(s, file); (s0, None)] (Some F) /\ honest s0 s /\
  holds_index (s_world s) F db /\ ~ faithful (s_world s) db.
Proof. exact edited_stale. Qed.
Print Assumptions C85_undisturbed_refuted.

(* C86.  Messages in files, from the folders to the results: the files among the results are exactly the
   files found whose text has the word. *)
Theorem C86_files : forall sd s file h F db r p w, history ((s, file) :: h) (Some F) -> orderly ((s, file) :: h) -> holds_index (s_world s) F db -> open_db F = Ok r ->
  s_fast s = false -> w <> [] -> Forall plain w -> (forall c t, w = c :: t -> c <> ch "~" /\ c <> ch "^") ->
  exists l, search sd F r false [part_key p ++ bs ":" ++ w] = Ok l /\
    forall f, (exists i m mt sz, In i l /\ message db i = Some m /\ src m = S_file f mt sz) <->
      In {| is_imap := false; fpath := f |} (s_found s) /\ (exists mt sz, w_stat (s_world s) f = Some (M_Paths.K_reg, mt, sz)) /\ ~ hidden f /\
      exists va rf w', w_map (s_world s) f = Mapped va /\ fst (w_parse (s_world s) va) = Some rf /\ mentions (w_alnum (s_world s)) rf p w' /\ lower w' = lower w.
Proof. exact history_files. Qed.
Print Assumptions C86_files.
(* The same for messages on the server. *)
Theorem C86_server : forall sd s file h F db r p w, history ((s, file) :: h) (Some F) -> orderly ((s, file) :: h) -> holds_index (s_world s) F db -> open_db F = Ok r ->
  w <> [] -> Forall plain w -> (forall c t, w = c :: t -> c <> ch "~" /\ c <> ch "^") ->
  exists l, search sd F r false [part_key p ++ bs ":" ++ w] = Ok l /\
    forall f, (exists i m, In i l /\ message db i = Some m /\ src m = S_imap f) <->
      In {| is_imap := true; fpath := f |} (s_found s) /\ ~ hidden f /\
      exists rf w', w_imap (s_world s) f = Some rf /\ mentions (w_alnum (s_world s)) rf p w' /\ lower w' = lower w.
Proof. exact history_server. Qed.
Print Assumptions C86_server.
Example C85_example : history hi_h (Some hi_F2) /\ orderly hi_h /\ holds_index ex_w2 hi_F2 hi_db /\ s_fast hi_s3 = false /\
  exists r, open_db hi_F2 = Ok r /\ search no_dates hi_F2 r false [bs "s:hello"] = Ok [0; 1; 3].
Proof. exact (conj hi_history (conj hi_orderly (conj (proj1 (proj2 hi_result)) (conj eq_refl (proj2 (proj2 (proj2 hi_result))))))). Qed.
