(* Which mails of a mailbox the index lists, over a history of sessions: C95. *)
From Verif Require Import Base M_Encoding M_TokTable S_TokTable M_DbFile S_DbFile M_Search S_Search M_Tokens S_Tokens M_Mbox S_Mbox S_Header S_Words S_Rfc822 S_Multipart S_Mime M_Rfc822 M_Update S_Update M_Session S_Session M_Program S_Program S_Boxes S_Mails
  L_DbFile7 L_Search6 L_Update13 L_Mime5 L_Program L_Program2 L_Program3 L_Boxes4 L_Boxes5 L_Boxes6 L_Boxes7.
Local Open Scope N_scope.

(* C95.  A mailbox is a sequence of mails, each a separator line and a text.  After any history of sessions in
   which it changed by whole mails only, the entries for it in the index are exactly its mails, each at its
   place. *)
Theorem C95_settled : forall s file h F db p mails, history ((s, file) :: h) (Some F) -> orderly ((s, file) :: h) ->
  Forall (fun x => settled p (fst x) (snd x)) ((s, file) :: h) -> holds_index (s_world s) F db ->
  (forall q, In q (s_paths s) -> w_map (s_world s) q <> Map_failed) -> eligible (s_world s) (s_symlinks s) (s_paths s) p ->
  w_map (s_world s) p = Mapped (box_text mails) -> mails_ok (s_world s) mails -> enters db p mails.
Proof. exact boxes_main. Qed.
Print Assumptions C95_settled.
(* The same in terms of the mailboxes alone: mails were only appended. *)
Theorem C95_appended : forall s file h F db p mails, history ((s, file) :: h) (Some F) -> growing ((s, file) :: h) -> holds_index (s_world s) F db ->
  (forall q, In q (s_paths s) -> w_map (s_world s) q <> Map_failed) -> eligible (s_world s) (s_symlinks s) (s_paths s) p ->
  w_map (s_world s) p = Mapped (box_text mails) -> mails_ok (s_world s) mails -> enters db p mails.
Proof. exact growing_main. Qed.
Print Assumptions C95_appended.
(* The program's own recogniser and parser keep MIME messages apart: the lines within a message in parts that
   look like separators do not begin a mail. *)
Theorem C95_mails : forall M D s p mails, machine_ok M -> S_Program.sound M D s -> In p (s_paths s) -> d_map D p = Mapped (box_text mails) ->
  program_mails M mails -> mails_ok (program_world M D) mails.
Proof. exact mails_main. Qed.
Print Assumptions C95_mails.
(* From the mailbox to the results: a search returns the mail with number k exactly if it bears the word. *)
Theorem C95_search : forall M D sd s file h F db r p mails q w, machine_ok M -> s_world s = program_world M D -> run_by M ((s, file) :: h) ->
  history ((s, file) :: h) (Some F) -> growing ((s, file) :: h) -> holds_index (s_world s) F db -> open_db F = Ok r ->
  (forall x, In x (s_paths s) -> d_map D x <> Map_failed) -> eligible (s_world s) (s_symlinks s) (s_paths s) p ->
  d_map D p = Mapped (box_text mails) -> S_Program.sound M D s -> program_mails M mails ->
  w <> [] -> Forall plain w -> (forall c t, w = c :: t -> c <> ch "~" /\ c <> ch "^") ->
  exists l, search sd F r false [part_key q ++ bs ":" ++ w] = Ok l /\
    forall k line t lines ns, nth_error mails k = Some (line, t) -> S_Mime.message (m_isspc M) t lines ns -> Forall (fun c => c < 256) t -> legible lines ns ->
      ((exists i m fi mb, In i l /\ S_Search.message db i = Some m /\ src m = S_mbox fi (N.of_nat k) /\ nth_error (mboxen db) (N.to_nat fi) = Some mb /\ mb_path mb = Some p) <->
       exists w', bears (m_alnum M) lines ns q w' /\ lower w' = lower w).
Proof. exact boxes_search. Qed.
Print Assumptions C95_search.
(* A mailbox of a message in parts that quotes a separator line, to which a mail is appended between two
   sessions. *)
Example C95_example : machine_ok pr_machine /\ s_world bx_s2 = program_world pr_machine (bx_disc 40 (box_text [bx_m1; bx_m2])) /\ run_by pr_machine bx_h /\
  history bx_h (Some bx_F2) /\ growing bx_h /\ eligible (s_world bx_s2) (s_symlinks bx_s2) (s_paths bx_s2) (bs "/box") /\
  d_map (bx_disc 40 (box_text [bx_m1; bx_m2])) (bs "/box") = Mapped (box_text [bx_m1; bx_m2]) /\ program_mails pr_machine [bx_m1; bx_m2].
Proof. exact (conj pr_machine_ok (conj eq_refl (conj bx_run_by (conj bx_history (conj bx_grown (conj bx_eligible (conj bx_there bx_mails))))))). Qed.
Example C95_example_result : holds_index (s_world bx_s2) bx_F2 bx_db /\ map src (msgs bx_db) = [S_mbox 0 0; S_mbox 0 1] /\
  exists r, open_db bx_F2 = Ok r /\ search no_dates bx_F2 r false [bs "b:hello"] = Ok [0] /\ search no_dates bx_F2 r false [bs "b:bye"] = Ok [1].
Proof. exact bx_result. Qed.
(* If a session is run while a mail is being delivered, this is false: the beginning of the mail is indexed, and
   the rest never is, as the bytes indexed do not change any more.  A word of the mail is not found. *)
Theorem C95_delivery_refuted : exists M D s file h F db r p mails t lines ns w, machine_ok M /\ s_world s = program_world M D /\ run_by M ((s, file) :: h) /\
  history ((s, file) :: h) (Some F) /\ orderly ((s, file) :: h) /\ holds_index (s_world s) F db /\ open_db F = Ok r /\
  (forall x, In x (s_paths s) -> d_map D x <> Map_failed) /\ eligible (s_world s) (s_symlinks s) (s_paths s) p /\
  d_map D p = Mapped (box_text mails) /\ S_Program.sound M D s /\ program_mails M mails /\
  map snd mails = [t] /\ S_Mime.message (m_isspc M) t lines ns /\ legible lines ns /\ bears (m_alnum M) lines ns Body w /\
  ~ enters db p mails /\ search no_dates F r false [bs "b:" ++ w] = Ok [].
Proof. exact dl_main. Qed.
Print Assumptions C95_delivery_refuted.
