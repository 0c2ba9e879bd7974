(* The program as a whole, from the bytes of the messages to the results of a search: C88, C89. *)
From Verif Require Import Base M_Encoding M_TokTable S_TokTable M_DbFile S_DbFile M_Search S_Search M_Tokens S_Tokens M_Mbox S_Mbox S_Header S_Words S_Rfc822 S_Multipart S_Mime M_Rfc822 M_Update S_Update M_Session S_Session M_Program S_Program
  L_DbFile7 L_Search6 L_Update13 L_Mime5 L_Text2 L_Program L_Program2 L_Program3.
From Verif Require M_Paths.
Local Open Scope N_scope.

(* C88.  Whatever bytes a message consists of, everything that is taken from it for the index is a C
   string, so it can be written to the index and read again. *)
Theorem C88_strings : forall isspc mktime, (forall c, c < 128 -> isspc c = isspace c) -> forall alnum mem len m e,
  Forall (fun c => c < 256) mem -> data_to_rfc822 isspc mktime mem len = Ok (Some m, e) -> textual alnum m.
Proof. exact textual_main. Qed.
Print Assumptions C88_strings.
(* So the program with its own parser, checksum, hash function and separator recogniser meets what C84 to
   C86 assume of them, on every machine and every disc. *)
Theorem C88_world : forall M D, machine_ok M -> disc_ok D -> world_ok (program_world M D).
Proof. exact program_ok. Qed.
Print Assumptions C88_world.
(* The words taken from a MIME message are the words it bears. *)
Theorem C88_words : forall M, machine_ok M -> forall data lines ns, S_Mime.message (m_isspc M) data lines ns -> Forall (fun c => c < 256) data -> legible lines ns ->
  exists r, parse_text M data = (Some r, false) /\ forall p w, mentions (m_alnum M) r p w <-> bears (m_alnum M) lines ns p w.
Proof. exact words_main. Qed.
Print Assumptions C88_words.
Example C88_example : machine_ok pr_machine /\ disc_ok pr_d2 /\ S_Mime.message (m_isspc pr_machine) ex_mime (map unfolded ex_fs) ex_nodes /\ legible (map unfolded ex_fs) ex_nodes /\
  bears isalnum (map unfolded ex_fs) ex_nodes From_ (bs "joe").
Proof. exact (conj pr_machine_ok (conj (pr_disc_ok _ _) (conj ex_mime_ok (conj pr_legible pr_bears)))). Qed.

(* C89.  From the folders to the results: after any history of sessions of the program, a search for a
   word returns a file with a MIME message in it exactly if the message bears the word. *)
Theorem C89_files : forall M D sd s file h F db r p w, machine_ok M -> s_world s = program_world M D -> run_by M ((s, file) :: h) ->
  history ((s, file) :: h) (Some F) -> orderly ((s, file) :: h) -> holds_index (s_world s) F db -> open_db F = Ok r -> s_fast s = false ->
  w <> [] -> Forall plain w -> (forall c t, w = c :: t -> c <> ch "~" /\ c <> ch "^") ->
  exists l, search sd F r false [part_key p ++ bs ":" ++ w] = Ok l /\
    forall f mt sz t lines ns, In {| is_imap := false; fpath := f |} (s_found s) -> d_stat D f = Some (M_Paths.K_reg, mt, sz) -> ~ hidden f -> d_map D f = Mapped t ->
      Forall (fun c => c < 256) t -> S_Mime.message (m_isspc M) t lines ns -> legible lines ns ->
      ((exists i m mt' sz', In i l /\ S_Search.message db i = Some m /\ src m = S_file f mt' sz') <-> exists w', bears (m_alnum M) lines ns p w' /\ lower w' = lower w).
Proof. exact files_main. Qed.
Print Assumptions C89_files.
(* The same for messages on the server, *)
Theorem C89_server : forall M D sd s file h F db r p w, machine_ok M -> s_world s = program_world M D -> run_by M ((s, file) :: h) ->
  history ((s, file) :: h) (Some F) -> orderly ((s, file) :: h) -> holds_index (s_world s) F db -> open_db F = Ok r ->
  w <> [] -> Forall plain w -> (forall c t, w = c :: t -> c <> ch "~" /\ c <> ch "^") ->
  exists l, search sd F r false [part_key p ++ bs ":" ++ w] = Ok l /\
    forall f t lines ns, In {| is_imap := true; fpath := f |} (s_found s) -> ~ hidden f -> d_server D f = Some t ->
      Forall (fun c => c < 256) t -> S_Mime.message (m_isspc M) t lines ns -> legible lines ns ->
      ((exists i m, In i l /\ S_Search.message db i = Some m /\ src m = S_imap f) <-> exists w', bears (m_alnum M) lines ns p w' /\ lower w' = lower w).
Proof. exact server_main. Qed.
Print Assumptions C89_server.
(* and, for whatever the index lists, those in mailboxes included. *)
Theorem C89_entries : forall M D sd s file h F db r p w, machine_ok M -> s_world s = program_world M D -> run_by M ((s, file) :: h) ->
  history ((s, file) :: h) (Some F) -> orderly ((s, file) :: h) -> holds_index (s_world s) F db -> open_db F = Ok r ->
  w <> [] -> Forall plain w -> (forall c t, w = c :: t -> c <> ch "~" /\ c <> ch "^") ->
  exists l, search sd F r false [part_key p ++ bs ":" ++ w] = Ok l /\
    forall i m t lines ns, S_Search.message db i = Some m -> text_of D db m t -> Forall (fun c => c < 256) t -> S_Mime.message (m_isspc M) t lines ns -> legible lines ns ->
      (In i l <-> exists w', bears (m_alnum M) lines ns p w' /\ lower w' = lower w).
Proof. exact entries_main. Qed.
Print Assumptions C89_entries.
Example C89_example : machine_ok pr_machine /\ s_world pr_s2 = program_world pr_machine pr_d2 /\ run_by pr_machine pr_h /\ history pr_h (Some pr_F2) /\ orderly pr_h.
Proof. exact (conj pr_machine_ok (conj eq_refl (conj pr_run_by (conj pr_history pr_orderly)))). Qed.
Example C89_example_result : holds_index (s_world pr_s2) pr_F2 pr_db /\ map src (msgs pr_db) = [S_file (bs "/m/1") 10 318; S_imap (bs "s1"); S_mbox 0 0; S_file (bs "/m/2") 20 62] /\
  exists r, open_db pr_F2 = Ok r /\ search no_dates pr_F2 r false [bs "b:hello"] = Ok [0; 1] /\ search no_dates pr_F2 r false [bs "f:joe"] = Ok [0; 3].
Proof. exact pr_result. Qed.
