(* Configuration: C37 and C63-C66. *)
From Verif Require Import Base M_Config S_Config L_Config L_Config4 L_Config5 L_Config6 L_Config7.
Local Open Scope N_scope.

(* C37.  For every text, environment and home directory: the length computed beforehand is that of the
   text written, which is the text with every reference replaced; nothing is written outside the buffer. *)
Theorem C37_expand : forall env pw_dir alnum p,
  exists t, expand_string env pw_dir alnum p = Ok t /\ compute_length env pw_dir alnum p = Ok (N.of_nat (length t)) /\ expands env (home_dir env pw_dir) alnum true p t.
Proof. exact expand_total. Qed.
Print Assumptions C37_expand.
Theorem C37_expand_only : forall env pw_dir alnum p t,
  expand_string env pw_dir alnum p = Ok t <-> expands env (home_dir env pw_dir) alnum true p t.
Proof. exact expand_ok. Qed.
Print Assumptions C37_expand_only.
Example C37_example : expand_string cfg_env [] isalnum (bs "~/a/$BOX-${BOX}x~/$nosuch.${BOX") = Ok (bs "/home/me/a/in-inx~/.in").
Proof. vm_compute. reflexivity. Qed.

(* C63.  A well-formed rc file sets what its lines say. *)
Theorem C63_rc_file : forall env pw_dir alnum space ls f, Forall (line_ok space) ls -> holds ls f ->
  exists c, parse_rc_file env pw_dir alnum space f = Ok c /\ says env (home_dir env pw_dir) alnum ls c.
Proof. exact rc_file_ok. Qed.
Print Assumptions C63_rc_file.
Example C63_example : Forall (line_ok isspace) cfg_lines /\ holds cfg_lines (flat_map line_text cfg_lines) /\
  exists c, parse_rc_file cfg_env [] isalnum isspace (flat_map line_text cfg_lines) = Ok c /\ text_of c V_mboxen = Some (bs "inbox:old/in:sent") /\ output c = FT_MH.
Proof. split; [exact cfg_lines_ok|]. split; [now left|]. eexists. split; [vm_compute; reflexivity|]. split; reflexivity. Qed.

(* C64.  Every setting in force when the work begins is the one given last on the command line,
   otherwise by the environment, otherwise by the rc file; the maildir folders are left out. *)
Theorem C64_settings_partial : forall env pw_dir alnum space scan_u files os ts words ws name f ls b d,
  Forall2 (spelled scan_u) os ts -> words_written words ws -> ~ on O_help os ->
  rc_name (home_dir env pw_dir) os name -> files name = Some f -> Forall (line_ok space) ls -> holds ls f ->
  chosen env (home_dir env pw_dir) alnum os ls V_base (Some b) -> chosen env (home_dir env pw_dir) alnum os ls V_database (Some d) ->
  exists p, prepare env pw_dir alnum space scan_u files (concat ts ++ ws) = Ok p /\ settled env (home_dir env pw_dir) alnum os words ls p.
Proof. exact prepare_ok. Qed.
Print Assumptions C64_settings_partial.
Example C64_example : Forall2 (spelled cfg_scan) cfg_options cfg_spelled /\ words_written cfg_words cfg_words /\ ~ on O_help cfg_options /\
  rc_name (bs "/home/me") cfg_options (bs "my.rc") /\ cfg_files (bs "my.rc") = Some (flat_map line_text cfg_lines) /\
  chosen cfg_env (bs "/home/me") isalnum cfg_options cfg_lines V_base (Some (bs "/home/me/Mail")) /\
  chosen cfg_env (bs "/home/me") isalnum cfg_options cfg_lines V_database (Some (bs "/tmp/db")).
Proof.
  split; [exact cfg_spelled_ok|]. split; [exact cfg_words_ok|]. split; [intros [H|[H|[]]]; discriminate H|]. split; [exact cfg_rc_name|].
  split; [reflexivity|]. split; [exact cfg_chosen_base|exact cfg_chosen_database].
Qed.
(* The full statement has no exception for the maildir folders.  It is false: main tests
   MAIRIX_MAILDIR_FOLDERS and then reads MAIRIX_MAIDIR_FOLDERS. *)
Theorem C64_maildir_refuted : exists p, prepare typo_env [] isalnum isspace cfg_scan cfg_files (concat cfg_spelled ++ cfg_words) = Ok p /\
  ~ chosen typo_env (bs "/home/me") isalnum cfg_options cfg_lines V_maildir (text_of (p_config p) V_maildir).
Proof. exact typo_refuted. Qed.
Print Assumptions C64_maildir_refuted.
(* The folder for the results. *)
Theorem C64_folder : forall p m, text_of (p_config p) V_mfolder = Some m -> output (p_config p) <> FT_IMAP ->
  exists r, complete_mfolder p = Ok r /\ folder_path (p_base p) m r.
Proof. exact folder_ok. Qed.
Print Assumptions C64_folder.
Example C64_folder_example : exists p, prepare cfg_env [] isalnum isspace cfg_scan cfg_files (concat cfg_spelled ++ cfg_words) = Ok p /\
  complete_mfolder p = Ok (bs "/home/me/Mail/found") /\ p_action p = A_search true false cfg_words /\ p_checks p = false.
Proof. eexists. split; [vm_compute; reflexivity|]. split; [vm_compute; reflexivity|]. split; reflexivity. Qed.

(* C65.  Arguments: options in any documented spelling, then the words. *)
Theorem C65_arguments : forall scan_u os ts, Forall2 (spelled scan_u) os ts -> forall words ws, words_written words ws ->
  parse_args scan_u (concat ts ++ ws) = Ok (os, words).
Proof. exact parse_args_ok. Qed.
Print Assumptions C65_arguments.
Theorem C65_unknown : forall scan_u os ts a rest, Forall2 (spelled scan_u) os ts -> no_option a -> parse_args scan_u (concat ts ++ a :: rest) = Err (E_exit 3).
Proof. exact bad_option. Qed.
Print Assumptions C65_unknown.
Example C65_example : parse_args cfg_scan [bs "-t"; bs "--rcfile"; bs "my.rc"; bs "--"; bs "-t"] = Ok (cfg_options, [bs "-t"]) /\
  parse_args cfg_scan [bs "-t"; bs "-z"; bs "a"] = Err (E_exit 3).
Proof. split; vm_compute; reflexivity. Qed.

(* C66.  Every file without NUL bytes in which no line says "folders" without "=" is accepted or
   refused with exit code 2. *)
Theorem C66_any_rc_file_partial : forall env pw_dir alnum space f,
  (exists c, parse_rc_file env pw_dir alnum space f = Ok c) \/ parse_rc_file env pw_dir alnum space f = Err (E_exit 2) \/ In 0 f \/ folders_alone f.
Proof. exact rc_any. Qed.
Print Assumptions C66_any_rc_file_partial.
Example C66_example : (exists c, parse_rc_file cfg_env [] isalnum isspace (bs "base" ++ [10] ++ bs "Mformat=${x" ++ [10; 13; 10] ++ bs "omit") = Ok c) /\
  parse_rc_file cfg_env [] isalnum isspace (repeat 32 4093) = Err (E_exit 2).
Proof. split; [eexists; vm_compute; reflexivity|vm_compute; reflexivity]. Qed.
(* The full statement, without those two exceptions, is false: strlen(NULL) ... *)
Theorem C66_folders_refuted : exists f, ~ In 0 f /\ forall env pw_dir,
  ~ ((exists c, parse_rc_file env pw_dir isalnum isspace f = Ok c) \/ parse_rc_file env pw_dir isalnum isspace f = Err (E_exit 2)).
Proof. exact rc_refuted. Qed.
Print Assumptions C66_folders_refuted.
(* ... and line[-1]. *)
Theorem C66_nul_refuted : exists f, ~ folders_alone f /\ forall env pw_dir,
  ~ ((exists c, parse_rc_file env pw_dir isalnum isspace f = Ok c) \/ parse_rc_file env pw_dir isalnum isspace f = Err (E_exit 2)).
Proof. exact rc_nul_refuted. Qed.
Print Assumptions C66_nul_refuted.
