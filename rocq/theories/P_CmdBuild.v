(* C128: the commands for a server are built as they are written in the program *)
From Verif Require Import Base M_Imap M_CmdBuild S_CmdBuild L_CmdBuild.
Local Open Scope N_scope.

(* However a command is given, with strings that end in a NUL or have a length, with lists in lists and with
   parts built before, what is built is that command; no byte beyond those given is read. *)
Theorem C128_built : forall ty b ks l rest, opener ty = Some b -> given ks l -> imap_ll_build (b :: l ++ B_end :: rest) = Ok (Some (Tok ty None ks)).
Proof. exact build_main. Qed.
Print Assumptions C128_built.
Example C128_built_example : opener T_tagged = Some B_tagged /\
  given [a_atom (bs "APPEND"); Tok T_list None [a_atom (bs "\Seen"); Tok T_list None []]; a_string [7; 0; 8]]
    ([word "APPEND"] ++ [B_list; word "\Seen"; B_list; B_pop; B_pop] ++ [B_string [7; 0; 8; 9] (Some 3)]).
Proof.
  split; [reflexivity|]. apply g_word; [reflexivity|].
  apply (g_group T_list B_list _ [word "\Seen"; B_list; B_pop] _ [B_string [7; 0; 8; 9] (Some 3)]); [reflexivity| |].
  - apply g_word; [reflexivity|]. apply (g_group T_list B_list [] [] [] []); [reflexivity|constructor|constructor].
  - apply g_string; [exact (by_length [7; 0; 8] [9])|constructor].
Qed.

(* So each call in the program builds the command that the model of the protocol sends, whatever the names,
   numbers, passwords and mails are. *)
Theorem C128_calls : forall user password folder uid rest data w s a g, ~ In 0 folder ->
  imap_ll_build call_starttls = Ok (Some (a_cmd [a_atom (bs "STARTTLS")])) /\
  imap_ll_build call_capability = Ok (Some (a_cmd [a_atom (bs "CAPABILITY")])) /\
  imap_ll_build (call_login user password) = Ok (Some (a_cmd [a_atom (bs "LOGIN"); a_string user; a_string password])) /\
  imap_ll_build (call_select w folder) = Ok (Some (a_cmd [a_atom (if w then bs "SELECT" else bs "EXAMINE"); a_string folder])) /\
  imap_ll_build call_flags = Ok (Some (a_cmd [a_atom (bs "UID"); a_atom (bs "FETCH"); a_atom (bs "1:*"); a_atom (bs "FLAGS")])) /\
  imap_ll_build (call_fetch uid rest) = Ok (Some (a_cmd [a_atom (bs "UID"); a_atom (bs "FETCH"); a_atom uid; a_atom (bs "BODY.PEEK[]")])) /\
  imap_ll_build call_delete = Ok (Some (a_cmd [a_atom (bs "STORE"); a_atom (bs "1:*"); a_atom (bs "+FLAGS"); a_atom (bs "\Deleted")])) /\
  imap_ll_build call_expunge = Ok (Some (a_cmd [a_atom (bs "EXPUNGE")])) /\
  imap_ll_build (call_create folder) = Ok (Some (a_cmd [a_atom (bs "CREATE"); a_string folder])) /\
  imap_ll_build (call_copy uid rest folder) = Ok (Some (a_cmd [a_atom (bs "UID"); a_atom (bs "COPY"); a_atom uid; a_string folder])) /\
  build_append folder data s a g = Ok (Some (a_cmd [a_atom (bs "APPEND"); a_string folder;
    Tok T_list None ((if s then [a_atom (bs "\Seen")] else []) ++ (if a then [a_atom (bs "\Answered")] else []) ++ (if g then [a_atom (bs "\Flagged")] else [])); a_string data])).
Proof. exact calls_main. Qed.
Print Assumptions C128_calls.
Example C128_calls_example : ~ In 0 (bs "old ""stuff""") /\
  imap_ll_build (call_copy (bs "19") (bs ":INBOX" ++ [0]) (bs "old ""stuff""")) = Ok (Some (a_cmd [a_atom (bs "UID"); a_atom (bs "COPY"); a_atom (bs "19"); a_string (bs "old ""stuff""")])).
Proof. split; [apply nul_free; reflexivity|reflexivity]. Qed.
