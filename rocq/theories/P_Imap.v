(* Mail on an IMAP server: reading its answers, sending it commands, listing and fetching messages, and
   what a run can change there. *)
From Verif Require Import Base M_Rfc822 M_Imap S_Imap S_Server L_Imap L_Imap2 L_Imap3 L_Imap4 L_Imap5 L_Imap6 L_Imap7.
Local Open Scope N_scope.

(* C90: it makes no difference in which pieces the bytes arrive. *)
Theorem C90_pieces : forall tag buf net buf' net', buf ++ concat net = buf' ++ concat net' ->
  match waitline tag reader0 buf net with Ok (l, b, n) => Ok (l, b ++ concat n) | Err e => Err e end =
  match waitline tag reader0 buf' net' with Ok (l, b, n) => Ok (l, b ++ concat n) | Err e => Err e end.
Proof. exact pieces_main. Qed.
Print Assumptions C90_pieces.

(* C90: a line is read as what it says, and what follows it is left. *)
Theorem C90_line : forall tag l t rest buf net, line_spelt tag l t -> tag < 2 ^ 31 -> buf ++ concat net = t ++ rest ->
  exists b n, waitline (Z.of_N tag) reader0 buf net = Ok (Some (tok_of_line l), b, n) /\ b ++ concat n = rest.
Proof. exact wait_reads. Qed.
Print Assumptions C90_line.
Example C90_example : line_spelt 7 (Says ex_items) (line_text 7 (Says ex_items)) /\
  line_text 7 (Says ex_items) = bs "* 5 FETCH (BODY[] {35}" ++ crlf ++ mail1 ++ bs " FLAGS ())" ++ crlf.
Proof. split; [exact (ex_spelt 7)|vm_compute; reflexivity]. Qed.

(* C90 fails for a string with a quote in it that has a backslash before it. *)
Theorem C90_escape_refuted : exists t s rest, in_quotes t = Some (s, rest) /\
  eat 1 reader0 (bs "* X " ++ [34] ++ t) <> Ok (inr (Some (tok_of_line (Says [Atom (bs "X"); Str s])), [])).
Proof. exact escape_refuted. Qed.
Print Assumptions C90_escape_refuted.
(* And for the free text at the end of a line: if a number in braces stands in it, following lines are lost. *)
Theorem C90_text_refuted : exists text l, ~ In 10 text /\ ~ In 13 text /\
  eat 1 reader0 (bs "* OK " ++ text ++ crlf ++ bs "* 1 EXISTS" ++ crlf ++ bs "t1 OK done" ++ crlf) = Ok (inr (l, bs "t1 OK done" ++ crlf)).
Proof. exact text_refuted. Qed.
Print Assumptions C90_text_refuted.

(* C91: whatever bytes a server sends, reading them stays within the memory of the program, as long as
   no number after 't' or '{' is 2^31 or more. *)
Theorem C91_line : forall tag buf net, no_huge (buf ++ concat net) -> exists r, waitline tag reader0 buf net = Ok r.
Proof. exact line_safe. Qed.
Print Assumptions C91_line.
Theorem C91_command : forall (S : Type) (serve : S -> bytes -> S * option (list bytes)) k cmd, (k_tag k + 1 < 2147483648)%Z ->
  (forall s t out, snd (serve s t) = Some out -> no_huge (k_buf k ++ concat (k_net k) ++ concat out)) ->
  exists r, command S serve k cmd = Ok r.
Proof. exact any_command_safe. Qed.
Print Assumptions C91_command.
Theorem C91_select : forall (S : Type) (serve : S -> bytes -> S * option (list bytes)) k f w, (k_tag k + 1 < 2147483648)%Z ->
  (forall s t out, snd (serve s t) = Some out -> no_huge (k_buf k ++ concat (k_net k) ++ concat out)) ->
  exists r, imap_select S serve k f w = Ok r.
Proof. exact select_safe. Qed.
Print Assumptions C91_select.
Example C91_example : let k := {| k_tag := 0; k_buf := []; k_net := []; k_sel := None; k_srv := tt |} in
  (k_tag k + 1 < 2147483648)%Z /\ (forall s t out, snd (rude_serve s t) = Some out -> no_huge (k_buf k ++ concat (k_net k) ++ concat out)) /\
  exists l, command unit rude_serve k (a_cmd [a_atom (bs "NOOP")]) = Ok (l, {| k_tag := 1; k_buf := []; k_net := []; k_sel := None; k_srv := tt |}).
Proof. exact rude_example. Qed.

(* C91 fails for bigger numbers, which overflow an int; and in the callers when an answer has a line of
   only one word: a null pointer is followed. *)
Theorem C91_number_refuted : exists t, waitline 1 reader0 [] [t] = Err E_ub.
Proof. exact number_refuted. Qed.
Print Assumptions C91_number_refuted.
Theorem C91_short_refuted : exists k f, scan_folder N short_serve k f = Err E_ub.
Proof. exact short_refuted. Qed.
Print Assumptions C91_short_refuted.

(* C92: a server receives the command that was meant, with the arguments that were meant, whatever bytes
   are in the strings; and the command fits into the buffer made for it. *)
Theorem C92_sent : forall tag is, tag < 2 ^ 31 -> is <> [] -> Forall sendable is -> Forall no_backslash is ->
  received (format_cmd (Z.of_N tag) (a_cmd (map tok_of is)) ++ [13; 10]) = Some (tag, is).
Proof. exact sent_main. Qed.
Print Assumptions C92_sent.
Theorem C92_fits : forall tag is, (- 2147483648 <= tag < 2147483648)%Z ->
  N.of_nat (length (format_cmd tag (a_cmd (map tok_of is)) ++ [13; 10])) <= string_len (a_cmd (map tok_of is)).
Proof. exact fits_main. Qed.
Print Assumptions C92_fits.
Example C92_example : Forall sendable (asks (R_append (bs "old ""stuff""") [bs "\Seen"] mail1)) /\ Forall no_backslash (asks (R_append (bs "old ""stuff""") [bs "\Seen"] mail1)) /\
  format_cmd 12 (a_cmd (map tok_of (asks (R_append (bs "old ""stuff""") [bs "\Seen"] mail1)))) = bs "t12 APPEND {11+}" ++ crlf ++ bs "old ""stuff"" (\Seen) {35+}" ++ crlf ++ mail1.
Proof. exact sent_example. Qed.

(* C92 fails for a backslash: the server does not get the name of the folder. *)
Theorem C92_backslash_refuted : exists f s, Forall sendable (asks (R_open f false)) /\
  received (format_cmd 1 (a_cmd (map tok_of (asks (R_open f false)))) ++ [13; 10]) = Some (1, [Atom (bs "EXAMINE"); Str s]) /\ s <> f.
Proof. exact backslash_refuted. Qed.
Print Assumptions C92_backslash_refuted.

(* C93: with a server that answers, and folders that exist: what is listed is every message that is not
   marked as deleted, and fetching by the listed paths gives the texts of these messages. *)
Theorem C93_run : forall (S : Type) (serve : S -> bytes -> S * option (list bytes)) (view : S -> post), serves view serve ->
  forall k fs ps ts, fresh k -> (k_tag k + 2 * Z.of_nat (length fs) + 2 * Z.of_nat (length ps) < 2147483648)%Z ->
  in_order (view (k_srv k)) -> (forall f, In f fs -> box_named (view (k_srv k)) f <> None) -> Forall2 (stands_for (view (k_srv k))) ps ts ->
  exists k1 k2, build_imap_message_list S serve k fs = Ok (flat_map (listed (view (k_srv k))) fs, k1) /\
    fetch_all serve k1 ps = Ok (map Some ts, k2) /\ p_boxes (view (k_srv k2)) = p_boxes (view (k_srv k)).
Proof. exact server_run. Qed.
Print Assumptions C93_run.
Example C93_example : serves (fun v => v) model_serve /\ fresh ex_conn /\ in_order (k_srv ex_conn) /\ (forall f, In f ex_folders -> box_named (k_srv ex_conn) f <> None) /\
  Forall2 (stands_for (k_srv ex_conn)) ex_paths [mail2; mail2; mail1] /\
  flat_map (listed (k_srv ex_conn)) ex_folders = [bs "77:5:INBOX"; bs "77:19:INBOX"; bs "3:1:old ""stuff"""; bs "77:5:INBOX"; bs "77:19:INBOX"].
Proof. split; [exact model_serves|]. split; [exact ex_fresh|]. split; [exact ex_order|]. split; [exact ex_exist|]. split; [exact ex_stand|reflexivity]. Qed.

(* C93 fails when one of the folders does not exist: the program thinks that the folder before it is
   still open.  And if the server no longer has a message, a variable is used that was never set. *)
Theorem C93_missing_refuted : exists fs k', build_imap_message_list post model_serve ex_conn fs = Ok ([bs "77:5:INBOX"; bs "77:19:INBOX"], k') /\
  flat_map (listed ex_post) fs = [bs "77:5:INBOX"; bs "77:19:INBOX"; bs "77:5:INBOX"; bs "77:19:INBOX"].
Proof. exact missing_refuted. Qed.
Print Assumptions C93_missing_refuted.
Theorem C93_gone_refuted : exists p, path_ok p /\ forall isspc mktime, make_rfc822_from_imap post model_serve isspc mktime ex_conn p = Err E_ub.
Proof. exact gone_refuted. Qed.
Print Assumptions C93_gone_refuted.

(* C94: whatever a server answers, if it does only what it is asked to do, then no sequence of listing,
   fetching, copying, clearing and appending alters any folder but the match folder. *)
Theorem C94_spared : forall (S : Type) (serve : S -> bytes -> S * option (list bytes)) (view : S -> post) (mf : bytes), obeys view serve -> name_ok mf ->
  forall l k k', (0 <= k_tag k)%Z -> p_open (view (k_srv k)) = None -> (forall a, In a l -> act_ok a) -> do_acts serve mf k l = Ok k' ->
  forall g, g <> mf -> box_named (view (k_srv k')) g = box_named (view (k_srv k)) g.
Proof. exact acts_spared. Qed.
Print Assumptions C94_spared.
Example C94_example : obeys (fun v => v) model_serve /\ name_ok (bs "found") /\ p_open (k_srv ex_conn) = None /\ (forall a, In a ex_acts -> act_ok a) /\
  exists k', do_acts model_serve (bs "found") ex_conn ex_acts = Ok k' /\
    option_map (fun b => map l_text (b_letters b)) (box_named (k_srv k') (bs "found")) = Some [mail1; mail2; mail1].
Proof. exact acts_example. Qed.
