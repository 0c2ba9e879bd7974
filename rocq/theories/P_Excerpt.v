(* C129: results printed as excerpts *)
From Verif Require Import Base M_DbFile S_DbFile M_Search S_Search M_Tokens M_Rfc822 S_Header S_Rfc822 L_Rfc822d M_Output S_Output L_DbFile5 L_DbFile6 L_DbFile7 L_Search6 L_Output9 M_Excerpt S_Excerpt L_Excerpt2.
Local Open Scope N_scope.

(* For each result, in order, a rule is printed, the place of the message, and the fields of its header and
   its date as they are now; only the place if the message cannot be read or has changed.  A warning is given
   exactly if a message of a mailbox has changed.  Nothing on disc is altered. *)
Theorem C129_excerpts : forall hashf csum expand isspc mktime from_imap day db old F r d,
  db_ok hashf db -> write_database db old = Ok F -> open_db F = Ok r -> places_small db -> maps_small expand d ->
  (forall m w st ln ck, In m (msgs db) -> indexed_at db m w st ln ck -> st + ln < 2 ^ 31) ->
  forall results ms, Forall2 (fun i m => message db i = Some m) results ms ->
  Forall (fun m => src m <> S_dead /\ parses csum expand isspc mktime from_imap d db m) ms ->
  exists o bs, output_excerpt csum expand isspc mktime from_imap day F r d results = Ok o /\ o_disc o = d /\ o_stdout o = concat bs /\
    Forall2 (excerpt csum expand isspc mktime from_imap day d db) ms bs /\ (o_warned o = true <-> Exists (changed csum expand d db) ms).
Proof. exact whole_excerpts. Qed.
Print Assumptions C129_excerpts.
Example C129_example : db_ok ex_h ex_db /\ write_database ex_db [] = Ok ex_F /\ open_db ex_F = Ok (exp_db ex_db) /\ places_small ex_db /\ maps_small plain_file xc_disc /\
  (forall m w st ln ck, In m (msgs ex_db) -> indexed_at ex_db m w st ln ck -> st + ln < 2 ^ 31) /\
  Forall2 (fun i m => message ex_db i = Some m) [4; 0; 3; 1] (map xc_msg [4; 0; 3; 1]) /\
  Forall (fun m => src m <> S_dead /\ parses ex_csum plain_file isspace ex_mktime xc_imap xc_disc ex_db m) (map xc_msg [4; 0; 3; 1]) /\
  exists o, output_excerpt ex_csum plain_file isspace ex_mktime xc_imap xc_day ex_F (exp_db ex_db) xc_disc [4; 0; 3; 1] = Ok o /\ o_warned o = true /\
  o_stdout o = dashes ++ bs "&3:INBOX" ++ [10] ++
    dashes ++ bs "/m/new/1" ++ [10] ++ bs "  Subject:     hi" ++ [10] ++ bs "  Date:        Thu, 01 Jan 1970" ++ [10] ++
    dashes ++ bs "mbox:/m/box [40,90)" ++ [10] ++
    dashes ++ bs "mbox:/m/box [0,40)" ++ [10] ++ bs "  From:        bob" ++ [10] ++ bs "  Date:        Thu, 01 Jan 1970" ++ [10].
Proof.
  split; [exact ex_db_ok|]. split; [exact (proj1 ex_written)|]. split; [exact (proj2 ex_written)|]. split; [exact ex_places|]. split; [exact xc_maps|]. split; [exact ex_ends|].
  split; [exact xc_messages|]. split; [exact xc_parses|exact xc_runs].
Qed.
