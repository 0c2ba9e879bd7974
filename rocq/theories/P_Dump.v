(* The dump of an index lists what was written: C116. *)
From Verif Require Import Base M_TokTable M_DbFile S_DbFile M_Dump S_Dump L_DbFile7 L_Dump.
Local Open Scope N_scope.

(* C116.  For every index that can be written and whatever was in the file before, the dump (option -d) of the file does not fail and is the listing of
   the index: every message with its place, size, thread and flags, every mailbox, and every word of every table with exactly the messages that
   have it, for every way in which printf may show numbers.  It does not hold if a size, offset or thread number is 2^31 or more. *)
Theorem C116_dump_partial : forall P hashf db old F name, db_ok hashf db -> small_numbers db -> write_database db old = Ok F ->
  exists s, dump_database P F name = Ok s /\ listing P name db s.
Proof. exact dump_main. Qed.
Print Assumptions C116_dump_partial.
(* A mail of 3 000 000 000 bytes is listed with a negative size. *)
Theorem C116_dump_refuted : exists hashf db F name s, db_ok hashf db /\ write_database db [] = Ok F /\ dump_database c_printf F name = Ok s /\ ~ listing c_printf name db s.
Proof. exact dump_wrong. Qed.
Print Assumptions C116_dump_refuted.
Example C116_hypotheses : db_ok ex_h ex_db /\ small_numbers ex_db /\ write_database ex_db [] = Ok (get_ok [] (write_database ex_db [])) /\ msgs ex_db <> [] /\ mboxen ex_db <> [].
Proof. split; [exact ex_db_ok|]. split; [exact ex_db_small|]. split; [now vm_compute|]. split; discriminate. Qed.
Example C116_text : firstn 141 dump_text = bs "Dump of /home/.db" ++ [10] ++ bs "5 messages" ++ [10] ++ bs "     0: FILE /m/new/1, size=20, tid=0 seen flagged" ++ [10] ++
  bs "     1: MBOX 0, msg 0, offset=0, size=40, tid=1 seen flagged" ++ [10].
Proof. now vm_compute. Qed.
