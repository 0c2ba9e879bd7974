(* C111: the text of scanner descriptions is read as the rules of scan.l and the grammar of parse.y say. *)
From Verif Require Import Base M_Scan M_Parse S_Flex S_Grammar L_Flex5 L_Read.

(* The scanner makes of a text what flex makes of it with the rules of scan.l: the longest match, and the first rule with that match. *)
Theorem C111_scans : forall text o, scans INITIAL true text o <-> tokens_of text = o.
Proof. exact scan_iff. Qed.
Print Assumptions C111_scans.
Example ex_C111_scans : scans INITIAL true ex_text (Ok ex_scanned) /\ scans INITIAL true (bs "a # b") (Err (E_exit 1)).
Proof. exact (conj ex_scans ex_refused). Qed.

(* A text is read as a description exactly when its tokens are spelt by the grammar. *)
Theorem C111_reads : forall text ds, read_description text = Ok ds <-> exists ts, scans INITIAL true text (Ok ts) /\ description ds ts.
Proof. exact read_iff. Qed.
Print Assumptions C111_reads.
Example ex_C111_reads : exists ts, scans INITIAL true ex_source (Ok ts) /\ description ex_read ts.
Proof. exact ex_source_read. Qed.

(* All other texts end the program with code 1. *)
Theorem C111_refuses : forall text, (forall ts ds, scans INITIAL true text (Ok ts) -> description ds ts -> False) -> read_description text = Err (E_exit 1).
Proof. exact read_no. Qed.
Print Assumptions C111_refuses.
Example ex_C111_refuses : forall ts ds, scans INITIAL true (bs "Tag t = a ? b") (Ok ts) -> description ds ts -> False.
Proof. exact ex_source_refused. Qed.
