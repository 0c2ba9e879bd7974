(* C110: descriptions of scanners are read as the grammar says. *)
From Verif Require Import Base M_Charclass M_Dfasyn M_Scan M_Parse S_Grammar L_Grammar L_Grammar2 L_Grammar3.

(* The tokens are read as a description exactly when the grammar makes them one. *)
Theorem C110_reads : forall ts ds, parse ts = Ok ds <-> description ds ts.
Proof. exact parse_iff. Qed.
Print Assumptions C110_reads.
Example ex_C110_reads : description ex_decls ex_tokens.
Proof. exact ex_description. Qed.

(* No tokens have two meanings. *)
Theorem C110_one_meaning : forall ts ds ds', description ds ts -> description ds' ts -> ds = ds'.
Proof. exact parse_one. Qed.
Print Assumptions C110_one_meaning.
Example ex_C110_one_meaning : description ex_decls ex_tokens.
Proof. exact ex_description. Qed.

(* All others end the program with code 1. *)
Theorem C110_refuses : forall ts, (forall ds, ~ description ds ts) -> parse ts = Err (E_exit 1).
Proof. exact parse_no. Qed.
Print Assumptions C110_refuses.
Example ex_C110_refuses : forall ds, ~ description ds [TAG; STRING (bs "t"); EQUAL; STRING (bs "a"); QUERY; STRING (bs "b")].
Proof. exact ex_not_description. Qed.
