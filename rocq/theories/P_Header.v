(* Property theorems about the header of a message. *)
From Verif Require Import Base M_Header S_Header L_Header.
Local Open Scope N_scope.

(* C40.  The header of a message is accepted exactly if it consists of fields and ends; then its lines are
   the unfolded fields and the body is what follows the end. *)
Theorem C40_parse : forall isspc, (forall c, c < 128 -> isspc c = isspace c) -> forall data lines body,
  split_and_splice_header isspc data = Ok (Some (lines, body)) <->
  exists fs e, data = concat (map folded fs) ++ e /\ header_ok isspc fs /\ ends isspc e body /\ lines = map unfolded fs.
Proof. exact header_main. Qed.
Print Assumptions C40_parse.
(* Any data at all is either accepted or rejected: nothing undefined happens. *)
Theorem C40_total : forall isspc, (forall c, c < 128 -> isspc c = isspace c) -> forall data,
  exists r, split_and_splice_header isspc data = Ok r.
Proof. exact header_total. Qed.
Print Assumptions C40_total.

Example C40_example : header_ok isspace ex_header /\ ends isspace ([32] ++ 10 :: bs "body") (bs "body") /\
  split_and_splice_header isspace ex_mail = Ok (Some ([bs "From joe@here Mon Nov 16"; bs "Subject: one two three"; bs "X-Empty:"], bs "body")).
Proof. exact (conj ex_header_ok (conj ex_ends ex_mail_parsed)). Qed.
Example C40_rejected_example : split_and_splice_header isspace (bs "Subject: one" ++ [10] ++ bs "no colon" ++ [10; 10]) = Ok None.
Proof. exact ex_bad. Qed.
