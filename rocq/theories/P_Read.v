(* C125: reading lines in whatever way the system delivers them. *)
From Verif Require Import Base M_Imap S_Imap S_Server M_Write M_Read S_Read L_Arrive.
Local Open Scope N_scope.

(* C125: however the system delivers the bytes (any pieces, signals, nothing for a while), with and without TLS, a line is read as what
   it says and what follows it is kept for the next one. *)
Theorem C125_read : forall tag l t rest buf, line_spelt tag l t -> tag < 2 ^ 31 ->
  (forall rounds, Forall goes_well rounds -> buf ++ concat (map bytes_of rounds) = t ++ rest ->
    exists b used left, wait_plain (Z.of_N tag) reader0 buf rounds = Ok (Some (tok_of_line l), b, left) /\ rounds = used ++ left /\ b ++ concat (map bytes_of left) = rest) /\
  (forall rounds, Forall goes_well_tls rounds -> buf ++ concat (map bytes_of_tls rounds) = t ++ rest ->
    exists b used left, wait_tls (Z.of_N tag) reader0 buf rounds = Ok (Some (tok_of_line l), b, left) /\ rounds = used ++ left /\ b ++ concat (map bytes_of_tls left) = rest).
Proof. exact read_main. Qed.
Print Assumptions C125_read.

(* If something goes wrong (an error, the timeout, the end) before the line is complete, there is no line: never half of one. *)
Theorem C125_cut : forall tag l t buf, line_spelt tag l t -> tag < 2 ^ 31 ->
  (forall rounds x more missing, Forall goes_well rounds -> goes_wrong x -> missing <> [] -> t = buf ++ concat (map bytes_of rounds) ++ missing ->
    wait_plain (Z.of_N tag) reader0 buf (rounds ++ x :: more) = Ok (None, [], more)) /\
  (forall rounds x more missing, Forall goes_well_tls rounds -> goes_wrong_tls x -> missing <> [] -> t = buf ++ concat (map bytes_of_tls rounds) ++ missing ->
    wait_tls (Z.of_N tag) reader0 buf (rounds ++ x :: more) = Ok (None, [], more)).
Proof. exact cut_main. Qed.
Print Assumptions C125_cut.

(* Whatever bytes arrive (without the huge counts of C91), nothing outside of the buffer is touched, and it goes on waiting only as long
   as nothing has gone wrong. *)
Theorem C125_safe : forall tag buf,
  (forall rounds, Forall fits rounds -> no_huge (buf ++ concat (map bytes_of rounds)) ->
    (exists x, wait_plain tag reader0 buf rounds = Ok x) \/ (wait_plain tag reader0 buf rounds = Err E_fuel /\ ~ Exists goes_wrong rounds)) /\
  (forall rounds, Forall fits_tls rounds -> no_huge (buf ++ concat (map bytes_of_tls rounds)) ->
    (exists x, wait_tls tag reader0 buf rounds = Ok x) \/ (wait_tls tag reader0 buf rounds = Err E_fuel /\ ~ Exists goes_wrong_tls rounds)).
Proof. exact safe_main. Qed.
Print Assumptions C125_safe.

Example C125_example : line_spelt 7 (Says [Atom (bs "3"); Atom (bs "EXISTS")]) ex_text /\ Forall goes_well ex_rounds /\ bs "* " ++ concat (map bytes_of ex_rounds) = ex_text ++ bs "* BYE" /\
  wait_plain 7 reader0 (bs "* ") ex_rounds = Ok (Some (tok_of_line (Says [Atom (bs "3"); Atom (bs "EXISTS")])), bs "* B", [(P_ready, G_bytes (bs "YE"))]) /\
  wait_plain 7 reader0 (bs "* ") [(P_ready, G_bytes (bs "3 EXI")); (P_timeout, G_again)] = Ok (None, [], []) /\
  wait_tls 7 reader0 (bs "* ") [Y_wants P_ready; Y_bytes (bs "3 EXI"); Y_error] = Ok (None, [], []) /\ Forall fits ex_rounds /\ no_huge (bs "* " ++ concat (map bytes_of ex_rounds)).
Proof. exact read_example. Qed.
