(* Sending requests and saying goodbye: C121, C122. *)
From Verif Require Import Base M_Imap S_Imap M_Write S_Write L_Write.
Local Open Scope N_scope.

(* C121: however the system takes the bytes, with or without TLS, a request that is reported as sent was sent whole, once and in
   order, and otherwise only a beginning of it was; and if nothing goes wrong and enough is taken, it is sent. *)
Theorem C121_write : forall text, (forall rounds x, write_plain rounds text = Ok x -> sends text x) /\ (forall rounds x, write_tls rounds text = Ok x -> sends text x) /\
  (forall rounds, Forall fine rounds -> (length text <= length (filter takes rounds))%nat -> write_plain rounds text = Ok (true, text)) /\
  (forall rounds, Forall fine_tls rounds -> (length text <= length (filter takes_tls rounds))%nat -> write_tls rounds text = Ok (true, text)).
Proof. exact write_main. Qed.
Print Assumptions C121_write.
Example C121_example : write_plain [(P_ready, W_bytes 3); (P_signal, W_again); (P_ready, W_again); (P_ready, W_bytes 20)] (bs "t0 CAPABILITY") = Ok (true, bs "t0 CAPABILITY") /\
  write_plain [(P_ready, W_bytes 3); (P_timeout, W_again)] (bs "t0 CAPABILITY") = Ok (false, bs "t0 ").
Proof. exact write_example. Qed.

(* C122: at the end one LOGOUT is sent, numbered like any other request, and mairix comes to an end whatever the server says. *)
Theorem C122_logout : forall (S : Type) (serve : S -> bytes -> S * option (list bytes)) k, (-1 <= k_tag k)%Z -> (k_tag k + 1 < 2147483648)%Z ->
  (forall text out, snd (serve (k_srv k) text) = Some out -> no_huge (k_buf k ++ concat (k_net k) ++ concat out)) ->
  exists text k', logout S serve k = Ok k' /\ received text = Some (Z.to_N (k_tag k + 1), [Atom (bs "LOGOUT")]) /\ (length text < 25)%nat /\ k_srv k' = fst (serve (k_srv k) text).
Proof. exact logout_main. Qed.
Print Assumptions C122_logout.
Example C122_example : exists k', logout nat (fun n _ => (S n, Some [bs "* BYE" ++ [13; 10]; bs "t8 OK" ++ [13; 10]])) {| k_tag := 7; k_buf := []; k_net := []; k_sel := None; k_srv := O |} = Ok k' /\ k_tag k' = 8%Z /\ k_net k' = [].
Proof. exact logout_example. Qed.
