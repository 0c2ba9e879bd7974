(* imap.c 250-478: where the bytes come from that imap_ll_waitline looks at. *)
From Verif Require Import Base M_Imap M_Write.
Local Open Scope N_scope.

(* What read() gives after poll(): some bytes, or none at the end, nothing yet, a signal, an error.  SSL_read() gives
   bytes, or wants something that is waited for with poll(), or fails; the end is one of its errors. *)
Inductive got := G_bytes (b : bytes) | G_again | G_signal | G_error.
Inductive ssl_got := Y_bytes (b : bytes) | Y_wants (p : polled) | Y_error.
(* imap.c 27: the buffer *)
Definition buffer_size : N := 1024.
(* imap.c 249-412, 440-478, without TLS.  One round is a call of poll() and, if it says so, one of read(); what is not
   yet used of the buffer, and the rounds that are left.  No more rounds: still waiting. *)
Fixpoint wait_plain (tag : Z) (r : reader) (buf : bytes) (rounds : list (polled * got)) : res (option tok * bytes * list (polled * got)) :=
  let! x := eat tag r buf in
  match x with
  | inr (l, b) => Ok (l, b, rounds)
  | inl r' =>
      match rounds with
      | [] => Err E_fuel
      | (P_signal, _) :: rs => wait_plain tag r' [] rs
      | (P_error, _) :: rs | (P_timeout, _) :: rs => Ok (None, [], rs)
      | (P_ready, G_again) :: rs | (P_ready, G_signal) :: rs => wait_plain tag r' [] rs
      | (P_ready, G_error) :: rs | (P_ready, G_bytes []) :: rs => Ok (None, [], rs)
      | (P_ready, G_bytes b) :: rs => if N.of_nat (length b) <=? buffer_size then wait_plain tag r' b rs else Err E_oob
      end
  end.
(* imap.c 249-439, 475-478, with TLS *)
Fixpoint wait_tls (tag : Z) (r : reader) (buf : bytes) (rounds : list ssl_got) : res (option tok * bytes * list ssl_got) :=
  let! x := eat tag r buf in
  match x with
  | inr (l, b) => Ok (l, b, rounds)
  | inl r' =>
      match rounds with
      | [] => Err E_fuel
      | Y_bytes [] :: rs | Y_error :: rs => Ok (None, [], rs)
      | Y_bytes b :: rs => if N.of_nat (length b) <=? buffer_size then wait_tls tag r' b rs else Err E_oob
      | Y_wants P_ready :: rs | Y_wants P_signal :: rs => wait_tls tag r' [] rs
      | Y_wants _ :: rs => Ok (None, [], rs)
      end
  end.
