(* What it is to send a text. *)
From Verif Require Import Base M_Write.

(* Rounds that go well: each takes some bytes or asks to try again. *)
Definition fine (r : polled * wrote) : Prop := match r with (P_signal, _) | (P_ready, W_again) | (P_ready, W_signal) => True | (P_ready, W_bytes n) => n <> O | _ => False end.
Definition takes (r : polled * wrote) : bool := match r with (P_ready, W_bytes _) => true | _ => false end.
Definition fine_tls (r : ssl_wrote) : Prop := match r with X_bytes n => n <> O | X_wants P_ready | X_wants P_signal => True | _ => False end.
Definition takes_tls (r : ssl_wrote) : bool := match r with X_bytes _ => true | _ => false end.
(* Reported as sent: all of it, once and in order; otherwise: less than all, from the start. *)
Definition sends (text : bytes) (x : bool * bytes) : Prop :=
  match x with (true, sent) => sent = text | (false, sent) => exists rest, rest <> [] /\ text = sent ++ rest end.
