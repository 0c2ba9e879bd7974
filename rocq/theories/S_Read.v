(* What it is for bytes to arrive. *)
From Verif Require Import Base M_Write M_Read.
Local Open Scope N_scope.

(* A round that goes well: it brings some bytes, no more than there is room for, or asks to try again. *)
Definition brings_ok (b : bytes) : Prop := b <> [] /\ N.of_nat (length b) <= 1024.
Definition goes_well (r : polled * got) : Prop := match r with (P_signal, _) | (P_ready, G_again) | (P_ready, G_signal) => True | (P_ready, G_bytes b) => brings_ok b | _ => False end.
Definition goes_wrong (r : polled * got) : Prop := match r with (P_error, _) | (P_timeout, _) | (P_ready, G_error) | (P_ready, G_bytes []) => True | _ => False end.
Definition goes_well_tls (r : ssl_got) : Prop := match r with Y_bytes b => brings_ok b | Y_wants P_ready | Y_wants P_signal => True | _ => False end.
Definition goes_wrong_tls (r : ssl_got) : Prop := match r with Y_bytes [] | Y_error | Y_wants P_error | Y_wants P_timeout => True | _ => False end.
(* The bytes that arrive in some rounds. *)
Definition bytes_of (r : polled * got) : bytes := match r with (P_ready, G_bytes b) => b | _ => [] end.
Definition bytes_of_tls (r : ssl_got) : bytes := match r with Y_bytes b => b | _ => [] end.
(* read() and SSL_read() give no more than there is room for. *)
Definition fits (r : polled * got) : Prop := N.of_nat (length (bytes_of r)) <= 1024.
Definition fits_tls (r : ssl_got) : Prop := N.of_nat (length (bytes_of_tls r)) <= 1024.
