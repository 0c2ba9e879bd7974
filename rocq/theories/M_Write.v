(* imap.c 591-665: sending a request in whatever pieces the system takes it; 714-735: saying goodbye. *)
From Verif Require Import Base M_Imap.
Local Open Scope N_scope.

(* What the calls in one round of a loop can give.  poll(): something is possible, a signal came, an error, the time is
   over.  write() and SSL_write(): a number of bytes, nothing yet, or an error. *)
Inductive polled := P_ready | P_signal | P_error | P_timeout.
Inductive wrote := W_bytes (n : nat) | W_again | W_signal | W_error.
Inductive ssl_wrote := X_bytes (n : nat) | X_wants (p : polled) | X_error.
(* imap.c 631-660, without TLS.  The result, what has been sent, and the rounds that are left; write() takes no more
   than it is given.  No more rounds: still waiting. *)
Fixpoint write_plain (rounds : list (polled * wrote)) (p : bytes) : res (bool * bytes) :=
  match p with
  | [] => Ok (true, [])
  | _ =>
      match rounds with
      | [] => Err E_fuel
      | (P_signal, _) :: rs => write_plain rs p
      | (P_error, _) :: _ | (P_timeout, _) :: _ => Ok (false, [])
      | (P_ready, W_bytes O) :: _ => Ok (false, [])
      | (P_ready, W_bytes n) :: rs => let! (ok, s) := write_plain rs (skipn n p) in Ok (ok, firstn n p ++ s)
      | (P_ready, W_again) :: rs | (P_ready, W_signal) :: rs => write_plain rs p
      | (P_ready, W_error) :: _ => Ok (false, [])
      end
  end.
(* imap.c 600-629, with TLS *)
Fixpoint write_tls (rounds : list ssl_wrote) (p : bytes) : res (bool * bytes) :=
  match p with
  | [] => Ok (true, [])
  | _ =>
      match rounds with
      | [] => Err E_fuel
      | X_bytes O :: _ => Ok (false, [])
      | X_bytes n :: rs => let! (ok, s) := write_tls rs (skipn n p) in Ok (ok, firstn n p ++ s)
      | X_wants P_ready :: rs | X_wants P_signal :: rs => write_tls rs p
      | X_wants _ :: _ => Ok (false, [])
      | X_error :: _ => Ok (false, [])
      end
  end.
(* imap.c 714-735.  cmd has room for 25 bytes.  Lines are read until a tagged one or none. *)
Definition logout_text (tag : Z) : bytes := bs "t" ++ show_z tag ++ bs " LOGOUT" ++ [13; 10].
Definition logout (S : Type) (serve : S -> bytes -> S * option (list bytes)) (k : conn S) : res (conn S) :=
  let tag := (k_tag k + 1)%Z in
  if (tag <? 2147483648)%Z then
    let text := logout_text tag in
    if (length text <? 25)%nat then
      let (srv, ans) := serve (k_srv k) text in
      match ans with
      | None => Ok {| k_tag := tag; k_buf := k_buf k; k_net := k_net k; k_sel := k_sel k; k_srv := srv |}
      | Some out =>
          let net := k_net k ++ out in
          let! (_, buf', net') := collect (1 + length (k_buf k) + length (concat net)) tag (k_buf k) net [] in
          Ok {| k_tag := tag; k_buf := buf'; k_net := net'; k_sel := k_sel k; k_srv := srv |}
      end
    else Err E_oob
  else Err E_ub.
