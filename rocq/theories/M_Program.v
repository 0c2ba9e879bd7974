(* The parts of the program put together: the world of an indexing run, made of the modelled hash
   function, separator recogniser, checksum and message parser, on a machine with a disc. *)
From Verif Require Import Base M_Tokens M_DbFile M_Mbox M_From M_Hash M_Md5 M_Rfc822 M_Update.
From Verif Require M_Paths.
Local Open Scope N_scope.

(* The C library in the current locale and time zone, and the memory MD5Init leaves as it is. *)
Record machine := {
  m_alnum : N -> bool;            (* isalnum() *)
  m_isspc : N -> bool;            (* isspace() *)
  m_mktime : Z -> Z -> Z -> Z;    (* mktime() at 0:00, as in M_Rfc822 *)
  m_stack : bytes }.
(* What the system tells about files, the texts the IMAP server gives, and memory that was never written. *)
Record disc := {
  d_stat : bytes -> option (M_Paths.kind * N * N);
  d_lstat : bytes -> option (bool * N * N);
  d_map : bytes -> mapped;
  d_server : bytes -> option bytes;
  d_junk_msg : N -> msg;
  d_junk_sum : bytes }.

Section Program.
Variable M : machine.
(* A list of numbers that are not all bytes does not exist in memory; something has to be said about it. *)
Definition in_memory (t : bytes) : bool := forallb (fun c => c <? 256) t.
(* rfc822.c 1004-1083, called from rfc822.c 1479 and mbox.c 967, 990; nothing readable follows the text.
   An error ends the program; the theorems assume that there is none (S_Program). *)
Definition parse_text (t : bytes) : option rfc822 * bool :=
  if in_memory t then
    match data_to_rfc822 (m_isspc M) (m_mktime M) t (length t) with
    | Ok (m, e) => (m, match e with DTR8_MISSING_END => true | _ => false end)
    | Err _ => (None, false)
    end
  else (None, false).
(* mbox.c 106-114; it never fails (L_Program) *)
Definition checksum (t : bytes) : bytes :=
  match (if in_memory t then compute_checksum (m_stack M) t else Ok (repeat 0 16)) with Ok d => d | Err _ => [] end.
(* imapinterface.c 266-274.  If the server gives no text, the result is whatever the variable held; the
   theorems assume that it does. *)
Definition from_server (D : disc) (p : bytes) : option rfc822 :=
  match d_server D p with Some t => fst (parse_text t) | None => None end.
Definition program_world (D : disc) : world :=
  {| w_alnum := m_alnum M; w_hash := hashfn; w_from_ok := looks_like_from_separator; w_csum := checksum; w_parse := parse_text;
     w_stat := d_stat D; w_lstat := d_lstat D; w_map := d_map D; w_imap := from_server D; w_junk_msg := d_junk_msg D; w_junk_sum := d_junk_sum D |}.
End Program.
