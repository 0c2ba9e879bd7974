(* The letters that the results of a search stand for, when they are brought into a folder on a mail server. *)
From Verif Require Import Base M_DbFile M_Output S_Output M_Imap S_Imap S_Server S_Deliver S_Search.
Local Open Scope N_scope.

(* A letter with this text and the flags of message m. *)
Definition mail_of (m : msg) (t : bytes) (l : letter) : Prop :=
  l_text l = t /\
  l_flags l = (if seen m then [bs "\Seen"] else []) ++ (if replied m then [bs "\Answered"] else []) ++ (if flagged m then [bs "\Flagged"] else []).
(* A text that can be sent to a server as it is. *)
Definition can_be_sent (t : bytes) : Prop := sendable (Str t) /\ no_backslash (Str t).
Section Wanted.
Context (csum : bytes -> bytes) (expand : bytes -> bytes -> option bytes) (d : disc) (db : database) (v : post) (mf : bytes).
(* The message is still to be had, and l is what ought to come into folder mf for it. *)
Definition wanted (m : msg) (l : letter) : Prop :=
  match src m with
  | S_file p _ _ => exists t, map_file expand d p = Ok (Some t) /\ can_be_sent t /\ mail_of m t l
  | S_mbox _ _ => exists w t, unchanged csum expand d db m w t /\ can_be_sent t /\ mail_of m t l
  | S_imap p => letter_at v mf p l
  | S_dead => False
  end.
Definition from_server (m : msg) : Prop := exists p, src m = S_imap p.
(* The mailbox that held message m cannot be read any more. *)
Definition box_gone (m : msg) : Prop := exists w st ln ck, indexed_at db m w st ln ck /\ map_file expand d w = Ok None.
End Wanted.
