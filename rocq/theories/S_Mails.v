(* Mails as the program should recognise them, in terms of the grammars of separator lines and of MIME
   messages. *)
From Verif Require Import Base M_DbFile S_Mbox S_Multipart S_Mime M_Update M_Session M_Program S_Boxes.
From Verif Require S_From.
Local Open Scope N_scope.

(* Each mail has a proper separator line and a MIME message; a line in the message that looks like a
   separator comes before the last boundary of a message in parts. *)
Definition program_mails (M : machine) (mails : list mail) : Prop :=
  Forall (fun m => mail_ok S_From.begins_message (open_ended (m_isspc M)) m /\
    exists lines ns, S_Mime.message (m_isspc M) (snd m) lines ns /\ Forall (fun c => c < 256) (snd m)) mails.
