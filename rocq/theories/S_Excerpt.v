(* What is printed of a message as an excerpt. *)
From Verif Require Import Base M_DbFile M_Search M_Tokens M_Rfc822 M_Output S_Output.
Local Open Scope N_scope.

Section Excerpt.
Context (csum : bytes -> bytes) (expand : bytes -> bytes -> option bytes) (isspc : N -> bool) (mktime : Z -> Z -> Z -> Z).
Context (from_imap : bytes -> res (option rfc822)) (day : Z -> bytes) (d : disc) (db : database).

Definition dashes : bytes := bs "---------------------------------" ++ [10].
(* A labelled line for each field that the message has, in this order, and its date. *)
Inductive shown : list (string * option bytes) -> bytes -> Prop :=
| sh_none : shown [] []
| sh_there label v l b : shown l b -> shown ((label, Some v) :: l) (bs label ++ v ++ [10] ++ b)
| sh_not label l b : shown l b -> shown ((label, None) :: l) b.
Definition summary (h : headers) (b : bytes) : Prop :=
  exists b', b = b' ++ bs "  Date:        " ++ day (h_date h) ++ [10] /\
  shown [("  To:         "%string, h_to h); ("  Cc:         "%string, h_cc h); ("  From:       "%string, h_from h); ("  Subject:    "%string, h_subject h);
         ("  Message-ID: "%string, h_message_id h); ("  In-Reply-To:"%string, h_in_reply_to h)] b'.
Definition of_parse (o : option rfc822) (b : bytes) : Prop := match o with Some (Rfc822 h _) => summary h b | None => b = [] end.
Definition of_text (t b : bytes) : Prop := exists o e, data_to_rfc822 isspc mktime t (length t) = Ok (o, e) /\ of_parse o b.
(* The excerpt of message m as its text is now. *)
Definition excerpt (m : msg) (b : bytes) : Prop :=
  exists place more, b = dashes ++ place ++ more /\ raw_line db m place /\
  match src m with
  | S_file p _ _ => (forall t, map_file expand d p = Ok (Some t) -> of_text t more) /\ (map_file expand d p = Ok None -> more = [])
  | S_imap p => forall o, from_imap p = Ok o -> of_parse o more
  | S_mbox _ _ => (forall w t, unchanged csum expand d db m w t -> of_text t more) /\ ((forall w t, ~ unchanged csum expand d db m w t) -> more = [])
  | S_dead => False
  end.
(* Each text that has to be parsed can be, and each letter can be fetched. *)
Definition parses (m : msg) : Prop :=
  (forall t, (exists p mt sz, src m = S_file p mt sz /\ map_file expand d p = Ok (Some t)) \/ (exists w, unchanged csum expand d db m w t) ->
     exists o e, data_to_rfc822 isspc mktime t (length t) = Ok (o, e)) /\
  (forall p, src m = S_imap p -> exists o, from_imap p = Ok o).
End Excerpt.
