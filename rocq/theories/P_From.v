(* Separator lines of mailboxes: C87. *)
From Verif Require Import Base M_From S_From L_From4.
Local Open Scope N_scope.

(* C87.  A line that starts with "From " starts a message exactly if a sender (or none) and a date follow,
   in one of the two forms of the grammar; what comes after the date does not matter. *)
Theorem C87_separator : forall text, looks_like_from_separator text = true <-> begins_message text.
Proof. exact from_main. Qed.
Print Assumptions C87_separator.
(* But not every address will do: the name of the host must have two letters. *)
Theorem C87_short_host_refuted : exists h, dtext h /\ ex_short = bs "root@" ++ [h] ++ bs " Mon Mar 15 14:36:40 2021" /\ looks_like_from_separator ex_short = false.
Proof. exact short_host. Qed.
Print Assumptions C87_short_host_refuted.
Example C87_example : begins_message ex_sep1 /\ begins_message ex_sep2 /\ ~ begins_message (bs "now on we meet on Mon Mar 15").
Proof.
  split; [apply C87_separator, ex_sep|]. split; [apply C87_separator, ex_sep|]. intros B. apply C87_separator in B. rewrite (proj2 (proj2 ex_sep)) in B. discriminate B.
Qed.
