(* Examples for C123 and C124. *)
From Verif Require Import Base M_Imap S_Imap S_Server S_Deliver L_Imap L_Imap6 L_Imap7 L_Deliver L_Deliver2.
Local Open Scope N_scope.

Definition ex_brought : list act := [A_copy (bs "77:19:INBOX"); A_append mail1 true false true; A_copy (bs "77:5:INBOX")].
Definition ex_letters : list letter :=
  [{| l_uid := bs "19"; l_flags := []; l_text := mail2 |}; {| l_uid := bs "0"; l_flags := [bs "\Seen"; bs "\Flagged"]; l_text := mail1 |}; {| l_uid := bs "5"; l_flags := [bs "\Seen"]; l_text := mail1 |}].
Lemma mail1_sent : sendable (Str mail1) /\ no_backslash (Str mail1).
Proof.
  split; [split; [|vm_compute; reflexivity]|].
  - assert (X : forallb (fun c => c <? 256) mail1 = true) by (vm_compute; reflexivity). intros c I. rewrite forallb_forall in X. apply X in I. lia.
  - intros _. exists 13. split; [vm_compute; tauto|lia].
Qed.
Lemma ex_brings : Forall2 (brings ex_post (bs "found")) ex_brought ex_letters.
Proof.
  apply Forall2_cons; [|apply Forall2_cons; [|apply Forall2_cons; [|apply Forall2_nil]]].
  - exists (bs "INBOX"). eexists. split; [discriminate|]. split; [reflexivity|]. split; [right; right; left; reflexivity|reflexivity].
  - split; [apply mail1_sent|]. split; [apply mail1_sent|]. split; reflexivity.
  - exists (bs "INBOX"). eexists. split; [discriminate|]. split; [reflexivity|]. split; [left; reflexivity|reflexivity].
Qed.
Definition ex_copied : list act := [A_copy (bs "3:1:old ""stuff"""); A_copy (bs "77:5:INBOX")].
Definition ex_letters2 : list letter := [{| l_uid := bs "1"; l_flags := []; l_text := mail2 |}; {| l_uid := bs "5"; l_flags := [bs "\Seen"]; l_text := mail1 |}].
Lemma ex_brings2 : Forall2 (brings ex_post (bs "matches")) ex_copied ex_letters2.
Proof.
  apply Forall2_cons; [|apply Forall2_cons; [|apply Forall2_nil]].
  - exists (bs "old ""stuff"""). eexists. split; [discriminate|]. split; [reflexivity|]. split; [left; reflexivity|reflexivity].
  - exists (bs "INBOX"). eexists. split; [discriminate|]. split; [reflexivity|]. split; [left; reflexivity|reflexivity].
Qed.
Lemma ex_names : name_ok (bs "found") /\ name_ok (bs "matches").
Proof. split; apply name_b; vm_compute; reflexivity. Qed.
Lemma filled_runs :
  (exists k, do_acts model_serve (bs "found") ex_conn (A_clear :: ex_brought) = Ok k /\ map l_text (letters_in (k_srv k) (bs "found")) = [mail2; mail1; mail1]) /\
  (exists k, do_acts model_serve (bs "matches") ex_conn (A_clear :: ex_copied) = Ok k /\ map l_text (letters_in (k_srv k) (bs "matches")) = [mail2; mail1]) /\
  (exists k, do_acts model_serve (bs "matches") ex_conn [A_clear; A_append mail1 true false true] = Ok k /\ letters_in (k_srv k) (bs "matches") = []).
Proof. split; [|split]; (eexists; split; [vm_compute; reflexivity|vm_compute; reflexivity]). Qed.
