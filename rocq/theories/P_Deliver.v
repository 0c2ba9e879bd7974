(* C123, C124: filling the match folder on a mail server *)
From Verif Require Import Base M_Imap S_Imap S_Server S_Deliver L_Imap6 L_Imap7 L_Deliver L_Deliver2 L_Deliver3.
Local Open Scope N_scope.

(* C123: on a server that answers and does as it is asked, clearing the match folder and then copying
   letters from other folders and appending mails from files makes the match folder hold exactly those
   letters, in that order, with their texts and flags, and alters no other folder.  The match folder is
   there before, or only letters from the server are put into it; then it is made. *)
Theorem C123_filled : forall (S : Type) (serve : S -> bytes -> S * option (list bytes)) (view : S -> post) (mf : bytes), serves view serve -> carries_out view serve -> name_ok mf ->
  forall k acts ls, fresh k -> (k_tag k + 3 + 4 * Z.of_nat (length acts) < 2147483648)%Z -> in_order (view (k_srv k)) ->
  Forall2 (brings (view (k_srv k)) mf) acts ls -> box_named (view (k_srv k)) mf <> None \/ Forall copies acts ->
  exists k', do_acts serve mf k (A_clear :: acts) = Ok k' /\ Forall2 same_letter (letters_in (view (k_srv k')) mf) ls /\
    (forall g, g <> mf -> box_named (view (k_srv k')) g = box_named (view (k_srv k)) g).
Proof. exact filled_main. Qed.
Print Assumptions C123_filled.
Example C123_example : serves (fun v => v) model_serve /\ carries_out (fun v => v) model_serve /\ fresh ex_conn /\ in_order (k_srv ex_conn) /\
  (name_ok (bs "found") /\ Forall2 (brings (k_srv ex_conn) (bs "found")) ex_brought ex_letters /\ box_named (k_srv ex_conn) (bs "found") <> None /\
   exists k, do_acts model_serve (bs "found") ex_conn (A_clear :: ex_brought) = Ok k /\ map l_text (letters_in (k_srv k) (bs "found")) = [mail2; mail1; mail1]) /\
  (name_ok (bs "matches") /\ Forall2 (brings (k_srv ex_conn) (bs "matches")) ex_copied ex_letters2 /\ Forall copies ex_copied /\
   exists k, do_acts model_serve (bs "matches") ex_conn (A_clear :: ex_copied) = Ok k /\ map l_text (letters_in (k_srv k) (bs "matches")) = [mail2; mail1]).
Proof.
  split; [exact model_serves|]. split; [exact model_carries|]. split; [exact ex_fresh|]. split; [exact ex_order|]. split.
  - split; [exact (proj1 ex_names)|]. split; [exact ex_brings|]. split; [discriminate|exact (proj1 filled_runs)].
  - split; [exact (proj2 ex_names)|]. split; [exact ex_brings2|]. split; [repeat constructor|exact (proj1 (proj2 filled_runs))].
Qed.

(* Without clearing, the letters come after those that are there. *)
Theorem C123_added : forall (S : Type) (serve : S -> bytes -> S * option (list bytes)) (view : S -> post) (mf : bytes), serves view serve -> carries_out view serve -> name_ok mf ->
  forall k acts ls, fresh k -> (k_tag k + 4 * Z.of_nat (length acts) < 2147483648)%Z -> in_order (view (k_srv k)) ->
  Forall2 (brings (view (k_srv k)) mf) acts ls -> box_named (view (k_srv k)) mf <> None \/ Forall copies acts ->
  exists k' xs, do_acts serve mf k acts = Ok k' /\ Forall2 same_letter xs ls /\ letters_in (view (k_srv k')) mf = letters_in (view (k_srv k)) mf ++ xs /\
    (forall g, g <> mf -> box_named (view (k_srv k')) g = box_named (view (k_srv k)) g).
Proof. exact added_main. Qed.
Print Assumptions C123_added.
Example C123_added_example : exists k xs, do_acts model_serve (bs "found") ex_conn ex_brought = Ok k /\ letters_in (k_srv k) (bs "found") = letters_in ex_post (bs "found") ++ xs /\ map l_flags xs = map l_flags ex_letters.
Proof. eexists _, _. split; [vm_compute; reflexivity|]. split; [vm_compute; reflexivity|reflexivity]. Qed.

(* C124: a match folder that is missing ought to be made for mails from files as it is for letters from the
   server.  It is not: on every such server these mails are lost, and the run goes on as if all were well. *)
Theorem C124_refuted : forall (S : Type) (serve : S -> bytes -> S * option (list bytes)) (view : S -> post) (mf : bytes), carries_out view serve -> name_ok mf ->
  forall k acts, fresh k -> (k_tag k + Z.of_nat (length acts) < 2147483648)%Z -> in_order (view (k_srv k)) -> box_named (view (k_srv k)) mf = None -> Forall appends acts ->
  exists k', do_acts serve mf k acts = Ok k' /\ p_boxes (view (k_srv k')) = p_boxes (view (k_srv k)).
Proof. exact lost_fresh. Qed.
Print Assumptions C124_refuted.
Example C124_example : carries_out (fun v => v) model_serve /\ name_ok (bs "matches") /\ fresh ex_conn /\ in_order (k_srv ex_conn) /\ box_named (k_srv ex_conn) (bs "matches") = None /\
  Forall appends [A_append mail1 true false true] /\
  exists k, do_acts model_serve (bs "matches") ex_conn [A_clear; A_append mail1 true false true] = Ok k /\ letters_in (k_srv k) (bs "matches") = [].
Proof.
  split; [exact model_carries|]. split; [exact (proj2 ex_names)|]. split; [exact ex_fresh|]. split; [exact ex_order|]. split; [reflexivity|]. split; [apply Forall_cons; [exact mail1_sent|apply Forall_nil]|exact (proj2 (proj2 filled_runs))].
Qed.
