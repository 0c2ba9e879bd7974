(* From the mails to the results of searches for what they say, where they lie, how long they are and how they are marked: C115. *)
From Coq Require Import Sorted.
From Verif Require Import Base M_Encoding M_TokTable S_TokTable M_DbFile S_DbFile M_Search M_Tokens S_Tokens M_Mbox S_Mbox S_Header S_Words S_Rfc822 S_Multipart S_Mime M_Rfc822 M_Update S_Update M_Session S_Session M_Program S_Program
  M_Dates S_Dates S_Zone S_Search S_Query S_Query2 L_Mime5 L_Program3 L_Query4 L_Query5 L_Query6.
Local Open Scope N_scope.

(* C115.  After any history of sessions, a search with any arguments returns an entry of the index exactly if its mail is as all of the
   arguments say, now: its words and message-ids, its date, its path, its size and its flags.  For sizes of files it is assumed that at
   every session files were as long as the system said (so they are not compressed). *)
Theorem C115_everything : forall M D sd s file h F db r args, machine_ok M -> s_world s = program_world M D -> run_by M ((s, file) :: h) ->
  history ((s, file) :: h) (Some F) -> orderly ((s, file) :: h) -> holds_index (s_world s) F db -> open_db F = Ok r ->
  Forall (arg_ok sd db) args -> (forall lo hi, In (A_size lo hi) args -> true_sizes ((s, file) :: h)) ->
  exists l, search sd F r false (map show_arg args) = Ok l /\ StronglySorted N.lt l /\
    forall i m p alone t lines ns at_, S_Search.message db i = Some m -> lies db m p alone -> text_of D db m t -> Forall (fun c => c < 256) t -> S_Mime.message (m_isspc M) t lines ns ->
      legible lines ns -> ids_legible lines ns -> dated_at M lines at_ -> (In i l <-> Forall (says_all M sd p alone t lines ns at_) args).
Proof. exact every_main. Qed.
Print Assumptions C115_everything.
Example C115_example : machine_ok pr_machine /\ run_by pr_machine al_h /\ history al_h (Some al_F2) /\ orderly al_h /\ holds_index (s_world al_s2) al_F2 al_db /\ true_sizes al_h /\
  Forall (arg_ok (fun _ => None) al_db) al_args /\ map show_arg al_args = [bs "p:m"; bs "z:300-"; bs "F:sr-f"] /\
  S_Search.message al_db 0 = Some al_msg /\ lies al_db al_msg (bs "/m/1:2,RS") true /\ text_of al_d2 al_db al_msg ex_mime /\ S_Mime.message isspace ex_mime (map unfolded ex_fs) ex_nodes /\
  legible (map unfolded ex_fs) ex_nodes /\ ids_legible (map unfolded ex_fs) ex_nodes /\ day_named isspace (map unfolded ex_fs) 2026 10 16.
Proof.
  split; [exact pr_machine_ok|]. split; [exact al_run_by|]. split; [exact al_history|]. split; [exact al_orderly|]. split; [exact (proj1 al_result)|]. split; [exact al_true_sizes|].
  split; [exact (proj1 (al_args_ok _))|]. split; [exact (proj2 (al_args_ok (fun _ => None)))|]. split; [exact al_message|]. split; [exact al_lies|]. split; [exact al_text|]. split; [exact ex_mime_ok|].
  split; [exact pr_legible|]. split; [exact ex_ids_legible|exact ex_day_named].
Qed.
Example C115_example_result : exists r, open_db al_F2 = Ok r /\ search (fun _ => None) al_F2 r false (map show_arg al_args) = Ok [0] /\
  search (fun _ => None) al_F2 r false [bs "F:s"] = Ok [0; 1] /\ search (fun _ => None) al_F2 r false [bs "z:-100"] = Ok [1; 2].
Proof. exact al_found. Qed.
