(* C126, C127: the results of a search brought into a folder on a mail server *)
From Verif Require Import Base M_DbFile S_DbFile M_Search S_Search M_Output S_Output L_DbFile5 L_DbFile6 L_DbFile7 L_Search6 L_Output9 M_Imap S_Imap S_Server S_Deliver L_Imap6 L_Imap7 L_Deliver2 L_Deliver3 M_ImapOut S_ImapOut L_ImapOut2.
Local Open Scope N_scope.

(* C126: if every result is still to be had where the index says, the folder afterwards holds exactly one
   letter for each result, in order, with its text and flags, wherever the message lies: in a file, in a
   mailbox or in another folder on the server.  No other folder is altered. *)
Theorem C126_filled : forall hashf csum expand (S : Type) (serve : S -> bytes -> S * option (list bytes)) (view : S -> post) mf,
  serves view serve -> carries_out view serve -> name_ok mf ->
  forall db old F r d, db_ok hashf db -> write_database db old = Ok F -> open_db F = Ok r -> places_small db -> maps_small expand d ->
  forall k results ms ls, S_Server.fresh k -> (k_tag k + 3 + 4 * Z.of_nat (length results) < 2147483648)%Z -> in_order (view (k_srv k)) ->
  Forall2 (fun i m => message db i = Some m) results ms -> Forall2 (wanted csum expand d db (view (k_srv k)) mf) ms ls ->
  box_named (view (k_srv k)) mf <> None \/ Forall from_server ms ->
  exists k', output_imap csum expand S serve F r true mf d k results = Ok k' /\ Forall2 same_letter (letters_in (view (k_srv k')) mf) ls /\
    (forall g, g <> mf -> box_named (view (k_srv k')) g = box_named (view (k_srv k)) g).
Proof. exact whole_filled. Qed.
Print Assumptions C126_filled.
(* With --augment they come after what is there. *)
Theorem C126_added : forall hashf csum expand (S : Type) (serve : S -> bytes -> S * option (list bytes)) (view : S -> post) mf,
  serves view serve -> carries_out view serve -> name_ok mf ->
  forall db old F r d, db_ok hashf db -> write_database db old = Ok F -> open_db F = Ok r -> places_small db -> maps_small expand d ->
  forall k results ms ls, S_Server.fresh k -> (k_tag k + 4 * Z.of_nat (length results) < 2147483648)%Z -> in_order (view (k_srv k)) ->
  Forall2 (fun i m => message db i = Some m) results ms -> Forall2 (wanted csum expand d db (view (k_srv k)) mf) ms ls ->
  box_named (view (k_srv k)) mf <> None \/ Forall from_server ms ->
  exists k' ys, output_imap csum expand S serve F r false mf d k results = Ok k' /\ Forall2 same_letter ys ls /\
    letters_in (view (k_srv k')) mf = letters_in (view (k_srv k)) mf ++ ys /\
    (forall g, g <> mf -> box_named (view (k_srv k')) g = box_named (view (k_srv k)) g).
Proof. exact whole_added. Qed.
Print Assumptions C126_added.
Example C126_example : serves (fun v => v) model_serve /\ carries_out (fun v => v) model_serve /\ name_ok (bs "found") /\
  db_ok ex_h net_db /\ write_database net_db [] = Ok net_F /\ open_db net_F = Ok (exp_db net_db) /\ places_small net_db /\ maps_small plain_file ex_disc /\
  S_Server.fresh ex_conn /\ in_order (k_srv ex_conn) /\
  Forall2 (fun i m => message net_db i = Some m) [3; 4; 0; 1] (map net_msg [3; 4; 0; 1]) /\
  Forall2 (wanted ex_csum plain_file ex_disc net_db (k_srv ex_conn) (bs "found")) (map net_msg [3; 4; 0; 1]) net_letters /\ box_named (k_srv ex_conn) (bs "found") <> None /\
  exists k, output_imap ex_csum plain_file post model_serve net_F (exp_db net_db) true (bs "found") ex_disc ex_conn [3; 4; 0; 1] = Ok k /\
    map l_text (letters_in (k_srv k) (bs "found")) = [text1; mail2; bs "user mail"; text0].
Proof.
  split; [exact model_serves|]. split; [exact model_carries|]. split; [exact (proj1 L_Deliver3.ex_names)|]. split; [exact net_db_ok|].
  split; [exact (proj1 net_written)|]. split; [exact (proj2 net_written)|]. split; [exact net_places|]. split; [exact ex_disc_maps|].
  split; [exact ex_fresh|]. split; [exact ex_order|]. split; [exact net_messages|]. split; [exact net_wanted|]. split; [discriminate|exact net_runs].
Qed.

(* C127: a message whose mailbox has changed or gone since it was indexed ought to be left out, as it is for
   the other kinds of match folder.  It is not: if other text lies at its place, bytes are copied from the
   null pointer, on every server that has the match folder ... *)
Theorem C127_refuted : forall hashf csum expand (S : Type) (serve : S -> bytes -> S * option (list bytes)) (view : S -> post) mf,
  serves view serve -> name_ok mf ->
  forall db old F r d, db_ok hashf db -> write_database db old = Ok F -> open_db F = Ok r -> places_small db ->
  forall k i m w t b, S_Server.fresh k -> (k_tag k + 1 < 2147483648)%Z -> in_order (view (k_srv k)) -> box_named (view (k_srv k)) mf = Some b ->
  message db i = Some m -> text_now expand d db m w t -> t <> [] -> ~ unchanged csum expand d db m w t ->
  output_imap csum expand S serve F r false mf d k [i] = Err E_ub.
Proof. exact whole_changed. Qed.
Print Assumptions C127_refuted.
(* ... and if the mailbox cannot be read, a letter without any text is added to the match folder. *)
Theorem C127_empty_refuted : forall hashf csum expand (S : Type) (serve : S -> bytes -> S * option (list bytes)) (view : S -> post) mf,
  serves view serve -> carries_out view serve -> name_ok mf ->
  forall db old F r d, db_ok hashf db -> write_database db old = Ok F -> open_db F = Ok r -> places_small db ->
  forall k i m, S_Server.fresh k -> (k_tag k + 4 < 2147483648)%Z -> in_order (view (k_srv k)) -> box_named (view (k_srv k)) mf <> None ->
  message db i = Some m -> box_gone expand d db m ->
  exists k' y, output_imap csum expand S serve F r false mf d k [i] = Ok k' /\ l_text y = [] /\
    letters_in (view (k_srv k')) mf = letters_in (view (k_srv k)) mf ++ [y].
Proof. exact whole_gone. Qed.
Print Assumptions C127_empty_refuted.
Example C127_example : (exists b, box_named (k_srv ex_conn) (bs "found") = Some b) /\ message net_db 1 = Some (net_msg 1) /\
  (exists t, text_now plain_file net_disc1 net_db (net_msg 1) (bs "/m/box") t /\ t <> [] /\ ~ unchanged ex_csum plain_file net_disc1 net_db (net_msg 1) (bs "/m/box") t) /\
  box_gone plain_file net_disc2 net_db (net_msg 1).
Proof. split; [eexists; reflexivity|]. split; [reflexivity|]. split; [exact net_changed|exact net_gone]. Qed.
