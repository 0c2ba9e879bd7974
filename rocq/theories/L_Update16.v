(* Example: a mailbox message whose text contains a separator line. *)
From Verif Require Import Base M_Encoding M_TokTable S_TokTable M_DbFile S_DbFile M_Search S_Search M_Tokens S_Tokens M_Mbox S_Mbox M_Update S_Update L_DbFile6 L_Mbox4 L_Update13 L_Update14.
Local Open Scope N_scope.

(* The end is missed when an opening parenthesis is not closed. *)
Definition join_parse (t : bytes) : option rfc822 * bool := (fst (ex_parse t), existsb (N.eqb (ch "(")) t && negb (existsb (N.eqb (ch ")")) t)).
Definition join_box := bs "From a !" ++ nl ++ bs "(one" ++ nl ++ bs "From b !" ++ nl ++ bs "one)" ++ nl ++ bs "From c !" ++ nl ++ bs "(two" ++ nl ++ bs "From d !" ++ nl ++ bs "three" ++ nl.
Definition join_files := [(bs "/m/1:2,FS", (10, bs "hi")); (bs "/box", (30, join_box))].
Definition join_world : world := let w := ex_world join_files [] in {|
  w_alnum := w_alnum w; w_hash := w_hash w; w_from_ok := w_from_ok w; w_csum := w_csum w; w_parse := join_parse; w_stat := w_stat w; w_lstat := w_lstat w;
  w_map := w_map w; w_imap := w_imap w; w_junk_msg := w_junk_msg w; w_junk_sum := w_junk_sum w |}.
Lemma join_world_ok : world_ok join_world.
Proof. pose proof (ex_world_ok join_files []) as H. constructor; apply H. Qed.
Definition join_db := get_run (index_run join_world false false [file "/m/1:2,FS"] [bs "/box"] (new_database 7)).
Lemma join_runnable : runnable join_world false [file "/m/1:2,FS"] [bs "/box"] (new_database 7).
Proof.
  destruct (new_ok (w_hash join_world) 7) as (A & B & C); [reflexivity|]. constructor; auto.
  - apply join_world_ok.
  - repeat constructor; cbn; intuition discriminate.
  - repeat constructor; now apply c_stringb.
  - repeat constructor; cbn; intuition discriminate.
  - repeat constructor; now apply c_stringb.
  - intros p [<-|[]]; vm_compute; discriminate.
  - intros boxes E. vm_compute in E. injection E as <-. vm_compute. discriminate.
Qed.
Lemma join_run : index_run join_world false false [file "/m/1:2,FS"] [bs "/box"] (new_database 7) = Ok (true, join_db) /\
  build_new_message_list ex_from_ok None join_box = Ok [(9, 5); (23, 5); (37, 5); (51, 6)] /\
  map (fun mb => (mb_n mb, starts mb, lens mb)) (mboxen join_db) = [(3, [Some 9; Some 37; Some 51; None], [Some 19; Some 5; Some 6; None])] /\
  map (fun m => (date m, seen m, replied m, flagged m)) (msgs join_db) = [(2, true, false, true); (19, false, false, false); (5, false, false, false); (6, false, false, false)].
Proof. vm_compute. auto. Qed.
