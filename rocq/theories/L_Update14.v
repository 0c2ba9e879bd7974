(* Examples and counterexamples about indexing runs. *)
From Coq Require Import Permutation Sorted.
From Verif Require Import Base M_Encoding M_TokTable S_TokTable M_DbFile S_DbFile M_Search S_Search M_Thread S_Thread M_Purge S_Purge M_Tokens S_Tokens M_Mbox S_Mbox M_Update S_Update
  L_DbFile6 L_DbFile7 L_Search6 L_Update13.
From Verif Require M_Paths.
Local Open Scope N_scope.

Definition get_run (r : res (bool * database)) : database := match r with Ok (_, db) => db | Err _ => new_database 0 end.
Definition ex_box1 := bs "From a !" ++ nl ++ bs "hello one" ++ nl ++ bs "From b !" ++ nl ++ bs "bye two" ++ nl.
Definition ex_files1 := [(bs "/m/1", (10, bs "hello <a@x> Alice")); (bs "/m/2", (20, bs "bye <b@x>")); (bs "/box", (30, ex_box1))].
Definition ex_w1 := ex_world ex_files1 [(bs "s1", bs "Hello <a@x>")].
Definition ex_fnd1 := [file "/m/2"; imap "s1"; file "/m/1"].
Definition ex_paths := [bs "/box"; bs "/none"].
Definition ex_run1 := index_run ex_w1 false false ex_fnd1 ex_paths (new_database 7).
Definition ex_db1 := get_run ex_run1.
(* Later: /m/1 has changed, /m/2 is gone, /m/3 is new, the mailbox has grown. *)
Definition ex_files2 := [(bs "/m/1", (11, bs "hello again")); (bs "/m/3", (21, bs "bye <b@x>")); (bs "/box", (31, ex_box1 ++ bs "From c !" ++ nl ++ bs "three" ++ nl))].
Definition ex_w2 := ex_world ex_files2 [(bs "s1", bs "Hello <a@x>")].
Definition ex_fnd2 := [file "/m/3"; imap "s1"; file "/m/1"].
Definition ex_run2 := index_run ex_w2 false false ex_fnd2 ex_paths ex_db1.

Lemma c_stringb s : forallb (fun x => (0 <? x) && (x <? 256)) s = true -> c_string s.
Proof. exact (c_stringb_ok s). Qed.
Lemma ex_runnable1 : runnable ex_w1 false ex_fnd1 ex_paths (new_database 7).
Proof.
  destruct (new_ok (w_hash ex_w1) 7) as (A & B & C); [reflexivity|]. constructor; auto.
  - apply ex_world_ok.
  - repeat constructor; cbn; intuition discriminate.
  - repeat constructor; now apply c_stringb.
  - repeat constructor; cbn; intuition discriminate.
  - repeat constructor; now apply c_stringb.
  - intros p [<-|[<-|[]]]; vm_compute; discriminate.
  - intros boxes E. vm_compute in E. injection E as <-. vm_compute. discriminate.
Qed.
Lemma ex_run1_ok : index_run ex_w1 false false ex_fnd1 ex_paths (new_database 7) = Ok (true, ex_db1).
Proof. now vm_compute. Qed.
Lemma out {W fast sl fnd paths db c db' P} : index_run W fast sl fnd paths db = Ok (c, db') -> (exists ch db1, index_run W fast sl fnd paths db = Ok (ch, db1) /\ P db1) -> P db'.
Proof. intros E (ch & db1 & E1 & H). congruence. Qed.
Lemma ex_db1_ok : db_ok ex_h ex_db1 /\ mailed ex_db1 /\ tight ex_db1 /\ each_once ex_db1.
Proof.
  destruct (out ex_run1_ok (run_ok ex_w1 false false ex_fnd1 ex_paths (new_database 7) ex_runnable1)) as (A & B & C & D).
  split; [exact A|]. split; [exact B|]. split; [apply C; intros mb []|apply D]. apply (new_ok (w_hash ex_w1) 7 eq_refl).
Qed.
Lemma ex_runnable2 : runnable ex_w2 false ex_fnd2 ex_paths ex_db1.
Proof.
  destruct ex_db1_ok as (A & _ & B & _). constructor; auto.
  - apply ex_world_ok.
  - repeat constructor; cbn; intuition discriminate.
  - repeat constructor; now apply c_stringb.
  - repeat constructor; cbn; intuition discriminate.
  - repeat constructor; now apply c_stringb.
  - intros p [<-|[<-|[]]]; vm_compute; discriminate.
  - intros boxes E. vm_compute in E. injection E as <-. vm_compute. discriminate.
Qed.
Definition ex_db2 := get_run ex_run2.
Lemma ex_run2_ok : index_run ex_w2 false false ex_fnd2 ex_paths ex_db1 = Ok (true, ex_db2).
Proof. now vm_compute. Qed.
Lemma ex_srcs : map src (msgs ex_db1) = [S_file (bs "/m/1") 10 17; S_file (bs "/m/2") 20 9; S_imap (bs "s1"); S_mbox 0 0; S_mbox 0 1] /\
  map src (msgs ex_db2) = [S_dead; S_dead; S_imap (bs "s1"); S_mbox 0 0; S_mbox 0 1; S_file (bs "/m/1") 11 11; S_file (bs "/m/3") 21 9; S_mbox 0 2] /\
  map tid (msgs ex_db2) = [0; 1; 0; 2; 3; 4; 1; 5].
Proof. split; [|split]; now vm_compute. Qed.
Lemma ex_searches : match write_database ex_db1 [] with Ok F => match open_db F with Ok r =>
    search no_dates F r false [bs "s:hello"] = Ok [0; 2; 3] /\ search no_dates F r false [bs "s:alice"] = Ok [0] /\ search no_dates F r false [bs "s:three"] = Ok [] | _ => False end | _ => False end /\
  match write_database ex_db2 [] with Ok F => match open_db F with Ok r =>
    search no_dates F r false [bs "s:hello"] = Ok [2; 3; 5] /\ search no_dates F r false [bs "s:alice"] = Ok [] /\ search no_dates F r false [bs "s:three"] = Ok [7] | _ => False end | _ => False end.
Proof. split; vm_compute; auto. Qed.

(* ---- counterexamples ---- *)
(* a message whose size changes but not its modification time keeps its old entry *)
Lemma size_stale : exists W fnd db db', runnable W false fnd [] db /\ index_run W false false fnd [] db = Ok (false, db') /\
  In (file "/m/1") fnd /\ w_stat W (bs "/m/1") = Some (M_Paths.K_reg, 10, 5) /\ lists_src db' (S_file (bs "/m/1") 10 17) /\ ~ lists_src db' (S_file (bs "/m/1") 10 5).
Proof.
  set (W1 := ex_world ex_files1 []). set (W2 := ex_world [(bs "/m/1", (10, bs "later"))] []). set (r1 := index_run W1 false false [file "/m/1"] [] (new_database 7)).
  assert (R1 : runnable W1 false [file "/m/1"] [] (new_database 7)).
  { destruct (new_ok (w_hash W1) 7) as (A & B & C); [reflexivity|]. constructor; try assumption.
    - apply ex_world_ok.
    - repeat constructor; cbn; intuition discriminate.
    - repeat constructor; now apply c_stringb.
    - constructor.
    - constructor.
    - intros p [].
    - intros boxes E. vm_compute in E. injection E as <-. vm_compute. discriminate. }
  assert (E1 : index_run W1 false false [file "/m/1"] [] (new_database 7) = Ok (true, get_run r1)) by now vm_compute.
  destruct (out E1 (run_ok W1 false false [file "/m/1"] [] (new_database 7) R1)) as (A & B & C & D).
  exists W2, [file "/m/1"], (get_run r1), (get_run (index_run W2 false false [file "/m/1"] [] (get_run r1))). split; [|split; [now vm_compute|split; [now left|split; [now vm_compute|split]]]].
  - constructor; try assumption.
    + apply ex_world_ok.
    + apply C. intros mb [].
    + repeat constructor; cbn; intuition discriminate.
    + repeat constructor; now apply c_stringb.
    + constructor.
    + constructor.
    + intros p [].
    + intros boxes E. vm_compute in E. injection E as <-. vm_compute. discriminate.
  - vm_compute. eexists. split; [left; reflexivity|reflexivity].
  - intros (m & I & E). vm_compute in I. destruct I as [<-|[]]. discriminate E.
Qed.

(* A mailbox loses its last message: the number of messages recorded for it is not reduced, and the
   run after the next load reads memory that was never written. *)
Definition box_world mt t := ex_world [(bs "/box", (mt, t))] [].
Definition short := bs "From a !" ++ nl ++ bs "hello one" ++ nl.
Definition reload (db : database) : database :=
  match write_database db [] with Ok F => match load ex_h (fun _ => 0) 0 F with Ok db' => db' | _ => new_database 0 end | _ => new_database 0 end.
Definition sh_1 := get_run (index_run (box_world 30 ex_box1) false false [] [bs "/box"] (new_database 7)).
Definition sh_2 := get_run (index_run (box_world 31 short) false false [] [bs "/box"] (reload sh_1)).
Lemma shrunk_breaks : exists F1 F2 db1' db2', index_run (box_world 30 ex_box1) false false [] [bs "/box"] (new_database 7) = Ok (true, sh_1) /\
  write_database sh_1 [] = Ok F1 /\ load ex_h (fun _ => 0) 0 F1 = Ok db1' /\
  index_run (box_world 31 short) false false [] [bs "/box"] db1' = Ok (true, sh_2) /\
  map mb_n (mboxen sh_2) = [2] /\ map src (msgs sh_2) = [S_mbox 0 0; S_dead] /\
  write_database sh_2 [] = Ok F2 /\ load ex_h (fun _ => 0) 0 F2 = Ok db2' /\
  index_run (box_world 32 ex_box1) false false [] [bs "/box"] db2' = Err E_ub.
Proof.
  destruct (write_database sh_1 []) as [F1|] eqn:E1; [|vm_compute in E1; discriminate].
  destruct (write_database sh_2 []) as [F2|] eqn:E2; [|vm_compute in E2; discriminate].
  exists F1, F2, (reload sh_1), (reload sh_2). vm_compute in E1. injection E1 as <-. vm_compute in E2. injection E2 as <-.
  split; [now vm_compute|]. split; [reflexivity|]. split; [now vm_compute|]. split; [now vm_compute|]. split; [now vm_compute|]. split; [now vm_compute|]. split; [reflexivity|]. split; now vm_compute.
Qed.

(* A mailbox message that cannot be parsed gets the date and the flags that were in memory. *)
Definition with_junk (W : world) (j : N -> msg) (f : bytes -> option rfc822 * bool) : world := {|
  w_alnum := w_alnum W; w_hash := w_hash W; w_from_ok := w_from_ok W; w_csum := w_csum W; w_parse := f; w_stat := w_stat W; w_lstat := w_lstat W; w_map := w_map W;
  w_imap := w_imap W; w_junk_msg := j; w_junk_sum := w_junk_sum W |}.
Definition junk n (_ : N) : msg := {| src := S_dead; date := n; tid := 0; seen := 5 <? n; replied := false; flagged := false |}.
Definition jw n := with_junk (box_world 30 short) (junk n) (fun _ => (None, false)).
Lemma junk_matters : exists db1 db2, index_run (jw 1) false false [] [bs "/box"] (new_database 7) = Ok (true, db1) /\
  index_run (jw 9) false false [] [bs "/box"] (new_database 7) = Ok (true, db2) /\
  map date (msgs db1) = [1] /\ map date (msgs db2) = [9] /\ map seen (msgs db1) = [false] /\ map seen (msgs db2) = [true].
Proof. eexists. eexists. split; [vm_compute; reflexivity|]. split; [vm_compute; reflexivity|]. vm_compute. auto. Qed.

(* A mailbox that is a dangling symbolic link, with symbolic links followed. *)
Definition dangling : world := {|
  w_alnum := isalnum; w_hash := ex_h; w_from_ok := fun _ => false; w_csum := fun t => repeat 0 16; w_parse := ex_parse;
  w_stat := fun _ => None; w_lstat := fun p => if bytes_eqb p (bs "/box") then Some (true, 1, 2) else None; w_map := fun _ => Map_no_stat;
  w_imap := fun _ => None; w_junk_msg := junk 0; w_junk_sum := repeat 0 16 |}.
Lemma dangling_ok : world_ok dangling.
Proof.
  constructor; cbn [dangling w_alnum w_parse w_imap w_csum w_stat w_lstat w_map w_junk_msg w_junk_sum]; try discriminate; auto.
  - apply ex_textual.
  - intros p k mt sz. destruct (bytes_eqb p (bs "/box")); [|discriminate]. intros [= <- <- <-]. split; reflexivity.
  - intros n. split; reflexivity.
Qed.
Lemma dangling_breaks : world_ok dangling /\ index_run dangling false true [] [bs "/box"] (new_database 7) = Err E_ub /\
  exists db', index_run dangling false false [] [bs "/box"] (new_database 7) = Ok (false, db').
Proof. split; [exact dangling_ok|]. split; [now vm_compute|]. eexists. vm_compute. reflexivity. Qed.
