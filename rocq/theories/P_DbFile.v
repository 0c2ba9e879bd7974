(* Properties C08-C11, C42, C43: the database file. *)
From Verif Require Import Base M_Encoding M_TokTable S_TokTable M_DbFile S_DbFile L_DbFile5 L_DbFile6 L_DbFile7.
Local Open Scope N_scope.

(* C08.  Whatever the file held before, writing an index and loading the file gives the same index
   back, and the loaded tables are again ones the word-table properties speak about.  The hypothesis
   on [gi] excludes the uninitialised value described in C08_db_roundtrip_refuted. *)
Theorem C08_db_roundtrip_partial : forall hashf gi gm db old,
  db_ok hashf db -> file_len db < 2 ^ 31 ->
  (forall off, gi off < n_msgs db \/ n_msgs db = 0) ->
  exists F db', write_database db old = Ok F /\ N.of_nat (length F) = file_len db /\
    load hashf gi gm F = Ok db' /\ same_db db db' /\
    Forall (index_table (hashf (hash_key db'))) (tabs db') /\
    index_table2 (hashf (hash_key db')) (d_ids db').
Proof. exact db_roundtrip. Qed.
Print Assumptions C08_db_roundtrip_partial.

(* Without it the property fails: int_list_reader_copy leaves "highest" uninitialised for an empty
   list, and the assertion made with it on loading can stop the program. *)
Theorem C08_db_roundtrip_refuted : exists db gi F, db_ok ex_h db /\ file_len db < 2 ^ 31 /\
  write_database db [] = Ok F /\ forall gm, load ex_h gi gm F = Err E_assert.
Proof. exact roundtrip_refuted. Qed.
Print Assumptions C08_db_roundtrip_refuted.

(* C09.  Every store lies inside the file length computed beforehand, no two stores share a byte, and
   the finished file has that length. *)
Theorem C09_writer_in_bounds : forall hashf db old, db_ok hashf db -> file_len db < 2 ^ 31 ->
  exists ws F, write_trace db = Ok (ws, file_len db) /\
    Forall (fun w => snd (span w) <= file_len db) ws /\ ForallOrdPairs disjoint ws /\
    write_database db old = Ok F /\ N.of_nat (length F) = file_len db.
Proof. exact write_in_bounds. Qed.
Print Assumptions C09_writer_in_bounds.

(* C10.  Full statement: opening any bytes exits with status 2 or gives tables inside the file.  It
   fails for the message-type table and, by 32-bit wrap-around, for the other message tables. *)
Theorem C10_open_safe_refuted :
  (exists data r, open_db data = Ok r /\ N.of_nat (length data) < r_type r + r_n r) /\
  (exists data r, open_db data = Ok r /\ N.of_nat (length data) < 4 * r_path r + 4 * r_n r).
Proof. exact open_refuted. Qed.
Print Assumptions C10_open_safe_refuted.

(* What holds for every file: opening itself never reads outside the file, the word tables are inside
   it, and so are the message and mailbox tables whose end does not wrap. *)
Theorem C10_open_safe_partial : forall data,
  open_db data = Err (E_exit 2) \/
  exists r, open_db data = Ok r /\
    Forall (fun off => off + r_n r < 2 ^ 32 -> 4 * off + 4 * r_n r <= N.of_nat (length data))
      [r_path r; r_mtime r; r_size r; r_date r; r_tid r] /\
    Forall (fun off => off + r_nb r < 2 ^ 32 -> 4 * off + 4 * r_nb r <= N.of_nat (length data))
      [r_mbp r; r_mbe r; r_mbm r; r_mbs r; r_mbc r] /\
    Forall (fun t => 4 * t_tok t + 4 * t_n t <= N.of_nat (length data) /\
                     4 * t_enc t + 4 * t_n t <= N.of_nat (length data)) (r_tabs r) /\
    Forall (fun off => 4 * off + 4 * t2_n (r_ids r) <= N.of_nat (length data))
      [t2_tok (r_ids r); t2_enc0 (r_ids r); t2_enc1 (r_ids r)].
Proof. exact open_db_partial. Qed.
Print Assumptions C10_open_safe_partial.

(* C11.  Full statement: after stopping at any point of the write, the file holds the old or the new
   index.  It fails: stopping after k of the stores can leave a file that opens without complaint as an
   index equal to neither. *)
Theorem C11_crash_safe_refuted : exists old new F ws len k D db',
  db_ok ex_h old /\ db_ok ex_h new /\ write_database old [] = Ok F /\ write_trace new = Ok (ws, len) /\
  apply_writes (firstn k ws) (resize F (file_len new)) = Ok D /\
  load ex_h (fun _ => 0) 0 D = Ok db' /\ ~ same_db old db' /\ ~ same_db new db'.
Proof. exact crash_refuted. Qed.
Print Assumptions C11_crash_safe_refuted.

(* C42.  Mailbox and message numbers are recovered exactly, wherever they are stored, for every pair
   of non-negative ints; the size check refuses nothing. *)
Theorem C42_packing : forall pre post (mb ms : Z), (0 <= mb < 2 ^ 31)%Z -> (0 <= ms < 2 ^ 31)%Z ->
  decode_mbox_indices (pre ++ encode_mbox_indices (Z.to_N mb) (Z.to_N ms) ++ post) (N.of_nat (length pre)) =
    Ok (Z.to_N mb, Z.to_N ms).
Proof. exact packing_ints. Qed.
Print Assumptions C42_packing.
Theorem C42_size_check_refuses_nothing : forall n counts, verify_mbox_size_constraints n counts = true.
Proof. exact size_check_passes. Qed.
Print Assumptions C42_size_check_refuses_nothing.

(* C43.  The integrity check passes on every index whose message paths are distinct, whatever the
   uninitialised int of the check holds. *)
Theorem C43_integrity_accepts : forall hashf db idx, db_ok hashf db ->
  NoDup (file_paths db) -> NoDup (imap_paths db) -> check_database_integrity idx db = Ok tt.
Proof. exact integrity_accepts. Qed.
Print Assumptions C43_integrity_accepts.
(* When it passes, no list of a reachable word table names a missing message, and paths are distinct. *)
Theorem C43_integrity_rejects : forall hashf db idx t, In t (tabs db) -> index_table hashf t ->
  check_database_integrity idx db = Ok tt ->
  forall w m xs x, In (w, m) (entries t) -> lists m xs -> In x xs -> x < n_msgs db.
Proof. exact integrity_rejects. Qed.
Print Assumptions C43_integrity_rejects.
Theorem C43_integrity_paths : forall db idx, check_database_integrity idx db = Ok tt ->
  NoDup (file_paths db) /\ NoDup (imap_paths db).
Proof. exact paths_checked. Qed.
Print Assumptions C43_integrity_paths.

(* Concrete cases: an index with a file, a two-message mailbox, a purged mailbox, a dead message, an
   IMAP message and words in three tables. *)
Example C08_hypotheses : db_ok ex_h ex_db /\ file_len ex_db < 2 ^ 31 /\ (forall off : N, 0 < n_msgs ex_db \/ n_msgs ex_db = 0).
Proof. split; [exact ex_db_ok|]. split; [exact ex_db_size|]. intros _. left. now vm_compute. Qed.
Example C08_contents : map fst (entries (d_from ex_db)) = [bs "alice"; bs "bob"; bs "anna"] /\ n_msgs ex_db = 5.
Proof. split; now vm_compute. Qed.
Example C10_accepts : match write_database ex_db [] with Ok F => exists r, open_db F = Ok r /\ r_n r = 5 | Err _ => False end.
Proof.
  destruct (write_database ex_db []) as [F|] eqn:E; [|vm_compute in E; discriminate].
  destruct (open_db F) as [r|] eqn:E2.
  - exists r. split; [reflexivity|]. vm_compute in E. injection E as <-. vm_compute in E2. injection E2 as <-. now vm_compute.
  - vm_compute in E. injection E as <-. vm_compute in E2. discriminate.
Qed.
Example C42_large : decode_mbox_indices (bs "xy" ++ encode_mbox_indices 70000 2147483647 ++ bs "z") 2 = Ok (70000, 2147483647).
Proof. now vm_compute. Qed.
Example C43_passes : check_database_integrity (-1) ex_db = Ok tt /\ In (d_from ex_db) (tabs ex_db).
Proof. split; [now vm_compute|]. cbn. auto. Qed.
