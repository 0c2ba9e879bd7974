(* What a search leaves behind: C33-C35, C46, C67-C70. *)
From Coq Require Import Permutation.
From Verif Require Import Base M_DbFile S_DbFile M_Tokens M_Search M_Paths M_Mbox M_Output S_Search S_Update S_Output L_DbFile5 L_DbFile7 L_Search6
  L_Output5 L_Output7 L_Output8 L_Output9 L_Output10.
Local Open Scope N_scope.

(* C33, for directories without ':' or messages with a flag. *)
Theorem C33_flags_partial : forall i dir in_new seen replied flagged p,
  mk_maildir_path i dir in_new seen replied flagged = Ok p ->
  seen || replied || flagged = true \/ ~ In (ch ":") dir ->
  scan_maildir_flags p = (seen, replied, flagged).
Proof. exact flags_back. Qed.
Print Assumptions C33_flags_partial.
(* C33 as stated is violated: with no flag set, what the directory's name says after ":2," counts. *)
Theorem C33_flags_refuted : exists p, mk_maildir_path 4 (bs "/m/a:2,S") true false false false = Ok p /\
  scan_maildir_flags p <> (false, false, false).
Proof. exact flags_lost. Qed.
Print Assumptions C33_flags_refuted.
Example C33_case : mk_maildir_path 12 (bs "/m/a:b") true true false true = Ok (bs "/m/a:b/new/123456789.12.mairix:2,FS").
Proof. now vm_compute. Qed.

(* C34.  Different results get different names. *)
Theorem C34_maildir : forall i j dir n1 s1 r1 f1 n2 s2 r2 f2 p q,
  mk_maildir_path i dir n1 s1 r1 f1 = Ok p -> mk_maildir_path j dir n2 s2 r2 f2 = Ok q -> i <> j -> p <> q.
Proof. exact maildir_differ. Qed.
Print Assumptions C34_maildir.
Theorem C34_mh : forall i j dir p q, mk_mh_path i dir = Ok p -> mk_mh_path j dir = Ok q -> i <> j -> p <> q.
Proof. exact mh_differ. Qed.
Print Assumptions C34_mh.
(* MH names are cleared by the next search. *)
Theorem C34_mh_cleared : forall i dir p d e, mk_mh_path i dir = Ok p -> name d dir = Some Dir -> name d p <> Some Dir ->
  prepare FT_mh false d dir = Ok e -> name e p = None.
Proof. exact mh_cleared. Qed.
Print Assumptions C34_mh_cleared.
(* "Exactly those" is violated: a file that no search could have written is removed too. *)
Theorem C34_exactly_refuted : exists o c,
  search_top ex_csum plain_file ex_imap false (fun _ => None) None false false ex_F (bs "/r") [bs "b:hello"] FT_mh ex_disc = Ok (o, c) /\
  name ex_disc (bs "/r/007") = Some (File 2) /\ (forall k, mk_mh_path k (bs "/r") <> Ok (bs "/r/007")) /\ name (o_disc o) (bs "/r/007") = None.
Proof. exact cleared_too. Qed.
Print Assumptions C34_exactly_refuted.
Example C34_case : mk_mh_path 11 (bs "/r") = Ok (bs "/r/12").
Proof. now vm_compute. Qed.

(* C35, for messages that are not a single byte other than a newline. *)
Theorem C35_file_partial : forall expand d q b, append_file_to_mbox expand d q = Ok b ->
  (forall c, map_file expand d q = Ok (Some [c]) -> c = 10) -> b = [] \/ ends_blank b.
Proof. exact file_blank. Qed.
Print Assumptions C35_file_partial.
Theorem C35_mboxmsg_partial : forall csum expand d F r i b w, append_mboxmsg_to_mbox csum expand d F r i = Ok (b, w) ->
  (forall q c, get_validated_mbox_msg csum expand d F r i = Ok (V_good q [c]) -> c = 10) -> b = [] \/ ends_blank b.
Proof. exact mboxmsg_blank. Qed.
Print Assumptions C35_mboxmsg_partial.
Theorem C35_refuted : exists o c i,
  search_top ex_csum plain_file ex_imap false (fun _ => None) None false false (file_of one_db) (bs "/r") [bs "b:word"] FT_mbox one_disc = Ok (o, c) /\
  name (o_disc o) (bs "/r") = Some (File i) /\ data (o_disc o) i <> [] /\ ~ ends_blank (data (o_disc o) i).
Proof. exact no_blank. Qed.
Print Assumptions C35_refuted.
Example C35_case : map_file plain_file ex_disc (bs "/m/new/1") = Ok (Some (bs "user mail")) /\
  append_file_to_mbox plain_file ex_disc (bs "/m/new/1") =
    Ok (bs "From mairix@mairix Mon Jan  1 12:34:56 1970" ++ [10] ++ bs "X-source-folder: /m/new/1" ++ [10] ++ bs "user mail" ++ [10; 10]).
Proof. split; now vm_compute. Qed.

(* C46.  For a message in a mailbox: nothing outside the file is read, and it counts as good exactly
   when the text now at its place has the recorded checksum. *)
Theorem C46_checksum : forall csum expand hashf db old F r d i x w st ln ck,
  db_ok hashf db -> write_database db old = Ok F -> open_db F = Ok r ->
  message db i = Some x -> indexed_at db x w st ln ck -> st < 2 ^ 31 -> ln < 2 ^ 31 -> maps_small expand d ->
  exists v, get_validated_mbox_msg csum expand d F r i = Ok v /\
    (forall w' t, v = V_good w' t <-> unchanged csum expand d db x w' t) /\
    (v = V_bad <-> changed csum expand d db x) /\
    (v = V_unmapped <-> forall w' t, ~ text_now expand d db x w' t).
Proof. exact checked_copy. Qed.
Print Assumptions C46_checksum.
(* So, unless two texts share a checksum, what is output is what was indexed. *)
Theorem C46_same_bytes : forall csum expand d db m w st ln t0 w' t,
  indexed_at db m w st ln (csum t0) -> unchanged csum expand d db m w' t -> (csum t = csum t0 -> t = t0) ->
  w' = w /\ t = t0 /\ exists b, map_file expand d w = Ok (Some b) /\ t0 = firstn (N.to_nat ln) (skipn (N.to_nat st) b).
Proof. exact same_bytes. Qed.
Print Assumptions C46_same_bytes.
Example C46_case : get_validated_mbox_msg ex_csum plain_file ex_disc ex_F (exp_db ex_db) 3 = Ok (V_good (bs "/m/box") text1) /\
  get_validated_mbox_msg (fun _ => repeat 1 16) plain_file ex_disc ex_F (exp_db ex_db) 3 = Ok V_bad.
Proof. split; now vm_compute. Qed.

(* C67.  Without --augment a search changes nothing outside the match folder. *)
Theorem C67_outside_kept : forall csum expand imap hard sd qsort threads F dir args ft d o code,
  (forall q l, qsort = Some q -> Permutation l (q l)) -> disc_ok d -> folder_real ft d dir ->
  search_top csum expand imap hard sd qsort threads false F dir args ft d = Ok (o, code) ->
  (forall p, ~ in_match_folder ft dir p -> name (o_disc o) p = name d p) /\ (forall i, i < fresh d -> data (o_disc o) i = data d i).
Proof. exact top_kept. Qed.
Print Assumptions C67_outside_kept.
(* With --augment it may destroy mail. *)
Theorem C67_augment_refuted : exists o c,
  search_top ex_csum plain_file ex_imap false (fun _ => None) None false true ex_F (bs "/r") [bs "heap"] FT_mh ex_disc1 = Ok (o, c) /\
  ~ in_match_folder FT_mh (bs "/r") (bs "/m/new/1") /\
  name ex_disc1 (bs "/m/new/1") = Some (File 0) /\ name (o_disc o) (bs "/m/new/1") = Some (File 0) /\
  data ex_disc1 0 = bs "user mail" /\ data (o_disc o) 0 <> bs "user mail".
Proof. exact augment_overwrites. Qed.
Print Assumptions C67_augment_refuted.

(* C68.  An mbox match folder holding messages in which no line begins with "From " is taken apart by
   the indexer into exactly these messages (each with the extra header and the newlines added), for
   any recogniser that accepts the separator line mairix writes. *)
Theorem C68_split_back_partial : forall from_ok l, (forall x, from_ok (skipn 5 from_line ++ x) = true) ->
  Forall (fun x => ~ In 10 (fst x) /\ no_from (snd x)) l ->
  let va := concat (map (fun x => mbox_record (fst x) (snd x)) l) in
  exists ms, build_new_message_list from_ok None va = Ok ms /\
    map (part va) ms = map (fun x => source_line (fst x) ++ snd x ++ mbox_terminate (snd x)) l.
Proof. exact results_back. Qed.
Print Assumptions C68_split_back_partial.
(* Such lines are not quoted, so one message may come back as two. *)
Theorem C68_refuted : exists ms, build_new_message_list only_mairix None (mbox_record (bs "/m/1") quoting) = Ok ms /\ length ms = 2%nat.
Proof. exact one_becomes_two. Qed.
Print Assumptions C68_refuted.
Example C68_case : (forall x, only_mairix (skipn 5 from_line ++ x) = true) /\
  (let va := mbox_record (bs "/m/1") (bs "a") ++ mbox_record (bs "/m/2") (bs "b" ++ [10]) in
   match build_new_message_list only_mairix None va with Ok ms => map (part va) ms | Err _ => [] end) =
  [bs "X-source-folder: /m/1" ++ [10] ++ bs "a" ++ [10]; bs "X-source-folder: /m/2" ++ [10] ++ bs "b" ++ [10; 10]].
Proof. split; [exact only_mairix_ok|now vm_compute]. Qed.

(* C69.  The match folder holds exactly the results. *)
Theorem C69_folder : forall csum expand imap hard sd hashf db old F r ft dir d,
  db_ok hashf db -> write_database db old = Ok F -> open_db F = Ok r -> disc_ok d ->
  places_small db -> maps_small expand d -> mail_apart ft dir d db ->
  forall qsort, (forall q l, qsort = Some q -> Permutation l (q l)) -> forall threads args l,
  ft = FT_maildir \/ ft = FT_mh -> folder_ready ft d dir -> search sd F r threads args = Ok l ->
  let l' := match qsort with Some q => q l | None => l end in
  exists o ps, search_top csum expand imap hard sd qsort threads false F dir args ft d = Ok (o, status l') /\
    Forall2 (fun i p => exists m, message db i = Some m /\ shows_message csum expand d db imap hard m (o_disc o) p /\
      (ft = FT_maildir -> maildir_entry dir m p)) l' ps /\
    NoDup ps /\ Forall (result_place ft dir) ps /\ (forall p, result_place ft dir p -> name (o_disc o) p <> None -> In p ps) /\
    says_matched (N.of_nat (length l')) (o_stdout o) /\
    (o_warned o = true <-> exists i m, In i l /\ message db i = Some m /\ changed csum expand d db m).
Proof. exact folder_main. Qed.
Print Assumptions C69_folder.
(* A copy is not the whole message: its last byte is missing. *)
Theorem C69_whole_copy_refuted : exists o c m t i,
  search_top ex_csum plain_file ex_imap false (fun _ => None) None false false ex_F (bs "/r") [bs "heap"] FT_maildir ex_disc = Ok (o, c) /\
  message ex_db 1 = Some m /\ unchanged ex_csum plain_file ex_disc ex_db m (bs "/m/box") t /\
  name (o_disc o) (bs "/r/cur/123456789.1.mairix:2,FS") = Some (File i) /\ forall s, data (o_disc o) i <> s ++ t.
Proof. exact last_byte_lost. Qed.
Print Assumptions C69_whole_copy_refuted.

(* C70.  An mbox match folder is the records of the results, and raw output their lines, in order. *)
Theorem C70_mbox : forall csum expand imap hard sd hashf db old F r ft dir d,
  db_ok hashf db -> write_database db old = Ok F -> open_db F = Ok r -> disc_ok d ->
  places_small db -> maps_small expand d -> mail_apart ft dir d db ->
  forall qsort, (forall q l, qsort = Some q -> Permutation l (q l)) -> forall threads args l,
  ft = FT_mbox -> folder_ready ft d dir -> search sd F r threads args = Ok l ->
  let l' := match qsort with Some q => q l | None => l end in
  exists o ino bs, search_top csum expand imap hard sd qsort threads false F dir args ft d = Ok (o, status l') /\
    name (o_disc o) dir = Some (File ino) /\ data (o_disc o) ino = concat bs /\
    Forall2 (fun i b => exists m, message db i = Some m /\ record_of csum expand d db imap m b) l' bs /\
    says_matched (N.of_nat (length l')) (o_stdout o) /\
    (o_warned o = true <-> exists i m, In i l /\ message db i = Some m /\ changed csum expand d db m).
Proof. exact mbox_main. Qed.
Print Assumptions C70_mbox.
Theorem C70_raw : forall csum expand imap hard sd hashf db old F r ft dir d,
  db_ok hashf db -> write_database db old = Ok F -> open_db F = Ok r ->
  places_small db ->
  forall qsort, (forall q l, qsort = Some q -> Permutation l (q l)) -> forall threads args l,
  ft = FT_raw -> search sd F r threads args = Ok l ->
  (forall m w st ln ck, In m (msgs db) -> indexed_at db m w st ln ck -> st + ln < 2 ^ 31) ->
  let l' := match qsort with Some q => q l | None => l end in
  exists o bs, search_top csum expand imap hard sd qsort threads false F dir args ft d = Ok (o, status l') /\
    o_disc o = d /\ o_stdout o = concat bs /\ Forall2 (fun i b => exists m, message db i = Some m /\ raw_line db m b) l' bs.
Proof. exact raw_all. Qed.
Print Assumptions C70_raw.
Example C67_C70_hypotheses : forall ft, db_ok ex_h ex_db /\ write_database ex_db [] = Ok ex_F /\ open_db ex_F = Ok (exp_db ex_db) /\ disc_ok ex_disc /\
  places_small ex_db /\ maps_small plain_file ex_disc /\ mail_apart ft (bs "/r") ex_disc ex_db /\ folder_ready ft ex_disc (bs "/r") /\
  folder_real ft ex_disc (bs "/r") /\ search no_dates ex_F (exp_db ex_db) false [bs "b:hello"] = Ok [0; 1; 4].
Proof.
  intros ft. split; [exact ex_db_ok|]. split; [exact (proj1 ex_written)|]. split; [exact (proj2 ex_written)|]. split; [exact ex_disc_ok|].
  split; [exact ex_places|]. split; [exact ex_disc_maps|]. split; [exact (ex_apart ft)|]. split; [exact (ex_ready ft)|].
  split; [exact (ready_real _ _ _ (ex_ready ft))|now vm_compute].
Qed.
Example C69_result : look (ex_search false FT_maildir false (bs "/r") [bs "b:hello"] ex_disc)
    [bs "/r/new/123456789.0.mairix:2,FS"; bs "/r/cur/123456789.1.mairix:2,FS"; bs "/r/cur/123456789.4.mairix:2,FS"; bs "/r/mine"] =
  Some ([(Some (Link (bs "/m/new/1")), None); (Some (File 3), Some (bs "X-source-folder: /m/box" ++ [10] ++ removelast text0));
         (Some (File 4), Some (bs "From: Anna")); (Some (File 2), Some (bs "notes"))], bs "Matched 3 messages" ++ [10], false, 0).
Proof. now vm_compute. Qed.
Example C70_result : look (ex_search false FT_raw false (bs "/r") [bs "b:hello"] ex_disc) [] =
    Some ([], bs "/m/new/1" ++ [10] ++ bs "mbox:/m/box [0,40)" ++ [10] ++ bs "&3:INBOX" ++ [10], false, 0) /\
  option_map (fun x => fst (fst x)) (look (ex_search false FT_mbox false (bs "/r") [bs "heap"] ex_disc) [bs "/r"]) =
    Some ([(Some (File 3), Some (bs "From mairix@mairix Mon Jan  1 12:34:56 1970" ++ [10] ++ bs "X-source-folder: /m/box" ++ [10] ++ text0 ++ [10]))],
          bs "Matched 1 messages" ++ [10]).
Proof. split; now vm_compute. Qed.
