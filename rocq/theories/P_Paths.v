(* Folder settings: C44, C52, C53, C54. *)
From Verif Require Import Base M_Glob S_Glob M_Paths S_Paths L_Paths L_Paths2 L_Paths3.
Local Open Scope N_scope.

(* C52.  Any list of folder entries, with any omit patterns, selects exactly the folders S_Paths
   describes, for mbox, maildir and MH.  fs_ok bounds the nesting of directories by fuel. *)
Theorem C52_folders : forall f k pats fuel base es, fs_ok f fuel -> c_string base -> pats_ok pats -> entries_ok es ->
  exists o l, omit_globs (omit_text pats) = Ok o /\
    folders_of f (methods_of k) o fuel base (colon_list (map show_entry es)) = Ok l /\
    forall q, In q l <-> exists e, In e es /\ selected f k pats base e q.
Proof. exact folders_exact. Qed.
Print Assumptions C52_folders.
Example C52_example : fs_ok ex_fs 21 /\ c_string (bs "/m") /\ pats_ok [p_spam] /\ entries_ok [e_bulk] /\
  map (fun k => folders_of ex_fs (methods_of k) None 21 (bs "/m") (bs "bulk...:m*...:i?:nowhere")) [F_mbox; F_maildir; F_mh] =
  [Ok (map bs ["/m/bulk/spam/2005"; "/m/bulk/spam2005"; "/m/bulk/list"; "/m/md/new/1"; "/m/in"]%string); Ok [bs "/m/md"]; Ok []].
Proof.
  split; [exact ex_fs_ok|]. split; [repeat constructor|]. split; [exact spam_pats_ok|]. split; [|vm_compute; reflexivity].
  split; [discriminate|]. constructor; [exact bulk_ok|constructor].
Qed.

(* C53.  Full statement: an omit pattern removes only folders whose path it matches.  With bulk... and
   bulk/spam*, which does not match bulk/spam/2005, that mbox is not indexed: the directory above it
   is left out as a whole. *)
Theorem C53_omit_refuted : exists o, omit_globs (omit_text [p_spam]) = Ok o /\
  folders_of ex_fs mbox_methods o 21 (bs "/m") (bs "bulk...") = Ok [bs "/m/bulk/list"] /\
  show_pattern p_spam = bs "bulk/spam*" /\ a_file ex_fs (bs "/m/bulk/spam/2005") /\ ~ gmatch p_spam (bs "bulk/spam/2005").
Proof. exact spam_refuted. Qed.
Print Assumptions C53_omit_refuted.

(* C44.  If the match folder is one of the selected folders, or the same file under another path, a
   search that writes a folder is refused with status 3. *)
Theorem C44_mfolder : forall f pats fuel base, fs_ok f fuel -> c_string base -> pats_ok pats ->
  forall maildirs mhs mboxen out mfolder, setting_ok maildirs -> setting_ok mhs -> setting_ok mboxen ->
  out = O_maildir \/ out = O_mh \/ out = O_mbox ->
  (exists k e p, In e (match k with F_maildir => maildirs | F_mh => mhs | F_mbox => mboxen end) /\ selected f k pats base e p /\
     same_file f (complete_mfolder base mfolder) p) ->
  exists o, omit_globs (omit_text pats) = Ok o /\
    mfolder_check f o fuel base (setting maildirs) (setting mhs) (setting mboxen) out mfolder = Err (E_exit 3).
Proof. exact guard. Qed.
Print Assumptions C44_mfolder.
Example C44_example : setting_ok [e_bulk] /\ selected ex_fs F_mbox [] (bs "/m") e_bulk (bs "/m/bulk/list") /\
  same_file ex_fs (complete_mfolder (bs "/m") (bs "bulk/list")) (bs "/m/bulk/list") /\ mfolder_check ex_fs None 21 (bs "/m") None None (Some (bs "bulk...")) O_mbox (bs "bulk/list") = Err (E_exit 3) /\
  mfolder_check ex_fs None 21 (bs "/m") None None (Some (bs "bulk...")) O_mbox (bs "found") = Ok tt.
Proof.
  split; [constructor; [exact bulk_ok|constructor]|]. split; [exact bulk_list_selected|]. split; [left; reflexivity|].
  split; vm_compute; reflexivity.
Qed.

(* C44, the other way: a match folder that shares neither path nor inode number with a selected folder
   is accepted.  (The code compares inode numbers without devices, so a folder on another device can be
   refused by coincidence.) *)
Theorem C44_mfolder_accepted : forall f pats fuel base, fs_ok f fuel -> c_string base -> pats_ok pats ->
  forall maildirs mhs mboxen out mfolder, setting_ok maildirs -> setting_ok mhs -> setting_ok mboxen ->
  (forall k e p, In e (match k with F_maildir => maildirs | F_mh => mhs | F_mbox => mboxen end) -> selected f k pats base e p ->
     complete_mfolder base mfolder <> p /\
     forall x y, stat f (complete_mfolder base mfolder) = Some x -> stat f p = Some y -> st_ino x <> st_ino y) ->
  exists o, omit_globs (omit_text pats) = Ok o /\
    mfolder_check f o fuel base (setting maildirs) (setting mhs) (setting mboxen) out mfolder = Ok tt.
Proof. exact guard_passes. Qed.
Print Assumptions C44_mfolder_accepted.
Example C44_accepted_example : setting_ok [e_bulk] /\
  (forall k e p, In e (match k with F_maildir => [] | F_mh => [] | F_mbox => [e_bulk] end) -> selected ex_fs k [] (bs "/m") e p ->
     complete_mfolder (bs "/m") (bs "md") <> p /\
     forall x y, stat ex_fs (complete_mfolder (bs "/m") (bs "md")) = Some x -> stat ex_fs p = Some y -> st_ino x <> st_ino y).
Proof. split; [constructor; [exact bulk_ok|constructor]|]. intros k e p I. apply bulk_accepts. now destruct k. Qed.

(* C54.  The message files of a maildir folder and of an MH folder. *)
Theorem C54_maildir : forall f folder q, In q (maildir_messages f folder) <->
  exists sub n, (sub = bs "new" \/ sub = bs "cur") /\ listed f (below folder sub) n /\ q = below (below folder sub) n.
Proof. exact maildir_files. Qed.
Print Assumptions C54_maildir.
Theorem C54_mh : forall f folder q, In q (mh_messages f folder) <-> exists n, listed f folder n /\ mh_name n /\ q = below folder n.
Proof. exact mh_files. Qed.
Print Assumptions C54_mh.
Example C54_example : maildir_messages ex_fs (bs "/m/md") = [bs "/m/md/new/1"] /\
  mh_messages (fs_of [d_ "/h"%string 1 ["1"; "22."; "2x"; ".3"; ""]%string]) (bs "/h") = [bs "/h/1"; bs "/h/22."].
Proof. split; vm_compute; reflexivity. Qed.
