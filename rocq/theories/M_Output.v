(* Model of what a search does with its results: search.c 560-762 and 1079-1330 (formats maildir, mh,
   mbox and raw; not excerpt and imap), the preparation of the match folder 1354-1492, and search_top
   1494-1558.  The file system is a small one of its own, written below; a path is an opaque string. *)
From Verif Require Import Base M_DbFile M_Search M_Paths.
Local Open Scope N_scope.

Definition bs_nl : bytes := [10].

(* ---- the file system ---- *)

(* What a name refers to.  Directories have no contents here: a file is in a directory if its path
   says so. *)
Inductive node := File (ino : N) | Link (target : bytes) | Dir.
(* names, contents of the inodes, and the next inode to be used.
   Simplified: two different paths are different directory entries (no "..", no "//", no links to
   directories in the middle of a path), and every operation that could be refused for lack of
   permission or space succeeds. *)
Record disc := { name : bytes -> option node; data : N -> bytes; fresh : N }.
Definition set_name (d : disc) (p : bytes) (n : option node) : disc :=
  {| name := fun q => if bytes_eqb q p then n else name d q; data := data d; fresh := fresh d |}.
Definition set_data (d : disc) (i : N) (b : bytes) : disc :=
  {| name := name d; data := fun j => if j =? i then b else data d j; fresh := fresh d |}.
(* The path up to and including its last '/'. *)
Fixpoint dir_part (p : bytes) : bytes :=
  match p with
  | [] => []
  | c :: p' => match dir_part p' with [] => if c =? 47 then [47] else [] | r => c :: r end
  end.
(* Following symbolic links; None is ELOOP. *)
Fixpoint resolve (k : nat) (d : disc) (p : bytes) : option bytes :=
  match name d p with
  | Some (Link t) => match k with
                     | O => None
                     | S k' => resolve k' d (match t with 47 :: _ => t | _ => dir_part p ++ t end)
                     end
  | _ => Some p
  end.
Definition max_links : nat := 40.
(* fopen for writing, without truncation: the inode, created empty if there is none. *)
Definition open_w (d : disc) (p : bytes) : option (N * disc) :=
  match resolve max_links d p with
  | None => None
  | Some q => match name d q with
              | Some (File i) => Some (i, d)
              | Some _ => None
              | None => let i := fresh d in
                  Some (i, {| name := name (set_name d q (Some (File i))); data := data (set_data d i []); fresh := i + 1 |})
              end
  end.
(* fopen(p, "wb"), fwrite, fclose; nothing happens if it cannot be opened *)
Definition write_file (d : disc) (p b : bytes) : disc :=
  match open_w d p with Some (i, d') => set_data d' i b | None => d end.
(* symlink() and link(); false is failure.  link() does not follow links. *)
Definition symlink (d : disc) (t p : bytes) : bool * disc :=
  match name d p with None => (true, set_name d p (Some (Link t))) | Some _ => (false, d) end.
Definition link (d : disc) (t p : bytes) : bool * disc :=
  match name d p, name d t with
  | None, Some (File i) => (true, set_name d p (Some (File i)))
  | None, Some (Link u) => (true, set_name d p (Some (Link u)))
  | _, _ => (false, d)
  end.
(* unlink(); refused for directories *)
Definition unlink (d : disc) (p : bytes) : disc :=
  match name d p with Some (File _) | Some (Link _) => set_name d p None | _ => d end.
(* stat(): the node after following links *)
Definition stat_node (d : disc) (p : bytes) : option node :=
  match resolve max_links d p with Some q => name d q | None => None end.

(* ---- names of result files ---- *)

(* sprintf "%d" of a number that is not negative *)
Fixpoint decimal (k : nat) (n : N) : bytes :=
  match k with
  | O => []
  | S k' => if n <? 10 then [48 + n] else decimal k' (n / 10) ++ [48 + n mod 10]
  end.
Definition show_int (n : N) : bytes := decimal (S (N.to_nat (N.size n))) n.
(* A string and its NUL written to an array of n bytes. *)
Definition fits (n : N) (s : bytes) : res bytes := if blen s <? n then Ok s else Err E_oob.

(* search.c 560-580 *)
Definition mk_maildir_path (token : N) (dir : bytes) (in_new seen replied flagged : bool) : res bytes :=
  let! uniq := fits 48 (bs "123456789." ++ show_int token ++ bs ".mairix") in
  fits (blen dir + 64 + 1 + 7)
    (dir ++ bs (if in_new then "/new/" else "/cur/")%string ++ uniq ++
     (if seen || replied || flagged then bs ":2," else []) ++
     (if flagged then bs "F" else []) ++ (if replied then bs "R" else []) ++ (if seen then bs "S" else [])).
(* search.c 582-595 *)
Definition mk_mh_path (token : N) (dir : bytes) : res bytes :=
  let! uniq := fits 11 (show_int (token + 1)) in
  fits (blen dir + 12) (dir ++ bs "/" ++ uniq).
(* search.c 597-612: s1, from the end, is the last '/' but one, which must not be the first character *)
Fixpoint last_slash (p : bytes) : option nat :=
  match p with
  | [] => None
  | c :: p' => match last_slash p' with Some k => Some (S k) | None => if c =? 47 then Some 0%nat else None end
  end.
Definition looks_like_maildir_new_p (p : bytes) : bool :=
  match last_slash p with
  | None | Some O => false
  | Some s2 => match last_slash (firstn s2 p) with
               | None | Some O => false
               | Some s1 => bytes_eqb (firstn 5 (skipn s1 p)) (bs "/new/")
               end
  end.

(* search.c 614-622: (!do_hardlinks && symlink() < 0) || link() *)
Definition create_symlink (hard : bool) (d : disc) (t p : bytes) : disc :=
  if hard then snd (link d t p)
  else let (ok, d') := symlink d t p in if ok then snd (link d' t p) else d'.

(* ---- contents of result files ---- *)

(* search.c 624-636, what is written after the message *)
Definition mbox_terminate (t : bytes) : bytes :=
  match rev t with
  | [] => bs_nl
  | [c] => if c =? 10 then [] else bs_nl
  | c :: c' :: _ => if negb (c =? 10) then bs_nl ++ bs_nl else if negb (c' =? 10) then bs_nl else []
  end.
Definition from_line : bytes := bs "From mairix@mairix Mon Jan  1 12:34:56 1970" ++ bs_nl.
Definition source_line (p : bytes) : bytes := bs "X-source-folder: " ++ p ++ bs_nl.

Section Output.
(* csum is compute_checksum (mbox.c 106-114); expand is what create_ro_mapping makes of the contents of
   a file of this name (decompression; None if that fails); imap fetches a message from the server;
   hard is do_hardlinks. *)
Context (csum : bytes -> bytes) (expand : bytes -> bytes -> option bytes) (imap : bytes -> option bytes) (hard : bool).

(* rfc822.c 1309-1400 create_ro_mapping: an empty file is not mapped.  A length of 2^31 or more does
   not fit the int. *)
Definition map_file (d : disc) (p : bytes) : res (option bytes) :=
  match stat_node d p with
  | Some (File i) => match expand p (data d i) with
                     | None | Some [] => Ok None
                     | Some b => if 2 ^ 31 <=? blen b then Err E_ub else Ok (Some b)
                     end
  | _ => Ok None
  end.

(* search.c 676-713 get_validated_mbox_msg *)
Inductive validated := V_unmapped | V_bad | V_good (path text : bytes).
Definition get_validated_mbox_msg (d : disc) (F : bytes) (r : read_db) (i : N) : res validated :=
  let! off := ui F (r_path r + i) in
  let! (mbi, msgi) := decode_mbox_indices F off in
  let! po := ui F (r_mbp r + mbi) in
  let! path := cstr F po in
  let! m := map_file d path in
  match m with
  | None => Ok V_unmapped
  | Some b =>
      let! start := ui F (r_mtime r + i) in
      let! size := ui F (r_size r + i) in
      let len := if blen b <=? start then 0
                 else if blen b <=? (start + size) mod 2 ^ 32 then blen b - start else size in
      let! text := if len =? 0 then Ok [] else fetch (sub b start len) in
      let! co := ui F (r_mbc r + mbi) in
      let! want := fetch (sub F (co + 16 * msgi) 16) in
      Ok (if bytes_eqb want (csum text) then V_good path text else V_bad)
  end.

(* search.c 737-762 try_copy_to_path; true if had_failed_checksum is set *)
Definition try_copy_to_path (d : disc) (F : bytes) (r : read_db) (i : N) (target : bytes) : res (disc * bool) :=
  let! v := get_validated_mbox_msg d F r i in
  Ok match v with
     | V_good path t => (write_file d target (source_line path ++ removelast t), false)
     | V_bad => (d, true)
     | V_unmapped => (d, false)
     end.
(* search.c 638-652, 715-735, 654-661: what is appended *)
Definition append_file_to_mbox (d : disc) (p : bytes) : res bytes :=
  let! m := map_file d p in
  Ok match m with Some t => from_line ++ source_line p ++ t ++ mbox_terminate t | None => [] end.
Definition append_mboxmsg_to_mbox (d : disc) (F : bytes) (r : read_db) (i : N) : res (bytes * bool) :=
  let! v := get_validated_mbox_msg d F r i in
  Ok match v with
     | V_good path t => (from_line ++ source_line path ++ t ++ mbox_terminate t, false)
     | V_bad => ([], true)
     | V_unmapped => ([], false)
     end.
Definition append_data_to_mbox (t : bytes) : bytes := from_line ++ t ++ bs_nl.

(* ---- one result ---- *)

(* search.c 773-778 get_flags_from_file: (seen, replied, flagged) *)
Definition get_flags (F : bytes) (r : read_db) (i : N) : res (bool * bool * bool) :=
  let! b := type_and_flags F r i in
  Ok (negb (N.land b 8 =? 0), negb (N.land b 16 =? 0), negb (N.land b 32 =? 0)).
Definition path_at (F : bytes) (r : read_db) (i : N) : res bytes := let! off := ui F (r_path r + i) in cstr F off.
(* GET_IMAP, imap_fetch_message_raw with write_to_file (662-672) *)
Definition fetch_to (d : disc) (p target : bytes) : disc :=
  match imap p with Some t => write_file d target t | None => d end.

(* search.c 1086-1119 *)
Definition to_maildir (F : bytes) (r : read_db) (dir : bytes) (d : disc) (i : N) : res (disc * bool) :=
  let! (fl, flagged) := get_flags F r i in let '(seen, replied) := fl in
  let! ty := rd_msg_type F r i in
  if ty =? 1 then
    let! p := path_at F r i in
    let! t := mk_maildir_path i dir (looks_like_maildir_new_p p) seen replied flagged in
    Ok (create_symlink hard d p t, false)
  else if ty =? 3 then
    let! t := mk_maildir_path i dir false seen replied flagged in
    let! p := path_at F r i in Ok (fetch_to d p t, false)
  else if ty =? 2 then
    let! t := mk_maildir_path i dir (negb seen) seen replied flagged in
    try_copy_to_path d F r i t
  else Ok (d, false).
(* search.c 1122-1149; ii is the position among the results *)
Definition to_mh (F : bytes) (r : read_db) (dir : bytes) (d : disc) (ii i : N) : res (disc * bool) :=
  let! ty := rd_msg_type F r i in
  if ty =? 1 then
    let! t := mk_mh_path ii dir in
    let! p := path_at F r i in Ok (create_symlink hard d p t, false)
  else if ty =? 3 then
    let! t := mk_mh_path ii dir in
    let! p := path_at F r i in Ok (fetch_to d p t, false)
  else if ty =? 2 then
    let! t := mk_mh_path ii dir in try_copy_to_path d F r i t
  else Ok (d, false).
(* search.c 1162-1181 *)
Definition to_mbox (F : bytes) (r : read_db) (d : disc) (i : N) : res (bytes * bool) :=
  let! ty := rd_msg_type F r i in
  if ty =? 1 then
    let! p := path_at F r i in let! o := append_file_to_mbox d p in Ok (o, false)
  else if ty =? 3 then
    let! p := path_at F r i in
    Ok (match imap p with Some t => append_data_to_mbox t | None => [] end, false)
  else if ty =? 2 then append_mboxmsg_to_mbox d F r i
  else Ok ([], false).
(* search.c 1189-1212; start and len are ints, and so is their sum.  Negative values are not modelled. *)
Definition to_raw (F : bytes) (r : read_db) (i : N) : res bytes :=
  let! ty := rd_msg_type F r i in
  if (ty =? 1) || (ty =? 3) then
    let! p := path_at F r i in Ok (p ++ bs_nl)
  else if ty =? 2 then
    let! start := ui F (r_mtime r + i) in
    let! len := ui F (r_size r + i) in
    if (2 ^ 31 <=? start) || (2 ^ 31 <=? len) || (2 ^ 31 <=? start + len) then Err E_ub else
    let! off := ui F (r_path r + i) in
    let! (mbi, msgi) := decode_mbox_indices F off in
    let! po := ui F (r_mbp r + mbi) in
    let! path := cstr F po in
    Ok (bs "mbox:" ++ path ++ bs " [" ++ show_int start ++ bs "," ++ show_int (start + len) ++ bs ")" ++ bs_nl)
  else Ok [].

(* ---- all results ---- *)

(* the disc afterwards, what went to standard output, and had_failed_checksum *)
Record outcome := { o_disc : disc; o_stdout : bytes; o_warned : bool }.
Fixpoint each_result (f : disc -> N -> N -> res (disc * bool)) (d : disc) (w : bool) (ii : N) (l : list N) : res (disc * bool) :=
  match l with
  | [] => Ok (d, w)
  | i :: l' => let! (d', w') := f d ii i in each_result f d' (w || w') (ii + 1) l'
  end.
Fixpoint each_text (f : N -> res (bytes * bool)) (l : list N) : res (bytes * bool) :=
  match l with
  | [] => Ok ([], false)
  | i :: l' => let! (b, w) := f i in let! (b', w') := each_text f l' in Ok (b ++ b', w || w')
  end.
Inductive folder_type := FT_maildir | FT_mh | FT_mbox | FT_raw.
(* search.c 1338-1342 *)
Definition matched (l : list N) : bytes := bs "Matched " ++ show_int (N.of_nat (length l)) ++ bs " messages" ++ bs_nl.
(* search.c 1084-1330, given results[].  For mbox the messages are read before what is appended
   reaches the file. *)
Definition output (F : bytes) (r : read_db) (ft : folder_type) (dir : bytes) (d : disc) (results : list N) : res outcome :=
  match ft with
  | FT_maildir => let! (d', w) := each_result (fun d _ i => to_maildir F r dir d i) d false 0 results in
                  Ok {| o_disc := d'; o_stdout := matched results; o_warned := w |}
  | FT_mh => let! (d', w) := each_result (to_mh F r dir) d false 0 results in
             Ok {| o_disc := d'; o_stdout := matched results; o_warned := w |}
  | FT_mbox => match open_w d dir with
               | None => Err (E_exit 1)
               | Some (ino, d') =>
                   let! (b, w) := each_text (to_mbox F r d') results in
                   Ok {| o_disc := set_data d' ino (data d' ino ++ b); o_stdout := matched results; o_warned := w |}
               end
  | FT_raw => let! (b, _) := each_text (fun i => let! s := to_raw F r i in Ok (s, false)) results in
              Ok {| o_disc := d; o_stdout := b; o_warned := false |}
  end.

(* ---- the match folder ---- *)

(* search.c 1354-1370 and 1371-1379: an existing directory is used, anything else of that name is
   removed and the directory made; exit 2 if mkdir fails.  Simplified: the directory above exists. *)
Definition ensure_dir (d : disc) (p : bytes) : res disc :=
  match stat_node d p with
  | Some Dir => Ok d
  | s => let d' := match s with Some _ => unlink d p | None => d end in
         match name d' p with None => Ok (set_name d' p (Some Dir)) | Some _ => Err (E_exit 2) end
  end.
(* search.c 1380-1413 *)
Definition maybe_create_maildir (d : disc) (p : bytes) : res disc :=
  let! d := ensure_dir d p in
  let! d := ensure_dir d (p ++ bs "/cur") in
  let! d := ensure_dir d (p ++ bs "/new") in
  ensure_dir d (p ++ bs "/tmp").
(* search.c 1414-1492: every name of the directory that [which] selects and that is a link or a regular
   file is unlinked.  Simplified: readdir returns every name. *)
Definition name_in (dir p : bytes) : option bytes :=
  if bytes_eqb (firstn (length dir + 1) p) (dir ++ bs "/") then
    let n := skipn (length dir + 1) p in
    if existsb (N.eqb 47) n then None else match n with [] => None | _ => Some n end
  else None.
Definition clear_dir (which : bytes -> bool) (d : disc) (dir : bytes) : disc :=
  match stat_node d dir with
  | Some Dir => {| name := fun p => match name_in dir p with
                                     | Some n => if which n then match name d p with Some Dir => Some Dir | _ => None end
                                                 else name d p
                                     | None => name d p end;
                   data := data d; fresh := fresh d |}
  | _ => d
  end.
Definition clear_maildir_subfolder (d : disc) (p : bytes) (sub : bytes) : disc := clear_dir (fun _ => true) d (p ++ bs "/" ++ sub).
Definition clear_mh_folder : disc -> bytes -> disc := clear_dir valid_mh_filename_p.

(* search.c 1494-1558 search_top.  qsort is the C function with db_date_cmp. *)
Definition prepare (ft : folder_type) (augment : bool) (d : disc) (dir : bytes) : res disc :=
  let! d := match ft with
            | FT_maildir => maybe_create_maildir d dir
            | FT_mh => ensure_dir d dir
            | FT_mbox | FT_raw => Ok d
            end in
  Ok (if augment then d else
      match ft with
      | FT_maildir => clear_maildir_subfolder (clear_maildir_subfolder d dir (bs "new")) dir (bs "cur")
      | FT_mh => clear_mh_folder d dir
      | FT_mbox => unlink d dir
      | FT_raw => d
      end).
Definition search_top (sd : bytes -> option (option Z * option Z)) (qsort : option (list N -> list N)) (threads augment : bool) (F : bytes)
    (dir : bytes) (args : list bytes) (ft : folder_type) (d : disc) : res (outcome * N) :=
  let! r := open_db F in
  let! d := prepare ft augment d dir in
  let! l := search sd F r threads args in
  let l := match qsort with Some q => q l | None => l end in
  let! o := output F r ft dir d l in
  Ok (o, status l).
End Output.
