(* Model of an indexing run: db.c 697-731 and 829-1060 (scanning new messages, matching the index
   against the folders), mbox.c 46-104, 409-505, 797-1034 (the same for mailboxes) and mairix.c 295-364,
   798-850 (the order in which main calls them). *)
From Verif Require Import Base M_Encoding M_TokTable M_DbFile M_Tokens M_Mbox M_Thread M_Purge.
From Verif Require M_Paths.
Local Open Scope N_scope.

(* What create_ro_mapping (rfc822.c 1309-1436) gives: the contents, an empty file, a file that cannot
   be opened or mapped, or a failed stat(), after which *len is unset. *)
Inductive mapped := Mapped (va : bytes) | Map_empty | Map_failed | Map_no_stat.

(* Everything the run takes from outside.  The file system does not change during the run. *)
Record world := {
  w_alnum : N -> bool;                            (* isalnum() *)
  w_hash : N -> bytes -> N;                       (* hashfn, by key *)
  w_from_ok : bytes -> bool;                      (* the recogniser of separator lines *)
  w_csum : bytes -> bytes;                        (* compute_checksum, mbox.c 106-114 *)
  w_parse : bytes -> option rfc822 * bool;        (* data_to_rfc822; true = DTR8_MISSING_END *)
  w_stat : bytes -> option (M_Paths.kind * N * N);   (* stat(): kind, mtime, size *)
  w_lstat : bytes -> option (bool * N * N);       (* lstat(): is it a symbolic link?, mtime, size *)
  w_map : bytes -> mapped;
  w_imap : bytes -> option rfc822;                (* make_rfc822_from_imap *)
  (* contents of memory that has been allocated and not written *)
  w_junk_msg : N -> msg;
  w_junk_sum : bytes }.

(* ---- the list of messages found on disc ---- *)

(* struct msgpath of the list; its type is MTY_FILE or MTY_IMAP.  mtime and size are filled in by
   do_stat immediately before each use, so they are not kept here. *)
Record found := { is_imap : bool; fpath : bytes }.
(* mairix.c 295-303 message_compare; MTY_FILE < MTY_IMAP (mairix.h 89-95) *)
Definition message_compare (a b : found) : comparison :=
  match is_imap a, is_imap b with
  | false, true => Lt
  | true, false => Gt
  | _, _ => bytes_cmp (fpath a) (fpath b)
  end.
(* qsort(): the order of elements that compare equal is not specified, but the program exits when
   there are any, so that one sort is as good as another. *)
Fixpoint insert {A} (cmp : A -> A -> comparison) (x : A) (l : list A) : list A :=
  match l with
  | [] => [x]
  | y :: l' => match cmp x y with Gt => y :: insert cmp x l' | _ => x :: l end
  end.
Definition qsort {A} (cmp : A -> A -> comparison) (l : list A) : list A := fold_right (insert cmp) [] l.
(* mairix.c 348-353, 354-359; mbox.c 495-500: are there equal neighbours? *)
Fixpoint twice (l : list bytes) : bool :=
  match l with
  | a :: (b :: _) as l' => bytes_eqb a b || twice l'
  | _ => false
  end.
(* mairix.c 319-364 check_message_list_for_duplicates *)
Definition duplicates (l : list found) : bool :=
  twice (qsort bytes_cmp (map fpath (filter (fun x => negb (is_imap x)) l))) ||
  twice (qsort bytes_cmp (map fpath (filter is_imap l))).

(* db.c 829-851 lookup_msgpath; None is -1.  [m] is the variable m, which is the result when the loop
   ends by itself. *)
Fixpoint lookup_loop (fuel : nat) (sp : list found) (key : found) (l h : nat) (m : option nat)
  : res (option nat) :=
  match fuel with
  | O => Err E_fuel
  | S f =>
    if (l <? h)%nat then
      let m := ((h + l) / 2)%nat in
      let! x := fetch (nth_error sp m) in
      match message_compare x key with
      | Eq => Ok (Some m)
      | c => if (l =? m)%nat then Ok None
             else match c with Gt => lookup_loop f sp key l m (Some m) | _ => lookup_loop f sp key m h (Some m) end
      end
    else Ok m
  end.
Definition lookup_msgpath (sp : list found) (key : found) : res (option nat) :=
  lookup_loop (S (length sp)) sp key 0 (length sp) None.

(* ---- mailboxes ---- *)

(* mbox.c 38-44 struct extant_mbox *)
Record extant := { e_path : bytes; e_mtime : N; e_size : N }.
Definition compare_extant_mboxen (a b : extant) : comparison := bytes_cmp (e_path a) (e_path b).
(* mbox.c 53-69 lookup_extant_mbox *)
Fixpoint lookup_box_loop (fuel : nat) (sp : list extant) (key : bytes) (l h : nat) (m : option nat)
  : res (option nat) :=
  match fuel with
  | O => Err E_fuel
  | S f =>
    if (l <? h)%nat then
      let m := ((h + l) / 2)%nat in
      let! x := fetch (nth_error sp m) in
      match bytes_cmp (e_path x) key with
      | Eq => Ok (Some m)
      | c => if (l =? m)%nat then Ok None
             else match c with Gt => lookup_box_loop f sp key l m (Some m) | _ => lookup_box_loop f sp key m h (Some m) end
      end
    else Ok m
  end.
Definition lookup_extant_mbox (sp : list extant) (key : bytes) : res (option nat) :=
  lookup_box_loop (S (length sp)) sp key 0 (length sp) None.

(* mbox.c 422-436 deaden_mbox; the freed arrays are empty here.  n_old_msgs_valid becomes 0. *)
Definition deaden_mbox (mb : mbox) : mbox :=
  {| mb_path := None; f_mtime := f_mtime mb; f_size := f_size mb; c_mtime := c_mtime mb; c_size := c_size mb;
     mb_n := 0; starts := []; lens := []; checks := [] |}.
Definition with_current (mb : mbox) (e : extant) : mbox :=
  {| mb_path := mb_path mb; f_mtime := f_mtime mb; f_size := f_size mb; c_mtime := e_mtime e; c_size := e_size e;
     mb_n := mb_n mb; starts := starts mb; lens := lens mb; checks := checks mb |}.
Definition with_n (mb : mbox) (n : N) : mbox :=
  {| mb_path := mb_path mb; f_mtime := f_mtime mb; f_size := f_size mb; c_mtime := c_mtime mb; c_size := c_size mb;
     mb_n := n; starts := starts mb; lens := lens mb; checks := checks mb |}.
(* mbox.c 88-98 *)
Definition new_mbox (e : extant) : mbox :=
  {| mb_path := Some (e_path e); f_mtime := 0; f_size := 0; c_mtime := e_mtime e; c_size := e_size e;
     mb_n := 0; starts := []; lens := []; checks := [] |}.
(* mbox.c 459-479: the mailboxes of the index; the list says which extant ones have been matched
   (db_index >= 0). *)
Fixpoint match_mboxen (ex : list extant) (mbs : list mbox) (known : list bool) : res (list mbox * list bool) :=
  match mbs with
  | [] => Ok ([], known)
  | mb :: mbs' =>
    let! o := match mb_path mb with None => Ok None | Some p => lookup_extant_mbox ex p end in
    let! (mb', known) := match o with
                         | None => Ok (deaden_mbox mb, known)
                         | Some k => let! e := fetch (nth_error ex k) in Ok (with_current mb e, set_nth known k true)
                         end in
    let! (r, known) := match_mboxen ex mbs' known in Ok (mb' :: r, known)
  end.
(* mbox.c 447-488 marry_up_mboxen, with 71-104 append_new_mboxen_to_db *)
Definition marry_up_mboxen (ex : list extant) (mbs : list mbox) : res (list mbox) :=
  let! (old, known) := match_mboxen ex mbs (map (fun _ => false) ex) in
  Ok (old ++ map (fun x => new_mbox (fst x)) (filter (fun x => negb (snd x)) (combine ex known))).

(* n_old_msgs_valid and new_msgs of a struct mbox *)
Record scan := { old_valid : N; new_msgs : list (N * N) }.

Section Run.
Variable W : world.

(* mbox.c 409-420 rescan_mbox, with 355-360 of build_new_message_list *)
Definition rescan_mbox (mb : mbox) (va : bytes) : res scan :=
  let! k := find_number_intact (w_csum W) mb va in
  let! after := (if k =? 0 then Ok None
                 else let! s := elem (starts mb) (k - 1) in let! l := elem (lens mb) (k - 1) in Ok (Some (s, l))) in
  let! ms := build_new_message_list (w_from_ok W) after va in
  Ok {| old_valid := k; new_msgs := ms |}.
(* mbox.c 868-888 *)
Definition refresh_mbox (mb : mbox) : res (mbox * scan) :=
  match mb_path mb with
  | None => Ok (mb, {| old_valid := 0; new_msgs := [] |})
  | Some p =>
    if (c_mtime mb =? f_mtime mb) && (c_size mb =? f_size mb) then Ok (mb, {| old_valid := mb_n mb; new_msgs := [] |})
    else match w_map W p with
         | Mapped va => let! s := rescan_mbox mb va in Ok (mb, s)
         | Map_empty => Ok (with_n mb 0, {| old_valid := 0; new_msgs := [] |})
         | Map_failed => Ok (deaden_mbox mb, {| old_valid := 0; new_msgs := [] |})
         | Map_no_stat => Err E_ub
         end
  end.
Fixpoint refresh_mboxen (mbs : list mbox) : res (list (mbox * scan)) :=
  match mbs with
  | [] => Ok []
  | mb :: mbs' => let! x := refresh_mbox mb in let! r := refresh_mboxen mbs' in Ok (x :: r)
  end.
(* mbox.c 828-846 *)
Definition extant_mboxen (symlinks : bool) (paths : list bytes) : list extant :=
  flat_map (fun p => match w_lstat W p with
                     | None => []
                     | Some (link, mt, sz) =>
                       if link && negb symlinks then [] else [{| e_path := p; e_mtime := mt; e_size := sz |}]
                     end) paths.
(* mbox.c 797-893 build_mbox_lists, from line 828 on; [paths] is what glob_and_expand_paths gave *)
Definition build_mbox_lists (symlinks : bool) (paths : list bytes) (mbs : list mbox) : res (list (mbox * scan)) :=
  let ex := qsort compare_extant_mboxen (extant_mboxen symlinks paths) in
  if twice (map e_path ex) then Err (E_exit 1)
  else let! mbs := marry_up_mboxen ex mbs in refresh_mboxen mbs.

(* ---- adding the words of a message ---- *)

(* add_token_in_file or add_token2_in_file (tok.c 251-343), message number i *)
Definition add_call (i : N) (c : dest * bytes) (db : database) : res database :=
  let h := w_hash W (hash_key db) in
  let w := snd c in
  match fst c with
  | D_to => let! t := add_token h init_matches upd1 (d_to db) w i in
      Ok {| msgs := msgs db; mboxen := mboxen db; hash_key := hash_key db; d_to := t; d_cc := d_cc db; d_from := d_from db;
            d_subject := d_subject db; d_body := d_body db; d_att := d_att db; d_ids := d_ids db |}
  | D_cc => let! t := add_token h init_matches upd1 (d_cc db) w i in
      Ok {| msgs := msgs db; mboxen := mboxen db; hash_key := hash_key db; d_to := d_to db; d_cc := t; d_from := d_from db;
            d_subject := d_subject db; d_body := d_body db; d_att := d_att db; d_ids := d_ids db |}
  | D_from => let! t := add_token h init_matches upd1 (d_from db) w i in
      Ok {| msgs := msgs db; mboxen := mboxen db; hash_key := hash_key db; d_to := d_to db; d_cc := d_cc db; d_from := t;
            d_subject := d_subject db; d_body := d_body db; d_att := d_att db; d_ids := d_ids db |}
  | D_subject => let! t := add_token h init_matches upd1 (d_subject db) w i in
      Ok {| msgs := msgs db; mboxen := mboxen db; hash_key := hash_key db; d_to := d_to db; d_cc := d_cc db; d_from := d_from db;
            d_subject := t; d_body := d_body db; d_att := d_att db; d_ids := d_ids db |}
  | D_body => let! t := add_token h init_matches upd1 (d_body db) w i in
      Ok {| msgs := msgs db; mboxen := mboxen db; hash_key := hash_key db; d_to := d_to db; d_cc := d_cc db; d_from := d_from db;
            d_subject := d_subject db; d_body := t; d_att := d_att db; d_ids := d_ids db |}
  | D_att => let! t := add_token h init_matches upd1 (d_att db) w i in
      Ok {| msgs := msgs db; mboxen := mboxen db; hash_key := hash_key db; d_to := d_to db; d_cc := d_cc db; d_from := d_from db;
            d_subject := d_subject db; d_body := d_body db; d_att := t; d_ids := d_ids db |}
  | D_ids own => let! t := add_token h (init_matches, init_matches) upd2 (d_ids db) w (i, own) in
      Ok {| msgs := msgs db; mboxen := mboxen db; hash_key := hash_key db; d_to := d_to db; d_cc := d_cc db; d_from := d_from db;
            d_subject := d_subject db; d_body := d_body db; d_att := d_att db; d_ids := t |}
  end.
Fixpoint add_calls (i : N) (cs : list (dest * bytes)) (db : database) : res database :=
  match cs with [] => Ok db | c :: cs' => let! db := add_call i c db in add_calls i cs' db end.
(* db.c 615-668 tokenise_message with its effect on the tables *)
Definition index_words (i : N) (r : rfc822) (db : database) : res database :=
  let! cs := tokenise_message (w_alnum W) r in add_calls i cs db.

(* ---- messages that are files ---- *)

Inductive stat_result := St_bad | St_file (mtime size : N) | St_dir.
(* db.c 885-906 do_stat *)
Definition do_stat (x : found) : stat_result :=
  if is_imap x then St_file 0 0
  else match w_stat W (fpath x) with
       | None => St_bad
       | Some (M_Paths.K_reg, mt, sz) => St_file mt sz
       | Some (M_Paths.K_dir, _, _) => St_dir
       | Some (M_Paths.K_other, _, _) => St_bad
       end.
(* db.c 933-971: the element of the sorted list that this entry agrees with *)
Definition find_on_disc (fast : bool) (sp : list found) (m : msg) : res (option nat) :=
  match src m with
  | S_file p mt _ =>
    let! o := lookup_msgpath sp {| is_imap := false; fpath := p |} in
    match o with
    | None => Ok None
    | Some k =>
      if fast then Ok (Some k)
      else let! x := fetch (nth_error sp k) in
           match do_stat x with
           | St_file mt' _ => if mt' =? mt then Ok (Some k) else Ok None
           | _ => Ok None
           end
    end
  | S_imap p => lookup_msgpath sp {| is_imap := true; fpath := p |}
  | S_mbox _ _ => Ok None
  | S_dead => Ok None
  end.
(* db.c 932-972: file_in_db and file_in_new_list *)
Fixpoint mark_present (fast : bool) (sp : list found) (ms : list msg) (in_db : list bool) : res (list bool * list bool) :=
  match ms with
  | [] => Ok (in_db, [])
  | m :: ms' =>
    let! o := find_on_disc fast sp m in
    let! (in_db, in_new) := mark_present fast sp ms' (match o with Some k => set_nth in_db k true | None => in_db end) in
    Ok (in_db, match o with Some _ => true | None => false end :: in_new)
  end.
(* db.c 977-1009: does this entry stay? *)
Definition stays (boxes : list (mbox * scan)) (m : msg) (in_new : bool) : res bool :=
  match src m with
  | S_file _ _ _ | S_imap _ => Ok in_new
  | S_mbox fi mi => match nth_error boxes (N.to_nat fi) with
                    | None => Err E_assert
                    | Some (mb, s) => Ok (has_path mb && (mi <? old_valid s))
                    end
  | S_dead => Ok true
  end.
(* The second result says whether any entry was marked dead (n_newly_pruned > 0). *)
Fixpoint weed (boxes : list (mbox * scan)) (ms : list msg) (in_new : list bool) : res (list msg * bool) :=
  match ms, in_new with
  | m :: ms', b :: in_new' =>
    let! st := stays boxes m b in
    let! (r, pruned) := weed boxes ms' in_new' in
    Ok ((if st then m else with_src m S_dead) :: r, negb st || pruned)
  | _, _ => Ok ([], false)
  end.
(* db.c 866-875 add_msg_path; the memset gives date, thread and flags zero *)
Definition new_entry (x : found) (mtime size : N) : msg :=
  {| src := if is_imap x then S_imap (fpath x) else S_file (fpath x) mtime size;
     date := 0; tid := 0; seen := false; replied := false; flagged := false |}.
(* db.c 1016-1041: the entries added *)
Fixpoint new_entries (sp : list found) (in_db : list bool) : list msg :=
  match sp, in_db with
  | x :: sp', b :: in_db' =>
    (if b then [] else match do_stat x with St_file mt sz => [new_entry x mt sz] | _ => [] end) ++ new_entries sp' in_db'
  | _, _ => []
  end.
(* rfc822.c 1462-1485 make_rfc822 *)
Definition make_rfc822 (p : bytes) : option rfc822 :=
  match w_map W p with Mapped va => fst (w_parse W va) | _ => None end.
(* db.c 701-704: does the path end in /.gitignore? *)
Definition ends_gitignore (p : bytes) : bool :=
  (10 <? length p)%nat && bytes_eqb (skipn (length p - 11) p) (bs "/.gitignore").
Definition with_flags (m : msg) (dt : N) (f : bool * bool * bool) : msg :=
  let '(s, r, fl) := f in {| src := src m; date := dt; tid := tid m; seen := s; replied := r; flagged := fl |}.
(* db.c 699-731, message i.  The date, a time_t, is only ever written to the file, as 32 bits. *)
Definition scan_message (i : N) (db : database) : res database :=
  let! m := fetch (nth_error (msgs db) (N.to_nat i)) in
  let! (p, parsed) := match src m with
                      | S_file p _ _ => Ok (p, make_rfc822 p)
                      | S_imap p => Ok (p, w_imap W p)
                      | S_dead | S_mbox _ _ => Err E_assert
                      end in
  if ends_gitignore p then Ok db
  else match parsed with
       | None => Ok db
       | Some (Rfc822 h atts) =>
         index_words i (Rfc822 h atts)
           (with_msgs db (set_nth (msgs db) (N.to_nat i) (with_flags m (u32_of_int (h_date h)) (scan_maildir_flags p))))
       end.
(* db.c 697-731 scan_new_messages: k messages from number i on *)
Fixpoint scan_new_messages (k : nat) (i : N) (db : database) : res database :=
  match k with O => Ok db | S k' => let! db := scan_message i db in scan_new_messages k' (i + 1) db end.

(* ---- messages in mailboxes ---- *)

(* mbox.c 964-978: parse from [start] to the end of the first chunk, of the second, ...  The result is
   the length, the parsed message and the chunks that remain; None when no attempt ended well. *)
Fixpoint try_parse (trials : N) (va : bytes) (start : N) (chunks : list (N * N))
  : res (option (N * option rfc822 * list (N * N))) :=
  match chunks with
  | [] => Ok None
  | (s, l) :: rest =>
    let len := s + l - start in
    let! text := fetch (sub va start len) in
    let (r8, missing_end) := w_parse W text in
    if missing_end then (if trials + 1 <? 100 then try_parse (trials + 1) va start rest else Ok None)
    else Ok (Some (len, r8, rest))
  end.
(* a[i] = v on an allocated array *)
Definition store {A} (a : list A) (i : N) (v : A) : res (list A) :=
  if i <? N.of_nat (length a) then Ok (set_nth a (N.to_nat i) v) else Err E_oob.
Definition with_arrays (mb : mbox) (st ln : list (option N)) (ck : list bytes) : mbox :=
  {| mb_path := mb_path mb; f_mtime := f_mtime mb; f_size := f_size mb; c_mtime := c_mtime mb; c_size := c_size mb;
     mb_n := mb_n mb; starts := st; lens := ln; checks := ck |}.
(* mbox.c 922-928: the three arrays have max_msgs elements *)
Definition grow_mbox (mb : mbox) (n : N) : mbox :=
  let more := N.to_nat (n - N.of_nat (length (starts mb))) in
  with_arrays mb (starts mb ++ repeat None more) (lens mb ++ repeat None more) (checks mb ++ repeat (w_junk_sum W) more).
(* mbox.c 931-1026: the chunks that are left, the next being message j of mailbox fi *)
Fixpoint add_chunks (fuel : nat) (fi : N) (va : bytes) (j : N) (chunks : list (N * N)) (mb : mbox) (db : database)
  : res (mbox * N * database) :=
  match fuel with
  | O => Err E_fuel
  | S f =>
    match chunks with
    | [] => Ok (mb, j, db)
    | (start, len1) :: rest1 =>
      let! tried := try_parse 0 va start chunks in
      let! (len, r8, rest) := match tried with
                              | Some x => Ok x
                              | None => let! text := fetch (sub va start len1) in Ok (len1, fst (w_parse W text), rest1)
                              end in
      let! text := fetch (sub va start len) in
      let! st := store (starts mb) j (Some start) in
      let! ln := store (lens mb) j (Some len) in
      let! ck := store (checks mb) j (w_csum W text) in
      let n := n_msgs db in
      let fresh := with_src (w_junk_msg W n) (S_mbox fi j) in
      let m := match r8 with
               | Some (Rfc822 h _) => with_flags fresh (u32_of_int (h_date h)) (h_seen h, h_replied h, h_flagged h)
               | None => fresh
               end in
      let db := with_msgs db (msgs db ++ [m]) in
      let! db := match r8 with Some r => index_words n r db | None => Ok db end in
      add_chunks f fi va (j + 1) rest (with_arrays mb st ln ck) db
    end
  end.
(* mbox.c 919-1031, mailbox fi *)
Definition add_box (fi : N) (mb : mbox) (s : scan) (db : database) : res (mbox * database) :=
  match new_msgs s with
  | [] => Ok (mb, db)
  | chunks =>
    match mb_path mb with
    | None => Err E_ub
    | Some p =>
      match w_map W p with
      | Mapped va =>
        let mb := grow_mbox mb (old_valid s + N.of_nat (length chunks)) in
        let! (mb, j, db) := add_chunks (S (length chunks)) fi va (old_valid s) chunks mb db in
        Ok (with_n mb j, db)
      | _ => Err (E_exit 1)
      end
    end
  end.
Fixpoint add_boxes (fi : N) (boxes : list (mbox * scan)) (db : database) : res (list mbox * database) :=
  match boxes with
  | [] => Ok ([], db)
  | (mb, s) :: boxes' =>
    let! (mb, db) := add_box fi mb s db in
    let! (r, db) := add_boxes (fi + 1) boxes' db in Ok (mb :: r, db)
  end.
(* mbox.c 906-1034 add_mbox_messages; the first result is any_new *)
Definition add_mbox_messages (boxes : list (mbox * scan)) (db : database) : res (bool * database) :=
  let! (mbs, db) := add_boxes 0 boxes db in
  Ok (existsb (fun b => match new_msgs (snd b) with [] => false | _ => true end) boxes, with_boxes db (msgs db) mbs).

(* db.c 908-1060 update_database *)
Definition update_database (fast : bool) (sp : list found) (boxes : list (mbox * scan)) (db : database)
  : res (bool * database) :=
  let! (in_db, in_new) := mark_present fast sp (msgs db) (map (fun _ => false) sp) in
  let! (old, pruned) := weed boxes (msgs db) in_new in
  let added := new_entries sp in_db in
  let any_new := existsb negb in_db in
  let start := n_msgs db in
  let db := with_msgs db (old ++ added) in
  let! db := (if any_new then scan_new_messages (length added) start db else Ok db) in
  let! (more, db) := add_mbox_messages boxes db in
  let! db := (if any_new || more then find_threading db else Ok db) in
  Ok (any_new || more || pruned, db).

(* mairix.c 811-835: from the messages found (in any order) and the mailbox paths to the updated index *)
Definition index_run (fast symlinks : bool) (msgs_found : list found) (mbox_paths : list bytes) (db : database)
  : res (bool * database) :=
  let sp := qsort message_compare msgs_found in
  if duplicates sp then Err (E_exit 2) else
  let! boxes := build_mbox_lists symlinks mbox_paths (mboxen db) in
  update_database fast sp boxes db.
(* db.c 196-230 new_database *)
Definition new_database (key : N) : database :=
  {| msgs := []; mboxen := []; hash_key := key; d_to := new_toktable; d_cc := new_toktable; d_from := new_toktable;
     d_subject := new_toktable; d_body := new_toktable; d_att := new_toktable; d_ids := new_toktable |}.
End Run.
