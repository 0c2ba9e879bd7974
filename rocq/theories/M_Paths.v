(* From the folder settings to folders and message files: mbox.c 507-795, dirscan.c 77-384,
   mairix.c 88-136 and 735-770.  The file system is what stat and opendir/readdir report. *)
From Verif Require Import Base M_Search M_Glob.
Local Open Scope N_scope.

Inductive kind := K_reg | K_dir | K_other.
Record stat_t := { st_kind : kind; st_dev : N; st_ino : N }.
(* stat: None is a failure.  ls: None is a failing opendir, otherwise the names in the order
   readdir gives them. *)
Record fs := { stat : bytes -> option stat_t; ls : bytes -> option (list bytes) }.
Definition is_reg (s : stat_t) : bool := match st_kind s with K_reg => true | _ => false end.
Definition is_dir (s : stat_t) : bool := match st_kind s with K_dir => true | _ => false end.
(* strcpy, strcat "/", strcat *)
Definition child (p n : bytes) : bytes := p ++ [47] ++ n.
Definition dots (n : bytes) : bool := bytes_eqb n (bs ".") || bytes_eqb n (bs "..").

(* mairix.h struct traverse_methods.  No scrutinize function returns TRAV_FINISH; true is TRAV_PROCESS. *)
Record methods := { m_filter : fs -> bytes -> stat_t -> bool; m_scrut : bool -> bytes -> bool }.

(* dirscan.c 180-206 *)
Definition has_child_file (f : fs) (p n : bytes) : bool := match stat f (child p n) with Some s => is_reg s | None => false end.
Definition has_child_dir (f : fs) (p n : bytes) : bool := match stat f (child p n) with Some s => is_dir s | None => false end.
(* dirscan.c 208-239 *)
Definition maildir_methods : methods := {|
  m_filter := fun f p s => is_dir s && (has_child_dir f p (bs "new") && has_child_dir f p (bs "tmp") && has_child_dir f p (bs "cur"));
  m_scrut := fun parent n => if parent then negb (bytes_eqb n (bs "new") || bytes_eqb n (bs "cur") || bytes_eqb n (bs "tmp")) else true |}.
(* dirscan.c 116-132 valid_mh_filename_p *)
Fixpoint mh_digits (s : bytes) : bool :=
  match s with
  | [] => true
  | c :: s' => if isdigit c then mh_digits s' else (c =? 46) && match s' with [] => true | _ => false end
  end.
Definition valid_mh_filename_p (s : bytes) : bool := match s with [] => false | _ => mh_digits s end.
(* dirscan.c 241-287 *)
Definition mh_markers : list bytes := [bs ".xmhcache"; bs ".mh_sequences"; bs ".sylpheed_cache"; bs ".sylpheed_mark";
  bs ".claws_cache"; bs ".claws_mark"; bs ".marks"; bs ".overview"; bs "cmeta"; bs "summary"; bs ".mew-summary"; bs "index"].
Definition mh_methods : methods := {|
  m_filter := fun f p s => is_dir s && existsb (has_child_file f p) mh_markers;
  m_scrut := fun _ n => negb (valid_mh_filename_p n) |}.
(* mbox.c 679-697 *)
Definition mbox_methods : methods := {| m_filter := fun _ _ s => is_reg s; m_scrut := fun _ _ => true |}.

Section Expand.
Context (f : fs) (m : methods) (omit : option (list globber)).

(* is_globber_array_match(omit_globs, path + base_len) *)
Definition omitted (base_len : nat) (p : bytes) : bool := is_globber_array_match omit (skipn base_len p).
(* mbox.c 518-536 append_shallow: what is appended, and whether anything was *)
Definition append_shallow (bl : nat) (p : bytes) (s : stat_t) : list bytes :=
  if m_filter m f p s && negb (omitted bl p) then [p] else [].
Definition nonempty {A} (l : list A) : bool := match l with [] => false | _ => true end.
(* mbox.c 556-590: one name read from the directory p *)
Definition deep_entry (deep : bytes -> stat_t -> res (list bytes)) (bl : nat) (p : bytes) (this : bool) (n : bytes) : res (list bytes) :=
  if dots n then Ok [] else
  let x := child p n in
  if omitted bl x then Ok [] else
  if m_scrut m this n then
    match stat f x with
    | Some s => match st_kind s with
                | K_reg => Ok (append_shallow bl x s)
                | K_dir => deep x s
                | K_other => Ok []
                end
    | None => Ok []
    end
  else Ok [].
Fixpoint deep_entries (deep : bytes -> stat_t -> res (list bytes)) (bl : nat) (p : bytes) (this : bool) (ns : list bytes) : res (list bytes) :=
  match ns with
  | [] => Ok []
  | n :: ns' => let! a := deep_entry deep bl p this n in let! b := deep_entries deep bl p this ns' in Ok (a ++ b)
  end.
(* mbox.c 538-600 append_deep.  fuel bounds the depth: with directory loops the C function also
   recurses until stat fails. *)
Fixpoint append_deep (fuel : nat) (bl : nat) (p : bytes) (s : stat_t) : res (list bytes) :=
  match fuel with
  | O => Err E_fuel
  | S fuel' =>
    let this := append_shallow bl p s in
    if is_dir s then
      match ls f p with
      | Some ns => let! l := deep_entries (append_deep fuel' bl) bl p (nonempty this) ns in Ok (this ++ l)
      | None => Ok this
      end
    else Ok this
  end.
(* mbox.c 602-660 handle_wild: dir is temp_path *)
Fixpoint wild_entries (append : bytes -> stat_t -> res (list bytes)) (g : globber) (bl : nat) (dir : bytes) (ns : list bytes) : res (list bytes) :=
  match ns with
  | [] => Ok []
  | n :: ns' =>
    let! a := if dots n then Ok [] else if is_glob_match g n then
                if omitted bl (child dir n) then Ok [] else
                match stat f (child dir n) with Some s => append (child dir n) s | None => Ok [] end
              else Ok [] in
    let! b := wild_entries append g bl dir ns' in
    Ok (a ++ b)
  end.
Definition handle_wild (append : bytes -> stat_t -> res (list bytes)) (bl : nat) (dir comp : bytes) : res (list bytes) :=
  let! g := make_globber comp in
  match ls f dir with Some ns => wild_entries append g bl dir ns | None => Ok [] end.
(* mbox.c 662-677 handle_single *)
Definition handle_single (append : bytes -> stat_t -> res (list bytes)) (p : bytes) : res (list bytes) :=
  match stat f p with Some s => append p s | None => Ok [] end.
(* mbox.c 698-713 is_wild *)
Definition is_wild (s : bytes) : bool := existsb (fun c => (c =? 91) || (c =? 42) || (c =? 63)) s.
(* mbox.c 507-516 find_last_slash: the text before and after it *)
Fixpoint last_slash (s : bytes) : option (bytes * bytes) :=
  match s with
  | [] => None
  | c :: s' => match last_slash s' with
               | Some (a, b) => Some (c :: a, b)
               | None => if c =? 47 then Some ([], s') else None
               end
  end.
Definition shallow (bl : nat) (p : bytes) (s : stat_t) : res (list bytes) := Ok (append_shallow bl p s).
(* mbox.c 741-752: is_abs, full_path and base_len *)
Definition is_abs (path : bytes) : bool := match path with c :: _ => c =? 47 | [] => false end.
Definition full_path (base path : bytes) : bytes := if is_abs path then path else child base path.
Definition base_len_of (base path : bytes) : nat := if is_abs path then 0%nat else S (length base).
(* mbox.c 716-775 handle_one_path.  Both kinds of full_path contain a '/'; "." stands for temp_path
   when there is none. *)
Definition handle_one_path (fuel : nat) (base path : bytes) : res (list bytes) :=
  let full := full_path base path in
  let bl := base_len_of base path in
  let len := length full in
  let dotted := (4 <=? len)%nat && bytes_eqb (skipn (len - 3) full) (bs "...") in
  let full := if dotted then firstn (len - 3) full else full in
  let append := if dotted then append_deep fuel bl else shallow bl in
  match last_slash full with
  | Some (dir, comp) => if is_wild comp then handle_wild append bl dir comp else handle_single append full
  | None => if is_wild full then handle_wild append bl (bs ".") full else handle_single append full
  end.
(* mbox.c 778-795 glob_and_expand_paths *)
Fixpoint glob_and_expand_paths (fuel : nat) (base : bytes) (paths : list bytes) : res (list bytes) :=
  match paths with
  | [] => Ok []
  | p :: ps => let! a := handle_one_path fuel base p in let! b := glob_and_expand_paths fuel base ps in Ok (a ++ b)
  end.
End Expand.

(* The folders named by a setting: split_on_colons, then glob_and_expand_paths (dirscan.c 361-370,
   mairix.c 98-108, mbox.c 812-813). *)
Definition folders_of (f : fs) (m : methods) (omit : option (list globber)) (fuel : nat) (base folders : bytes) : res (list bytes) :=
  let! l := split_on_colons folders in glob_and_expand_paths f m omit fuel base l.

(* mairix.c 697-701: the omit setting, None when there is none *)
Definition omit_globs (omit : option bytes) : res (option (list globber)) :=
  match omit with
  | Some s => let! gs := colon_sep_string_to_globber_array s in Ok (Some gs)
  | None => Ok None
  end.
(* dirscan.c 77-114 get_maildir_message_paths: names only *)
Definition maildir_messages (f : fs) (folder : bytes) : list bytes :=
  flat_map (fun sub => let d := child folder sub in
    match ls f d with Some ns => map (child d) (filter (fun n => negb (dots n)) ns) | None => [] end) [bs "new"; bs "cur"].
(* dirscan.c 134-160 get_mh_message_paths *)
Definition mh_messages (f : fs) (folder : bytes) : list bytes :=
  match ls f folder with
  | Some ns => map (child folder) (filter (fun n => negb (dots n) && valid_mh_filename_p n) ns)
  | None => []
  end.
(* dirscan.c 354-384 build_message_list for the two kinds of folder *)
Definition maildir_list (f : fs) (omit : option (list globber)) (fuel : nat) (base folders : bytes) : res (list bytes) :=
  let! l := folders_of f maildir_methods omit fuel base folders in Ok (flat_map (maildir_messages f) l).
Definition mh_list (f : fs) (omit : option (list globber)) (fuel : nat) (base folders : bytes) : res (list bytes) :=
  let! l := folders_of f mh_methods omit fuel base folders in Ok (flat_map (mh_messages f) l).

(* mairix.c 88-136 member_of.  None for folders is a null pointer.  Only st_ino is compared. *)
Definition same_inode (f : fs) (p q : bytes) : bool :=
  match stat f p, stat f q with Some a, Some b => st_ino a =? st_ino b | _, _ => false end.
Definition member_of (f : fs) (m : methods) (omit : option (list globber)) (fuel : nat) (mfolder base : bytes) (folders : option bytes) : res bool :=
  match folders with
  | None => Ok false
  | Some fo => let! l := folders_of f m omit fuel base fo in
               Ok (existsb (fun p => bytes_eqb mfolder p || same_inode f mfolder p) l)
  end.
Inductive out_kind := O_maildir | O_mh | O_mbox | O_raw | O_excerpt | O_imap.
(* mairix.c 740-749: the match folder's path *)
Definition complete_mfolder (base mfolder : bytes) : bytes :=
  match mfolder with
  | c :: r => if c =? 47 then mfolder
              else if c =? 46 then match r with d :: _ => if d =? 47 then mfolder else child base mfolder | [] => child base mfolder end
              else child base mfolder
  | [] => child base mfolder
  end.
(* mairix.c 751-770: the check before a search; member_of's are evaluated left to right until one holds *)
Definition mfolder_check (f : fs) (omit : option (list globber)) (fuel : nat) (base : bytes)
    (maildirs mhs mboxen : option bytes) (o : out_kind) (mfolder : bytes) : res unit :=
  match o with
  | O_raw | O_excerpt | O_imap => Ok tt
  | _ =>
    let cm := complete_mfolder base mfolder in
    let! a := member_of f maildir_methods omit fuel cm base maildirs in
    if a then Err (E_exit 3) else
    let! b := member_of f mh_methods omit fuel cm base mhs in
    if b then Err (E_exit 3) else
    let! c := member_of f mbox_methods omit fuel cm base mboxen in
    if c then Err (E_exit 3) else Ok tt
  end.
