(* Model of expandstr.c and of the configuration part of mairix.c: rc file, environment, arguments.
   getenv() is [env]; [pw_dir] is the home directory in the password file; [alnum] and [space] are
   isalnum() and isspace() in the current locale; strncasecmp folds ASCII letters. *)
From Verif Require Import Base.
Local Open Scope N_scope.

Section Expand.
Variable env : bytes -> option bytes.
Variable pw_dir : bytes.
Variable alnum : N -> bool.

(* expandstr.c 31-40 *)
Definition isenv (x : N) : bool := if alnum x then true else if x =? ch "_" then true else false.
(* The loops at 101, 107, 163 and 169: the characters up to q, and what q points at. *)
Fixpoint span (good : N -> bool) (p : bytes) : bytes * bytes :=
  match p with
  | [] => ([], [])
  | c :: p' => if good c then let (a, q) := span good p' in (c :: a, q) else ([], p)
  end.
(* 42-52 home_dir_len, 119-134 append_home_dir: the string they look at *)
Definition home_dir : bytes := match env (bs "HOME") with Some l => l | None => pw_dir end.
(* 54-72 env_lookup, with NULL treated as the empty string as both callers do (74-84, 136-149) *)
Definition env_text (name : bytes) : bytes := match env name with Some l => l | None => [] end.
(* *p == c *)
Definition starts_with (c : N) (p : bytes) : bool := match p with x :: _ => x =? c | [] => false end.

(* 86-117 compute_length; one unit of fuel per round.  The int sum is unbounded here. *)
Fixpoint length_loop (fuel : nat) (first : bool) (p : bytes) (len : N) : res N :=
  match fuel with
  | O => Err E_fuel
  | S f =>
    match p with
    | [] => Ok len
    | c :: p1 =>
      if first && (c =? ch "~") && starts_with (ch "/") p1 then
        length_loop f false p1 (len + N.of_nat (length home_dir))
      else if (c =? ch "$") && starts_with (ch "{") p1 then
        let (name, q) := span (fun x => negb (x =? ch "}")) (tl p1) in
        length_loop f false (tl q) (len + N.of_nat (length (env_text name)))
      else if c =? ch "$" then
        let (name, q) := span isenv p1 in
        length_loop f false q (len + N.of_nat (length (env_text name)))
      else length_loop f false p1 (len + 1)
    end
  end.
Definition compute_length (p : bytes) : res N := length_loop (S (length p)) true p 0.

(* strcpy to the end of what has been written so far in a buffer of [size] bytes *)
Definition append_str (size : N) (out t : bytes) : res bytes :=
  if N.of_nat (length out) + N.of_nat (length t) + 1 <=? size then Ok (out ++ t) else Err E_oob.
(* one character, without a terminator *)
Definition append_char (size : N) (out : bytes) (c : N) : res bytes :=
  if N.of_nat (length out) + 1 <=? size then Ok (out ++ [c]) else Err E_oob.
(* append_env 136-149: strcpy only if the variable is set *)
Definition append_env (size : N) (out name : bytes) : res bytes :=
  match env name with Some l => append_str size out l | None => Ok out end.
(* 151-178 do_expand; [out] is what has been written before [result] *)
Fixpoint expand_loop (fuel : nat) (size : N) (first : bool) (p out : bytes) : res bytes :=
  match fuel with
  | O => Err E_fuel
  | S f =>
    match p with
    | [] => append_str size out []
    | c :: p1 =>
      if first && (c =? ch "~") && starts_with (ch "/") p1 then
        let! out := append_str size out home_dir in expand_loop f size false p1 out
      else if (c =? ch "$") && starts_with (ch "{") p1 then
        let (name, q) := span (fun x => negb (x =? ch "}")) (tl p1) in
        let! out := append_env size out name in expand_loop f size false (tl q) out
      else if c =? ch "$" then
        let (name, q) := span isenv p1 in
        let! out := append_env size out name in expand_loop f size false q out
      else let! out := append_char size out c in expand_loop f size false p1 out
    end
  end.
(* 180-195 expand_string *)
Definition expand_string (p : bytes) : res bytes :=
  let! len := compute_length p in expand_loop (S (length p)) (len + 1) true p [].

(* ---- the rc file ---- *)

(* mairix.c 138-147 copy_value *)
Definition copy_value (text : bytes) : res (option bytes) :=
  let (_, p) := span (fun x => negb (x =? ch "=")) text in
  match p with [] => Ok None | _ :: v => let! r := expand_string v in Ok (Some r) end.

(* The static variables of mairix.c 46-61 that hold text, and those that are flags. *)
Inductive var := V_base | V_maildir | V_mh | V_mboxen | V_imap | V_imap_pipe | V_imap_server
  | V_imap_username | V_imap_password | V_omit | V_mfolder | V_database.
Definition var_eqb (a b : var) : bool :=
  match a, b with
  | V_base, V_base | V_maildir, V_maildir | V_mh, V_mh | V_mboxen, V_mboxen | V_imap, V_imap
  | V_imap_pipe, V_imap_pipe | V_imap_server, V_imap_server | V_imap_username, V_imap_username
  | V_imap_password, V_imap_password | V_omit, V_omit | V_mfolder, V_mfolder | V_database, V_database => true
  | _, _ => false
  end.
Inductive folder_type := FT_MAILDIR | FT_MH | FT_MBOX | FT_RAW | FT_EXCERPT | FT_IMAP.
Record config := { text_of : var -> option bytes; symlinks : bool; nochecks : bool; by_date : bool; output : folder_type }.
Definition set_text (c : config) (v : var) (t : option bytes) : config :=
  {| text_of := fun w => if var_eqb v w then t else text_of c w; symlinks := symlinks c; nochecks := nochecks c;
     by_date := by_date c; output := output c |}.
Definition set_output (c : config) (o : folder_type) : config :=
  {| text_of := text_of c; symlinks := symlinks c; nochecks := nochecks c; by_date := by_date c; output := o |}.
(* 149-168 add_folders; strlen(NULL) is undefined *)
Definition add_folders (c : config) (v : var) (extra : option bytes) : res config :=
  match text_of c v with
  | None => Ok (set_text c v extra)
  | Some old => match extra with
                | None => Err E_ub
                | Some e => Ok (set_text c v (Some (old ++ bs ":" ++ e)))
                end
  end.
(* !strncasecmp(p, key, strlen(key)), key in lower case *)
Definition is_key (p key : bytes) : bool := bytes_eqb (map tolower (firstn (length key) p)) key.
(* 170-191 parse_output_folder; strncasecmp(NULL, ...) is undefined *)
Definition parse_output_folder (c : config) (p : bytes) : res config :=
  let! t := copy_value p in
  match t with
  | None => Err E_ub
  | Some t =>
    if is_key t (bs "mh") then Ok (set_output c FT_MH)
    else if is_key t (bs "maildir") then Ok (set_output c FT_MAILDIR)
    else if is_key t (bs "raw") then Ok (set_output c FT_RAW)
    else if is_key t (bs "exc") then Ok (set_output c FT_EXCERPT)
    else if is_key t (bs "mbox") then Ok (set_output c FT_MBOX)
    else if is_key t (bs "imap") then Ok (set_output c FT_IMAP)
    else Ok c
  end.
(* 253-283: a line that is not blank, from its first non-blank character on *)
Definition option_line (c : config) (p : bytes) : res config :=
  let assign v := let! t := copy_value p in Ok (set_text c v t) in
  let append v := let! t := copy_value p in add_folders c v t in
  if is_key p (bs "base") then assign V_base
  else if is_key p (bs "folders") then append V_maildir
  else if is_key p (bs "maildir=") then append V_maildir
  else if is_key p (bs "mh_folders=") then append V_mh
  else if is_key p (bs "mh=") then append V_mh
  else if is_key p (bs "mbox=") then append V_mboxen
  else if is_key p (bs "imap=") then append V_imap
  else if is_key p (bs "imap_pipe=") then assign V_imap_pipe
  else if is_key p (bs "imap_server=") then assign V_imap_server
  else if is_key p (bs "imap_username=") then assign V_imap_username
  else if is_key p (bs "imap_password=") then assign V_imap_password
  else if is_key p (bs "follow_mbox_symlinks") then
    Ok {| text_of := text_of c; symlinks := true; nochecks := nochecks c; by_date := by_date c; output := output c |}
  else if is_key p (bs "omit=") then append V_omit
  else if is_key p (bs "mformat=") then parse_output_folder c p
  else if is_key p (bs "mfolder=") then assign V_mfolder
  else if is_key p (bs "database=") then assign V_database
  else if is_key p (bs "nochecks") then
    Ok {| text_of := text_of c; symlinks := symlinks c; nochecks := true; by_date := by_date c; output := output c |}
  else if is_key p (bs "sort=date+") then
    Ok {| text_of := text_of c; symlinks := symlinks c; nochecks := nochecks c; by_date := true; output := output c |}
  else Ok c.

Variable space : N -> bool.
(* fgets(line, 4096, in): at most n bytes, up to and including the first newline; and what is left *)
Fixpoint fgets (n : nat) (f : bytes) : bytes * bytes :=
  match n, f with
  | S n', c :: f' => if c =? 10 then ([c], f') else let (a, r) := fgets n' f' in (c :: a, r)
  | _, _ => ([], f)
  end.
(* the C string at the start of a buffer *)
Definition c_str (b : bytes) : bytes := fst (span (fun x => negb (x =? 0)) b).
Definition comment_char (x : N) : bool := (x =? ch "#") || (x =? ch "!") || (x =? ch ";") || (x =? ch "%").
(* 222-283: one line as read.  sizeof(line) - 4 is 4092. *)
Definition rc_line (c : config) (raw : bytes) : res config :=
  let line := c_str raw in
  if 4092 <? N.of_nat (length line) then Err (E_exit 2)
  else match rev line with
       | [] => Err E_oob
       | last :: _ =>
         let line := if last =? 10 then removelast line else line in
         let (line, _) := span (fun x => negb (comment_char x)) line in
         let (_, p) := span space line in
         match p with [] => Ok c | _ => option_line c p end
       end.
(* 193-292 parse_rc_file, given the contents of the file; one unit of fuel per line *)
Fixpoint rc_lines (fuel : nat) (c : config) (f : bytes) : res config :=
  match fuel with
  | O => Err E_fuel
  | S fu => match f with
            | [] => Ok c
            | _ => let (raw, rest) := fgets 4095 f in let! c := rc_line c raw in rc_lines fu c rest
            end
  end.
(* the initial values, mairix.c 46-61 *)
Definition initial : config := {| text_of := fun _ => None; symlinks := false; nochecks := false; by_date := false; output := FT_MAILDIR |}.
Definition parse_rc_file (f : bytes) : res config := rc_lines (S (length f)) initial f.

(* ---- arguments and environment ---- *)

Inductive opt := O_rcfile | O_threads | O_augment | O_mfolder | O_purge | O_dump | O_raw | O_excerpt | O_hardlinks
  | O_no_checks | O_unlock | O_fast | O_key | O_verbose | O_version | O_help.
(* mairix.c 559-621: the comparisons with *argv *)
Definition option_named (a : bytes) : option opt :=
  let is n := bytes_eqb a (bs n) in
  (if is "-f" || is "--rcfile" then Some O_rcfile
   else if is "-t" || is "--threads" then Some O_threads
   else if is "-a" || is "--augment" then Some O_augment
   else if is "-o" || is "--mfolder" then Some O_mfolder
   else if is "-p" || is "--purge" then Some O_purge
   else if is "-d" || is "--dump" then Some O_dump
   else if is "-r" || is "--raw-output" then Some O_raw
   else if is "-x" || is "--excerpt-output" then Some O_excerpt
   else if is "-H" || is "--force-hardlinks" then Some O_hardlinks
   else if is "-Q" || is "--no-integrity-checks" then Some O_no_checks
   else if is "--unlock" then Some O_unlock
   else if is "-F" || is "--fast-index" then Some O_fast
   else if is "--force-hash-key-new-database" then Some O_key
   else if is "-v" || is "--verbose" then Some O_verbose
   else if is "-V" || is "--version" then Some O_version
   else if is "-h" || is "--help" then Some O_help
   else None)%string.
(* sscanf(s, "%u", ...) *)
Variable scan_u : bytes -> option N.
(* 556-632: the options in order, each with its argument, and the arguments left.  A record of what
   was seen stands for the variables do_..., arg_..., forced_hash_key, verbose and do_hardlinks. *)
Fixpoint parse_args (argv : list bytes) : res (list (opt * bytes) * list bytes) :=
  match argv with
  | [] => Ok ([], [])
  | a :: rest =>
    match option_named a with
    | Some O_version => Err (E_exit 0)
    | Some O_rcfile | Some O_mfolder =>
      match rest with
      | [] => Err (E_exit 1)
      | x :: rest' => let! (os, words) := parse_args rest' in
          Ok ((match option_named a with Some O_rcfile => O_rcfile | _ => O_mfolder end, x) :: os, words)
      end
    | Some O_key =>
      match rest with
      | [] => Err (E_exit 1)
      | x :: rest' => match scan_u x with
                      | None => Err (E_exit 1)
                      | Some _ => let! (os, words) := parse_args rest' in Ok ((O_key, x) :: os, words)
                      end
      end
    | Some o => let! (os, words) := parse_args rest in Ok ((o, []) :: os, words)
    | None =>
      if bytes_eqb a (bs "--") then Ok ([], rest)
      else if starts_with (ch "-") a then Err (E_exit 3)
      else Ok ([], a :: rest)
    end
  end.
Definition opt_eqb (a b : opt) : bool :=
  match a, b with
  | O_rcfile, O_rcfile | O_threads, O_threads | O_augment, O_augment | O_mfolder, O_mfolder | O_purge, O_purge
  | O_dump, O_dump | O_raw, O_raw | O_excerpt, O_excerpt | O_hardlinks, O_hardlinks | O_no_checks, O_no_checks
  | O_unlock, O_unlock | O_fast, O_fast | O_key, O_key | O_verbose, O_verbose | O_version, O_version | O_help, O_help => true
  | _, _ => false
  end.
(* the value of a do_... variable *)
Definition given (os : list (opt * bytes)) (o : opt) : bool := existsb (fun x => opt_eqb o (fst x)) os.
(* the value of an arg_... variable: the last one given *)
Definition argument (os : list (opt * bytes)) (o : opt) : option bytes :=
  fold_left (fun acc x => if opt_eqb o (fst x) then Some (snd x) else acc) os None.

(* getenv(test) ? getenv(value) : the present value *)
Definition override (c : config) (v : var) (test value : bytes) : config :=
  match env test with Some _ => set_text c v (env value) | None => c end.
(* 645-675 *)
Definition from_environment (os : list (opt * bytes)) (c : config) : config :=
  let c := override c V_base (bs "MAIRIX_FOLDER_BASE") (bs "MAIRIX_FOLDER_BASE") in
  let c := override c V_maildir (bs "MAIRIX_MAILDIR_FOLDERS") (bs "MAIRIX_MAIDIR_FOLDERS") in
  let c := override c V_mh (bs "MAIRIX_MH_FOLDERS") (bs "MAIRIX_MH_FOLDERS") in
  let c := override c V_mboxen (bs "MAIRIX_MBOXEN") (bs "MAIRIX_MBOXEN") in
  let c := override c V_mfolder (bs "MAIRIX_MFOLDER") (bs "MAIRIX_MFOLDER") in
  let c := override c V_database (bs "MAIRIX_DATABASE") (bs "MAIRIX_DATABASE") in
  match argument os O_mfolder with Some m => set_text c V_mfolder (Some m) | None => c end.

(* What main goes on to do. *)
Inductive action := A_dump | A_search (threads augment : bool) (words : list bytes) | A_index (fast purge : bool).
Record plan := { p_config : config; p_base : bytes; p_database : bytes; p_checks : bool; p_unlock : bool; p_action : action }.
(* 634-721 and the choice made at 723-731 and 788; [files] is the file system as fopen sees it.  The
   default rc file is in the home directory (getenv HOME or the password file, 203-216). *)
Definition prepare (files : bytes -> option bytes) (argv : list bytes) : res plan :=
  let! (os, words) := parse_args argv in
  if given os O_help then Err (E_exit 0)
  else
    let search := given os O_threads || given os O_augment || match words with [] => false | _ => true end in
    let name := match argument os O_rcfile with Some n => n | None => home_dir ++ bs "/.mairixrc" end in
    match files name with
    | None => Err (E_exit 2)
    | Some f =>
      let! c := parse_rc_file f in
      let c := from_environment os c in
      match text_of c V_base, text_of c V_database with
      | Some base, Some db =>
        let c := if given os O_raw then set_output c FT_RAW else if given os O_excerpt then set_output c FT_EXCERPT else c in
        Ok {| p_config := c; p_base := base; p_database := db;
              p_checks := negb (given os O_no_checks) && negb (nochecks c); p_unlock := given os O_unlock;
              p_action := if given os O_dump then A_dump
                          else if search then A_search (given os O_threads) (given os O_augment) words
                          else A_index (given os O_fast) (given os O_purge) |}
      | _, _ => Err (E_exit 2)
      end
    end.
(* 736-765 complete_mfolder *)
Definition complete_mfolder (p : plan) : res bytes :=
  let c := p_config p in
  let! m := match text_of c V_mfolder with
            | Some m => Ok m
            | None => match output c with FT_RAW | FT_EXCERPT => Ok [] | _ => Err (E_exit 2) end
            end in
  match output c with
  | FT_IMAP => Ok m
  | _ => if starts_with (ch "/") m || (starts_with (ch ".") m && starts_with (ch "/") (tl m)) then Ok m
         else Ok (p_base p ++ bs "/" ++ m)
  end.
End Expand.
