(* Specification vocabulary for configuration: expansion of ~ and variables, the rc file, arguments. *)
From Verif Require Import Base M_Config.
Local Open Scope N_scope.

(* x may be part of a variable name written without braces. *)
Definition name_char (alnum : N -> bool) (x : N) : Prop := alnum x = true \/ x = ch "_".
Definition value (env : bytes -> option bytes) (name : bytes) : bytes := match env name with Some v => v | None => [] end.
(* The text p stands for; [start] says that p begins the string.  [env] gives the variables, unset ones
   standing for nothing, and [home] the home directory. *)
Inductive expands (env : bytes -> option bytes) (home : bytes) (alnum : N -> bool) : bool -> bytes -> bytes -> Prop :=
| Ex_end start : expands env home alnum start [] []
| Ex_home p out : expands env home alnum false (bs "/" ++ p) out -> expands env home alnum true (bs "~/" ++ p) (home ++ out)
| Ex_braces start name p out : ~ In (ch "}") name -> expands env home alnum false p out ->
    expands env home alnum start (bs "${" ++ name ++ bs "}" ++ p) (value env name ++ out)
| Ex_open start name : ~ In (ch "}") name ->
    expands env home alnum start (bs "${" ++ name) (value env name)
| Ex_name start name p out : Forall (name_char alnum) name -> (forall c s, p = c :: s -> ~ name_char alnum c) ->
    (forall s, name ++ p <> bs "{" ++ s) -> expands env home alnum false p out ->
    expands env home alnum start (bs "$" ++ name ++ p) (value env name ++ out)
| Ex_char start c p out : c <> ch "$" -> (start = true -> c = ch "~" -> forall s, p <> bs "/" ++ s) ->
    expands env home alnum false p out -> expands env home alnum start (c :: p) (c :: out).

(* ---- the rc file ---- *)
Inductive effect := Assign (v : var) | Append (v : var) | Symlinks | Nochecks | By_date | Format.
(* The documented options. *)
Definition keywords : list (bytes * effect) :=
  [(bs "base=", Assign V_base); (bs "folders=", Append V_maildir); (bs "maildir=", Append V_maildir);
   (bs "mh_folders=", Append V_mh); (bs "mh=", Append V_mh); (bs "mbox=", Append V_mboxen); (bs "imap=", Append V_imap);
   (bs "imap_pipe=", Assign V_imap_pipe); (bs "imap_server=", Assign V_imap_server);
   (bs "imap_username=", Assign V_imap_username); (bs "imap_password=", Assign V_imap_password);
   (bs "omit=", Append V_omit); (bs "mfolder=", Assign V_mfolder); (bs "database=", Assign V_database);
   (bs "follow_mbox_symlinks", Symlinks); (bs "nochecks", Nochecks); (bs "sort=date+", By_date); (bs "mformat=", Format)].
Definition formats : list (bytes * folder_type) :=
  [(bs "mh", FT_MH); (bs "maildir", FT_MAILDIR); (bs "raw", FT_RAW); (bs "exc", FT_EXCERPT); (bs "mbox", FT_MBOX); (bs "imap", FT_IMAP)].
(* key, in any case, begins p *)
Definition begins (key p : bytes) : Prop := exists k s, p = k ++ s /\ map tolower k = key.
Definition starts_comment (c : N) : Prop := In c (bs "#!;%").
(* A line of the file: blanks, then perhaps a keyword (in any case) with what follows it, or some other
   text, and then perhaps a comment. *)
Inductive content := Nothing | Option (key : bytes) (e : effect) (spelled value : bytes) | Unknown (p : bytes).
Record line := { blanks : bytes; said : content; comment : bytes }.
Definition content_text (x : content) : bytes := match x with Nothing => [] | Option _ _ k v => k ++ v | Unknown p => p end.
Definition line_text (l : line) : bytes := blanks l ++ content_text (said l) ++ comment l ++ [10].
Definition no_comment (s : bytes) : Prop := Forall (fun c => c <> 0 /\ c <> 10 /\ ~ starts_comment c) s.
Record line_ok (space : N -> bool) (l : line) : Prop := {
  lo_blanks : Forall (fun c => space c = true) (blanks l) /\ no_comment (blanks l);
  lo_said : no_comment (content_text (said l));
  lo_first : forall c s, content_text (said l) = c :: s -> space c = false;
  lo_kind : match said l with
            | Nothing => True
            | Option k e k' v => In (k, e) keywords /\ map tolower k' = k
            | Unknown p => p <> [] /\ ~ begins (bs "base") p /\ ~ begins (bs "folders") p /\ forall k e, In (k, e) keywords -> ~ begins k p
            end;
  lo_comment : comment l = [] \/ (exists c s, comment l = c :: s /\ starts_comment c /\ Forall (fun x => x <> 0 /\ x <> 10) s);
  lo_short : (length (line_text l) <= N.to_nat 4092)%nat }.
(* The values given to a variable, in order. *)
Definition values (v : var) (ls : list line) : list bytes :=
  flat_map (fun l => match said l with
                     | Option _ (Assign w) _ x | Option _ (Append w) _ x => if var_eqb w v then [x] else []
                     | _ => []
                     end) ls.
Definition effects (ls : list line) : list effect := flat_map (fun l => match said l with Option _ e _ _ => [e] | _ => [] end) ls.
Definition format_values (ls : list line) : list bytes := flat_map (fun l => match said l with Option _ Format _ x => [x] | _ => [] end) ls.
(* Several folder lines add up; of other options the last one counts. *)
Definition adds_up (v : var) : bool := match v with V_maildir | V_mh | V_mboxen | V_imap | V_omit => true | _ => false end.
Fixpoint joined (l : list bytes) : bytes := match l with [] => [] | [x] => x | x :: l' => x ++ bs ":" ++ joined l' end.
Definition result_of (v : var) (l : list bytes) : option bytes :=
  match l with [] => None | _ => Some (if adds_up v then joined l else last l []) end.
(* The last format that is known; maildir if there is none. *)
Inductive format_is : list bytes -> folder_type -> Prop :=
| Fi_none : format_is [] FT_MAILDIR
| Fi_known l x k f : In (k, f) formats -> begins k x -> format_is (l ++ [x]) f
| Fi_unknown l x f : (forall k g, In (k, g) formats -> ~ begins k x) -> format_is l f -> format_is (l ++ [x]) f.

(* ---- arguments ---- *)
Definition names : list (opt * list bytes) :=
  [(O_rcfile, [bs "-f"; bs "--rcfile"]); (O_threads, [bs "-t"; bs "--threads"]); (O_augment, [bs "-a"; bs "--augment"]);
   (O_mfolder, [bs "-o"; bs "--mfolder"]); (O_purge, [bs "-p"; bs "--purge"]); (O_dump, [bs "-d"; bs "--dump"]);
   (O_raw, [bs "-r"; bs "--raw-output"]); (O_excerpt, [bs "-x"; bs "--excerpt-output"]);
   (O_hardlinks, [bs "-H"; bs "--force-hardlinks"]); (O_no_checks, [bs "-Q"; bs "--no-integrity-checks"]);
   (O_unlock, [bs "--unlock"]); (O_fast, [bs "-F"; bs "--fast-index"]); (O_key, [bs "--force-hash-key-new-database"]);
   (O_verbose, [bs "-v"; bs "--verbose"]); (O_version, [bs "-V"; bs "--version"]); (O_help, [bs "-h"; bs "--help"])].
Definition takes_value (o : opt) : bool := match o with O_rcfile | O_mfolder | O_key => true | _ => false end.
(* How an option with its value is written. *)
Inductive spelled (scan_u : bytes -> option N) : opt * bytes -> list bytes -> Prop :=
| Sp_plain o ns n : In (o, ns) names -> In n ns -> takes_value o = false -> o <> O_version -> spelled scan_u (o, []) [n]
| Sp_value o ns n x : In (o, ns) names -> In n ns -> takes_value o = true -> (o = O_key -> scan_u x <> None) -> spelled scan_u (o, x) [n; x].
(* The search words: after --, or from the first argument on that does not begin with a dash. *)
Inductive words_written : list bytes -> list bytes -> Prop :=
| Ww_none : words_written [] []
| Ww_dashes ws : words_written ws (bs "--" :: ws)
| Ww_plain w ws : (forall s, w <> bs "-" ++ s) -> words_written (w :: ws) (w :: ws).

(* ---- all together ---- *)
(* The environment variables documented to override the rc file. *)
Definition env_names : list (var * bytes) :=
  [(V_base, bs "MAIRIX_FOLDER_BASE"); (V_maildir, bs "MAIRIX_MAILDIR_FOLDERS"); (V_mh, bs "MAIRIX_MH_FOLDERS");
   (V_mboxen, bs "MAIRIX_MBOXEN"); (V_mfolder, bs "MAIRIX_MFOLDER"); (V_database, bs "MAIRIX_DATABASE")].
Definition on (o : opt) (os : list (opt * bytes)) : Prop := In o (map fst os).
(* t is the last value given with the option o *)
Definition last_given (o : opt) (os : list (opt * bytes)) (t : bytes) : Prop := exists a b, os = a ++ (o, t) :: b /\ ~ on o b.
(* The value in force: the last -o, otherwise the environment, otherwise the rc file. *)
Inductive chosen (env : bytes -> option bytes) (home : bytes) (alnum : N -> bool) (os : list (opt * bytes)) (ls : list line) : var -> option bytes -> Prop :=
| Ch_option t : last_given O_mfolder os t -> chosen env home alnum os ls V_mfolder (Some t)
| Ch_env v n t : (v = V_mfolder -> ~ on O_mfolder os) -> In (v, n) env_names -> env n = Some t -> chosen env home alnum os ls v (Some t)
| Ch_file v ts : (v = V_mfolder -> ~ on O_mfolder os) -> (forall n, In (v, n) env_names -> env n = None) ->
    Forall2 (expands env home alnum true) (values v ls) ts -> chosen env home alnum os ls v (result_of v ts).
(* The rc file that is read. *)
Inductive rc_name (home : bytes) (os : list (opt * bytes)) : bytes -> Prop :=
| Rn_option n : last_given O_rcfile os n -> rc_name home os n
| Rn_home : ~ on O_rcfile os -> rc_name home os (home ++ bs "/.mairixrc").
Inductive decides (os : list (opt * bytes)) (words : list bytes) : action -> Prop :=
| De_dump : on O_dump os -> decides os words A_dump
| De_search t a : ~ on O_dump os -> (on O_threads os \/ on O_augment os \/ words <> []) ->
    (t = true <-> on O_threads os) -> (a = true <-> on O_augment os) -> decides os words (A_search t a words)
| De_index f p : ~ on O_dump os -> ~ on O_threads os -> ~ on O_augment os -> words = [] ->
    (f = true <-> on O_fast os) -> (p = true <-> on O_purge os) -> decides os words (A_index f p).
Inductive chosen_format (env : bytes -> option bytes) (home : bytes) (alnum : N -> bool) (os : list (opt * bytes)) (ls : list line) : folder_type -> Prop :=
| Cf_raw : on O_raw os -> chosen_format env home alnum os ls FT_RAW
| Cf_excerpt : ~ on O_raw os -> on O_excerpt os -> chosen_format env home alnum os ls FT_EXCERPT
| Cf_file ts f : ~ on O_raw os -> ~ on O_excerpt os -> Forall2 (expands env home alnum true) (format_values ls) ts -> format_is ts f -> chosen_format env home alnum os ls f.
(* The folder search results go to. *)
Inductive folder_path (base m : bytes) : bytes -> Prop :=
| Fp_absolute s : m = bs "/" ++ s -> folder_path base m m
| Fp_here s : m = bs "./" ++ s -> folder_path base m m
| Fp_relative : (forall s, m <> bs "/" ++ s) -> (forall s, m <> bs "./" ++ s) -> folder_path base m (base ++ bs "/" ++ m).
(* The file holds the lines; the last newline may be missing. *)
Definition holds (ls : list line) (f : bytes) : Prop := f = flat_map line_text ls \/ f ++ [10] = flat_map line_text ls.
(* Some line says "folders" and no "=" follows before the end of the line. *)
Definition folders_alone (f : bytes) : Prop := exists a k b rest, f = a ++ k ++ b ++ rest /\ map tolower k = bs "folders" /\ ~ In (ch "=") b /\
  (rest = [] \/ exists c s, rest = c :: s /\ (c = 0 \/ c = 10 \/ starts_comment c)).
(* What the settings say, given the lines of the rc file. *)
Record says (env : bytes -> option bytes) (home : bytes) (alnum : N -> bool) (ls : list line) (c : config) : Prop := {
  sa_text : forall v, exists ts, Forall2 (expands env home alnum true) (values v ls) ts /\ text_of c v = result_of v ts;
  sa_symlinks : symlinks c = true <-> In Symlinks (effects ls);
  sa_nochecks : nochecks c = true <-> In Nochecks (effects ls);
  sa_by_date : by_date c = true <-> In By_date (effects ls);
  sa_format : exists ts, Forall2 (expands env home alnum true) (format_values ls) ts /\ format_is ts (output c) }.
(* An argument that is no option, though it begins with a dash. *)
Definition no_option (a : bytes) : Prop := (exists s, a = bs "-" ++ s) /\ a <> bs "--" /\ forall o ns, In (o, ns) names -> ~ In a ns.
(* Everything decided before the work begins agrees with options, environment and rc file; the variable
   left out is treated apart. *)
Record settled (env : bytes -> option bytes) (home : bytes) (alnum : N -> bool) (os : list (opt * bytes)) (words : list bytes) (ls : list line) (p : plan) : Prop := {
  se_text : forall v, v <> V_maildir -> chosen env home alnum os ls v (text_of (p_config p) v);
  se_base : chosen env home alnum os ls V_base (Some (p_base p));
  se_database : chosen env home alnum os ls V_database (Some (p_database p));
  se_checks : p_checks p = true <-> ~ on O_no_checks os /\ ~ In Nochecks (effects ls);
  se_symlinks : symlinks (p_config p) = true <-> In Symlinks (effects ls);
  se_by_date : by_date (p_config p) = true <-> In By_date (effects ls);
  se_format : chosen_format env home alnum os ls (output (p_config p));
  se_unlock : p_unlock p = true <-> on O_unlock os;
  se_action : decides os words (p_action p) }.
