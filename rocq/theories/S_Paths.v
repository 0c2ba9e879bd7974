(* Which folders the folder settings select (mairixrc.5, maildir, mh, mbox and omit). *)
From Verif Require Import Base S_Glob M_Paths.
Local Open Scope N_scope.

Inductive folder_kind := F_mbox | F_maildir | F_mh.

Section Select.
Context (f : fs).
Definition exists_ (p : bytes) : Prop := exists s, stat f p = Some s.
Definition a_dir (p : bytes) : Prop := exists s, stat f p = Some s /\ st_kind s = K_dir.
Definition a_file (p : bytes) : Prop := exists s, stat f p = Some s /\ st_kind s = K_reg.
Definition below (d n : bytes) : bytes := d ++ bs "/" ++ n.
Definition listed (d n : bytes) : Prop := exists ns, ls f d = Some ns /\ In n ns /\ n <> bs "." /\ n <> bs "..".

(* Files that mark a directory as an MH folder. *)
Definition mh_mark (n : bytes) : Prop :=
  In n (map bs [".xmhcache"; ".mh_sequences"; ".sylpheed_cache"; ".sylpheed_mark"; ".claws_cache"; ".claws_mark"; ".marks";
    ".overview"; "cmeta"; "summary"; ".mew-summary"; "index"]%string).
Definition is_folder (k : folder_kind) (p : bytes) : Prop :=
  match k with
  | F_mbox => a_file p
  | F_maildir => a_dir p /\ a_dir (below p (bs "new")) /\ a_dir (below p (bs "cur")) /\ a_dir (below p (bs "tmp"))
  | F_mh => a_dir p /\ exists n, mh_mark n /\ a_file (below p n)
  end.
(* The name of a message in an MH folder: a number, or a number and a dot. *)
Definition number (n : bytes) : Prop := Forall (fun c => ch "0" <= c <= ch "9") n.
Definition mh_name (n : bytes) : Prop := n <> [] /\ (number n \/ exists d, number d /\ n = d ++ bs ".").

(* om says which paths are omitted. *)
Context (k : folder_kind) (om : bytes -> Prop).
(* Entries of a directory that belong to a folder rather than being folders themselves. *)
Definition part_of_folder (d n : bytes) : Prop :=
  match k with
  | F_mbox => False
  | F_maildir => (is_folder F_maildir d /\ ~ om d) /\ In n (map bs ["new"; "cur"; "tmp"]%string)
  | F_mh => mh_name n
  end.
(* What a walk from a directory visits.  An omitted entry is not entered. *)
Inductive visits (top : bytes) : bytes -> Prop :=
| v_top : visits top top
| v_in d n : visits top d -> a_dir d -> listed d n -> ~ om (below d n) -> ~ part_of_folder d n ->
    a_dir (below d n) \/ a_file (below d n) -> visits top (below d n).

(* One element of a folder list.  [deep] is a final "...". *)
Inductive entry :=
| E_plain (path : bytes) (deep : bool)
| E_wild (dir : option bytes) (p : list gitem) (deep : bool).
Definition is_deep (e : entry) : bool := match e with E_plain _ d | E_wild _ _ d => d end.
Definition entry_path (e : entry) : bytes :=
  match e with
  | E_plain p _ => p
  | E_wild None p _ => show_pattern p
  | E_wild (Some d) p _ => below d (show_pattern p)
  end.
Definition show_entry (e : entry) : bytes := entry_path e ++ if is_deep e then bs "..." else [].
Definition absolute (p : bytes) : Prop := exists r, p = ch "/" :: r.

Context (base : bytes).
(* Relative paths start at the base directory. *)
Definition placed (p q : bytes) : Prop := (absolute p /\ q = p) \/ (~ absolute p /\ q = below base p).
Definition start (e : entry) (q : bytes) : Prop :=
  match e with
  | E_plain p _ => placed p q /\ exists_ q
  | E_wild dir p _ => exists d n, (match dir with None => d = base | Some x => placed x d end) /\
      q = below d n /\ listed d n /\ gmatch p n /\ ~ om q /\ exists_ q
  end.
Definition selects (e : entry) (q : bytes) : Prop :=
  exists top, start e top /\ (if is_deep e then visits top q else q = top) /\ is_folder k q /\ ~ om q.
End Select.

(* The omit patterns apply to paths relative to the base directory for entries that are relative, and
   to whole paths for those that are absolute. *)
Definition omits (pats : list (list gitem)) (base : bytes) (e : entry) (q : bytes) : Prop :=
  exists p, In p pats /\ ((absolute (entry_path e) /\ gmatch p q) \/
                          (~ absolute (entry_path e) /\ exists r, q = below base r /\ gmatch p r)).
Definition selected (f : fs) (k : folder_kind) (pats : list (list gitem)) (base : bytes) (e : entry) (q : bytes) : Prop :=
  selects f k (omits pats base e) base e q.

(* Which entries can be written. *)
Definition no_wild (s : bytes) : Prop := forall c, In c s -> c <> ch "*" /\ c <> ch "?" /\ c <> ch "[".
Definition a_wild (g : gitem) : Prop := match g with Gc _ => False | _ => True end.
Definition entry_ok (e : entry) : Prop :=
  (is_deep e = false -> forall x, entry_path e <> x ++ bs "...") /\
  match e with
  | E_plain p _ => c_string p /\ forall d n, p = below d n -> ~ In (ch "/") n -> no_wild n
  | E_wild dir p _ => pattern_ok p /\ (atoms p <= 30)%nat /\ Exists a_wild p /\ ~ In (ch "/") (show_pattern p) /\
      match dir with None => True | Some d => c_string d /\ d <> [] end
  end /\
  match e with E_plain p _ => ~ In (ch "/") p -> no_wild p | _ => True end.
(* The file system lists names, and its directories are nested less than [depth] deep. *)
Definition fs_ok (f : fs) (depth : nat) : Prop :=
  (forall d n, listed f d n -> c_string n) /\
  exists rank : bytes -> nat, (forall p, (rank p < depth)%nat) /\
    forall d n, listed f d n -> a_dir f (below d n) -> (rank (below d n) < rank d)%nat.
