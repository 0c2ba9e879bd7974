(* imap.c 736-833: imap_ll_build and imap_ll_append, which build the commands sent to a server; and the calls
   of imap_ll_build.  malloc() is taken to succeed. *)
From Verif Require Import Base M_DbFile M_Imap.
Local Open Scope N_scope.

(* imap.h 9-22: the arguments.  A pointer to bytes is the bytes from there on; the length -1 is None. *)
Inductive barg :=
| B_end | B_pop | B_cont | B_sub (t : tok)
| B_atom (p : bytes) (len : option N) | B_string (p : bytes) (len : option N)
| B_tagged | B_untagged | B_list | B_sqlist.
(* A node whose children are being added. *)
Record frame := { f_type : tltype; f_leaf : option bytes; f_kids : list tok }.
Definition closed (f : frame) : tok := Tok (f_type f) (f_leaf f) (f_kids f).
Definition opened (t : tok) : frame := {| f_type := t_type t; f_leaf := t_leaf t; f_kids := t_kids t |}.
Definition add_kid (f : frame) (t : tok) : frame := {| f_type := f_type f; f_leaf := f_leaf f; f_kids := f_kids f ++ [t] |}.
(* cur and its ancestors, cur first.  Where cur has become NULL there are none, and top is kept beside. *)
Fixpoint close_up (t : tok) (fs : list frame) : tok :=
  match fs with [] => t | g :: fs' => close_up (closed (add_kid g t)) fs' end.
Definition close_all (top : option tok) (fs : list frame) : option tok :=
  match fs with [] => top | f :: fs' => Some (close_up (closed f) fs') end.
(* imap.c 765-780: the leaf *)
Definition copied (p : bytes) (len : option N) : res bytes :=
  match len with
  | None => Ok (c_str p)
  | Some n => fetch (sub p 0 n)
  end.
(* imap.c 803-818 for a node that is not descended into: a child of cur, or top and cur *)
Definition put (fs : list frame) (t : tok) : list frame :=
  match fs with [] => [opened t] | f :: fs' => add_kid f t :: fs' end.
(* imap.c 736-822.  The arguments run out only if TLTYPE_END is missing. *)
Fixpoint build_from (top : option tok) (fs : list frame) (args : list barg) : res (option tok) :=
  match args with
  | [] => Err E_ub
  | B_end :: _ => Ok (close_all top fs)
  | B_pop :: l =>
      match fs with
      | [] => Err E_ub
      | [f] => build_from (Some (closed f)) [] l
      | f :: g :: fs' => build_from top (add_kid g (closed f) :: fs') l
      end
  | B_cont :: l => build_from top (put fs (Tok T_continuation None [])) l
  | B_sub t :: l => build_from top (put fs t) l
  | B_atom p len :: l => let! s := copied p len in build_from top (put fs (Tok T_atom (Some s) [])) l
  | B_string p len :: l => let! s := copied p len in build_from top (put fs (Tok T_string (Some s) [])) l
  | B_tagged :: l => build_from top ({| f_type := T_tagged; f_leaf := None; f_kids := [] |} :: fs) l
  | B_untagged :: l => build_from top ({| f_type := T_untagged; f_leaf := None; f_kids := [] |} :: fs) l
  | B_list :: l => build_from top ({| f_type := T_list; f_leaf := None; f_kids := [] |} :: fs) l
  | B_sqlist :: l => build_from top ({| f_type := T_sqlist; f_leaf := None; f_kids := [] |} :: fs) l
  end.
Definition imap_ll_build (args : list barg) : res (option tok) := build_from None [] args.
(* imap.c 825-835 *)
Definition imap_ll_append (l item : tok) : tok := Tok (t_type l) (t_leaf l) (t_kids l ++ [item]).

(* The calls.  A word of the program is followed by its NUL. *)
Definition word (s : string) : barg := B_atom (bs s ++ [0]) None.
(* imap.c 879, 1064-1068, 1203-1209, 1259-1264 *)
Definition call_starttls : list barg := [B_tagged; word "STARTTLS"; B_end].
Definition call_capability : list barg := [B_tagged; word "CAPABILITY"; B_end].
Definition call_login (user password : bytes) : list barg := [B_tagged; word "LOGIN"; B_string user (Some (N.of_nat (length user))); B_string password (Some (N.of_nat (length password))); B_end].
Definition call_select (need_write : bool) (folder : bytes) : list barg :=
  [B_tagged; word (if need_write then "SELECT" else "EXAMINE"); B_string folder (Some (N.of_nat (length folder))); B_end].
(* imapinterface.c 81-88, 192-199, 282-289, 293-297, 308-313, 350-357.  uid points into the path. *)
Definition call_flags : list barg := [B_tagged; word "UID"; word "FETCH"; word "1:*"; word "FLAGS"; B_end].
Definition call_fetch (uid rest : bytes) : list barg := [B_tagged; word "UID"; word "FETCH"; B_atom (uid ++ rest) (Some (N.of_nat (length uid))); word "BODY.PEEK[]"; B_end].
Definition call_delete : list barg := [B_tagged; word "STORE"; word "1:*"; word "+FLAGS"; word "\Deleted"; B_end].
Definition call_expunge : list barg := [B_tagged; word "EXPUNGE"; B_end].
Definition call_create (folder : bytes) : list barg := [B_tagged; word "CREATE"; B_string (folder ++ [0]) None; B_end].
Definition call_copy (uid rest folder : bytes) : list barg :=
  [B_tagged; word "UID"; word "COPY"; B_atom (uid ++ rest) (Some (N.of_nat (length uid))); B_string (folder ++ [0]) None; B_end].
(* imapinterface.c 384-407 *)
Definition flag_if (b : bool) (s : string) (l : tok) : res tok :=
  if b then let! x := imap_ll_build [word s; B_end] in match x with Some t => Ok (imap_ll_append l t) | None => Err E_ub end else Ok l.
Definition build_append (folder data : bytes) (seen answered flagged : bool) : res (option tok) :=
  let! x := imap_ll_build [B_list; B_end] in
  match x with
  | None => Err E_ub
  | Some l =>
      let! l1 := flag_if seen "\Seen" l in
      let! l2 := flag_if answered "\Answered" l1 in
      let! l3 := flag_if flagged "\Flagged" l2 in
      imap_ll_build [B_tagged; word "APPEND"; B_string (folder ++ [0]) None; B_sub l3; B_string data (Some (N.of_nat (length data))); B_end]
  end.
