(* Model of the uses of generated scanners in mairix, on the tables that dfasyn writes: looks_like_from_separator (mbox.c),
   discover_type (dates.c) and make_nvp (nvp.c).  next is the function next_state that is written with the tables, sc what
   else is written.  M_From, M_Dates and M_Nvp model the same functions on the automata themselves. *)
From Verif Require Import Base M_Charclass M_Dfasyn M_Compdfa.
From Verif Require M_Nvp M_Decode.

(* prefix_char2tok[c] *)
Definition char_token (sc : scanner) (c : N) : res Z := match nth_error (sc_char2tok sc) (N.to_nat c) with Some t => Ok t | None => Err E_oob end.
(* the i-th table of attributes, in the state z; the values are the names that are written *)
Definition attr_at (sc : scanner) (i : nat) (z : Z) : res bytes :=
  match nth_error (nth i (sc_attrs sc) []) (Z.to_nat z) with Some (Some v) => Ok v | _ => Err E_oob end.

(* nvptypes.h: the constants by name *)
Definition action_name (a : M_Nvp.action) : bytes :=
  match a with
  | M_Nvp.GOT_NAMEVALUE => bs "GOT_NAMEVALUE"
  | M_Nvp.GOT_NAMEVALUE_CONT => bs "GOT_NAMEVALUE_CONT"
  | M_Nvp.GOT_NAMEVALUE_CSET => bs "GOT_NAMEVALUE_CSET"
  | M_Nvp.GOT_NAMEVALUE_CCONT => bs "GOT_NAMEVALUE_CCONT"
  | M_Nvp.GOT_NAME => bs "GOT_NAME"
  | M_Nvp.GOT_NAME_TRAILING_SPACE => bs "GOT_NAME_TRAILING_SPACE"
  | M_Nvp.GOT_MAJORMINOR => bs "GOT_MAJORMINOR"
  | M_Nvp.GOT_TERMINATOR => bs "GOT_TERMINATOR"
  | M_Nvp.GOT_NOTHING => bs "GOT_NOTHING"
  end.
Definition copier_name (k : M_Nvp.copier) : bytes :=
  match k with
  | M_Nvp.COPY_TO_NAME => bs "COPY_TO_NAME"
  | M_Nvp.COPY_TO_MINOR => bs "COPY_TO_MINOR"
  | M_Nvp.COPY_TO_VALUE => bs "COPY_TO_VALUE"
  | M_Nvp.COPY_NOWHERE => bs "COPY_NOWHERE"
  end.
Definition action_named (v : bytes) : res M_Nvp.action :=
  match find (fun a => bytes_eqb (action_name a) v) [M_Nvp.GOT_NAMEVALUE; M_Nvp.GOT_NAMEVALUE_CONT; M_Nvp.GOT_NAMEVALUE_CSET; M_Nvp.GOT_NAMEVALUE_CCONT;
    M_Nvp.GOT_NAME; M_Nvp.GOT_NAME_TRAILING_SPACE; M_Nvp.GOT_MAJORMINOR; M_Nvp.GOT_TERMINATOR; M_Nvp.GOT_NOTHING] with Some a => Ok a | None => Err E_oob end.
Definition copier_named (v : bytes) : res M_Nvp.copier :=
  match find (fun k => bytes_eqb (copier_name k) v) [M_Nvp.COPY_TO_NAME; M_Nvp.COPY_TO_MINOR; M_Nvp.COPY_TO_VALUE; M_Nvp.COPY_NOWHERE] with Some k => Ok k | None => Err E_oob end.

Section Loops.
Variables (next : Z -> Z -> res Z) (sc : scanner).
(* mbox.c 216-240: the bytes of the file from n on *)
Fixpoint separator_loop (current_state : Z) (text : bytes) : res bool :=
  match text with
  | [] => Ok false
  | p :: text' =>
    let! t := char_token sc p in
    let! z := next current_state t in
    if (z <? 0)%Z then Ok false else
    let! a := attr_at sc 0 z in
    if bytes_eqb a (bs "FROMCHECK_PASS") then Ok true else separator_loop z text'
  end.
Definition looks_like_from_separator (text : bytes) : res bool := separator_loop 0 text.
(* dates.c 32-50 *)
Fixpoint discover_loop (current_state : Z) (s : bytes) : res Z :=
  match s with
  | [] => Ok current_state
  | c :: s' =>
    let! t := char_token sc c in
    let! z := next current_state t in
    if (z <? 0)%Z then Ok z else discover_loop z s'
  end.
Definition discover_type (s : bytes) : res bytes :=
  let! z := discover_loop 0 s in if (z <? 0)%Z then Ok (bs "DS_FAILURE") else attr_at sc 0 z.
(* nvp.c 160-308: the tables nvp_copier and nvp_action are those of the groups of these names, which are written last group
   first (evaluator.c 52-58): 0 is copier, 1 is action.  nvp_EOS is the number of the one token, and nvp_in the state of the
   one entry.  text is what lies between copy_start and q, last byte first. *)
Definition nvp_copier (z : Z) : res M_Nvp.copier := let! v := attr_at sc 0 z in copier_named v.
Definition nvp_action (z : Z) : res M_Nvp.action := let! v := attr_at sc 1 z in action_named v.
Definition nvp_EOS : Z := 0%Z.
Fixpoint nvp_loop (isspc : N -> bool) (s : bytes) (current_state : Z) (last_action : M_Nvp.action) (last_copier : M_Nvp.copier) (text : bytes) (x : M_Nvp.nvp_vars) : res (option (list M_Nvp.nvp_entry)) :=
  let! tok := match s with [] => Ok nvp_EOS | qq :: _ => char_token sc qq end in
  let! z := next current_state tok in
  if (z <? 0)%Z then Ok None else
  let! copier := nvp_copier z in
  let x := if M_Nvp.copier_beq copier last_copier then x else M_Nvp.flush last_copier (rev text) x in
  let text := if M_Nvp.copier_beq copier last_copier then text else [] in
  let! current_action := nvp_action z in
  let! y := match current_action with
            | M_Nvp.GOT_TERMINATOR => let! x := M_Nvp.terminator isspc last_action x in Ok (x, M_Nvp.GOT_NOTHING)
            | M_Nvp.GOT_NOTHING => Ok (Some x, last_action)
            | a => Ok (Some x, a)
            end in
  match fst y with
  | None => Ok None
  | Some x =>
    match s with
    | [] => Ok (Some (M_Nvp.x_result x))
    | c :: s' => nvp_loop isspc s' z (snd y) copier (c :: text) x
    end
  end.
(* nvp.c 147-316 *)
Definition make_nvp (isspc : N -> bool) (s pfx : bytes) : res (option (list M_Nvp.nvp_entry)) :=
  if M_Decode.match_string pfx s then
    match sc_entries sc with
    | nvp_in :: _ => nvp_loop isspc (skipn (length pfx) s) nvp_in M_Nvp.GOT_NOTHING M_Nvp.COPY_NOWHERE [] {| M_Nvp.x_name := None; M_Nvp.x_minor := None; M_Nvp.x_value := None; M_Nvp.x_result := [] |}
    | [] => Err E_oob
    end
  else Ok None.
End Loops.
