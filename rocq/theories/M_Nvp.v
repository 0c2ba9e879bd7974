(* Model of nvp.c and nvp.nfa: structured header values (content-type and the like).
   The tables that dfasyn generates are modelled by the automaton they are generated from: a state of
   the DFA is the set of NFA states that apply in it, a missing transition (-1) is the empty set, and
   the attribute of a DFA state in a group is the attribute of that group one of its NFA states has.
   (That there is at most one is proved in L_Nvp.)  isspc is isspace() in the current locale. *)
From Verif Require Import Base M_Decode.
From Verif Require M_Tokens.
Local Open Scope N_scope.

(* nvp.nfa 22-26 and the character classes used in it; \. is a backslash and a period there (dfasyn/scan.l 95-106) *)
Inductive cls := VALUE | QVALUE_MORE | NAME1 | MINOR_MORE | WHITE | BLANK | DIGIT | NOT_ZERO | ONE (c : N).
Definition between (lo hi c : N) : bool := (lo <=? c) && (c <=? hi).
Definition letter (c : N) : bool := between 97 122 c || between 65 90 c.
Definition has (k : cls) (c : N) : bool :=
  match k with
  | VALUE => between 33 126 c && negb ((c =? 92) || (c =? 34) || (c =? 59))
  | QVALUE_MORE => (c =? 9) || (c =? 32) || (c =? 59)
  | NAME1 => between 48 57 c || letter c || (c =? 95) || (c =? 45)
  | MINOR_MORE => (c =? 92) || (c =? 46) || (c =? 45) || (c =? 43)
  | WHITE => (c =? 32) || (c =? 9) || (c =? 13)
  | BLANK => (c =? 32) || (c =? 9)
  | DIGIT => between 48 57 c
  | NOT_ZERO => between 49 57 c || letter c
  | ONE x => c =? x
  end.
Inductive block := escape | optwhite | name | value | qvalue | digits | minor | namevalue | major | majorminor | component | main.
Inductive label := l_in | l_out | name1 | name2 | v1 | qv0 | qv1 | qv2 | minor1 | rhs_normal | rhs_continue | rhs_charset | rhs_charset_continue
  | out_normal | out_continue | out_charset | out_charset_continue | foo | bar | in2 | out2.
(* nvptypes.h *)
Inductive action := GOT_NAMEVALUE | GOT_NAMEVALUE_CONT | GOT_NAMEVALUE_CSET | GOT_NAMEVALUE_CCONT | GOT_NAME | GOT_NAME_TRAILING_SPACE | GOT_MAJORMINOR
  | GOT_TERMINATOR | GOT_NOTHING.
Inductive copier := COPY_TO_NAME | COPY_TO_MINOR | COPY_TO_VALUE | COPY_NOWHERE.
(* A stimulus is a list of alternatives; an instance is always entered at in and left at out. *)
Inductive alt := Cl (k : cls) | EOS | Eps | Inst (b : block).
Definition stim : Type := list alt.
Record state_decl := State { s_label : label; s_action : action; s_copier : copier; s_trans : list (list stim * label) }.

Definition ch_ (c : N) : stim := [Cl (ONE c)].
Definition VALUE_ : stim := [Cl VALUE].
Definition QVALUE_ : stim := [Cl VALUE; Cl QVALUE_MORE; Inst escape].
Definition NAME1_ : stim := [Cl NAME1].
Definition MINOR_ : stim := [Cl NAME1; Cl MINOR_MORE].
Definition OWS : stim := [Inst optwhite].
(* nvp.nfa 32-182, block by block *)
Definition states_of (b : block) : list state_decl :=
  match b with
  | escape => [State l_in GOT_NOTHING COPY_NOWHERE [([ch_ 92; ch_ 92], l_out); ([ch_ 92; ch_ 34], l_out)]]
  | optwhite => [State l_in GOT_NOTHING COPY_NOWHERE [([], l_out); ([[Cl WHITE]], l_in)]]
  | name =>
    [State l_in GOT_NOTHING COPY_NOWHERE [([NAME1_], name1)];
     State name1 GOT_NAME COPY_TO_NAME [([NAME1_], name1); ([[Cl BLANK]], name2); ([], l_out)];
     State name2 GOT_NAME_TRAILING_SPACE COPY_TO_NAME [([[Cl BLANK]], name2); ([NAME1_], name1); ([], l_out)]]
  | value =>
    [State l_in GOT_NOTHING COPY_NOWHERE [([VALUE_], v1)];
     State v1 GOT_NOTHING COPY_TO_VALUE [([], l_out); ([VALUE_], v1)]]
  | qvalue =>
    [State l_in GOT_NOTHING COPY_NOWHERE [([ch_ 34], qv0)];
     State qv0 GOT_NOTHING COPY_NOWHERE [([QVALUE_], qv1)];
     State qv1 GOT_NOTHING COPY_TO_VALUE [([QVALUE_], qv1); ([], qv2)];
     State qv2 GOT_NOTHING COPY_NOWHERE [([ch_ 34], l_out)]]
  | digits => [State l_in GOT_NOTHING COPY_NOWHERE [([[Cl DIGIT]], l_out); ([[Cl DIGIT]], l_in)]]
  | minor =>
    [State l_in GOT_NOTHING COPY_NOWHERE [([MINOR_], minor1)];
     State minor1 GOT_NOTHING COPY_TO_MINOR [([MINOR_], minor1); ([], l_out)]]
  | namevalue =>
    [State l_in GOT_NOTHING COPY_NOWHERE
      [([OWS; [Inst name]; OWS; ch_ 61], rhs_normal);
       ([OWS; [Inst name]; ch_ 42; [Inst digits]; OWS; ch_ 61], rhs_continue);
       ([OWS; [Inst name]; ch_ 42; OWS; ch_ 61], rhs_charset);
       ([OWS; [Inst name]; ch_ 42; ch_ 48; ch_ 42; OWS; ch_ 61], rhs_charset);
       ([OWS; [Inst name]; ch_ 42; [Cl NOT_ZERO]; ch_ 42; OWS; ch_ 61], rhs_charset_continue)];
     State rhs_normal GOT_NOTHING COPY_NOWHERE
      [([OWS; [Inst qvalue]; OWS], out_normal); ([OWS; [Inst value]; OWS], out_normal); ([OWS; [Eps]; [EOS]], out_normal)];
     State rhs_continue GOT_NOTHING COPY_NOWHERE [([OWS; [Inst qvalue]; OWS], out_continue); ([OWS; [Inst value]; OWS], out_continue)];
     State rhs_charset GOT_NOTHING COPY_NOWHERE
      [([OWS; ch_ 39; ch_ 39; [Inst value]; OWS], out_charset); ([OWS; [Inst minor]; ch_ 39; ch_ 39; [Inst value]; OWS], out_charset)];
     State rhs_charset_continue GOT_NOTHING COPY_NOWHERE [([OWS; [Inst value]; OWS], out_charset_continue)];
     State out_normal GOT_NAMEVALUE COPY_NOWHERE [([], l_out)];
     State out_continue GOT_NAMEVALUE_CONT COPY_NOWHERE [([], l_out)];
     State out_charset GOT_NAMEVALUE_CSET COPY_NOWHERE [([], l_out)];
     State out_charset_continue GOT_NAMEVALUE_CCONT COPY_NOWHERE [([], l_out)]]
  | major =>
    [State l_in GOT_NOTHING COPY_NOWHERE [([NAME1_], name1)];
     State name1 GOT_NOTHING COPY_NOWHERE [([NAME1_], name1); ([], l_out)]]
  | majorminor =>
    [State l_in GOT_NOTHING COPY_NOWHERE [([[Inst major]], foo)];
     State foo GOT_NOTHING COPY_NOWHERE [([ch_ 47], bar)];
     State bar GOT_NOTHING COPY_NOWHERE [([[Inst minor]], l_out)];
     State l_out GOT_MAJORMINOR COPY_NOWHERE []]
  | component => [State l_in GOT_NOTHING COPY_NOWHERE [([[Inst namevalue]], l_out); ([[Inst name]], l_out); ([[Inst majorminor]], l_out)]]
  | main =>
    [State l_in GOT_NOTHING COPY_NOWHERE
      [([OWS; [Inst component]; OWS; [EOS]], out2);
       ([OWS; [Inst component]; OWS; ch_ 59; OWS; [EOS]], out2);
       ([OWS; [Inst component]; OWS; ch_ 59], in2)];
     State in2 GOT_TERMINATOR COPY_NOWHERE [([], l_in)];
     State out2 GOT_TERMINATOR COPY_NOWHERE [([], l_out)]]
  end.

(* An NFA state: where in a block, and for each enclosing instance where in its block it returns to.
   A place is a state of the block (t = 0), or within transition t (counted from 1) of it after i stimuli. *)
Definition place : Type := block * label * nat * nat.
Definition nstate : Type := list place.
Scheme Equality for block.
Scheme Equality for label.
Definition place_eqb (x y : place) : bool :=
  let '(b, l, t, i) := x in let '(b', l', t', i') := y in block_beq b b' && label_beq l l' && (t =? t')%nat && (i =? i')%nat.
Fixpoint nstate_eqb (x y : nstate) : bool :=
  match x, y with
  | [], [] => true
  | p :: x', q :: y' => place_eqb p q && nstate_eqb x' y'
  | _, _ => false
  end.
Definition decl_of (b : block) (l : label) : state_decl :=
  match find (fun s => label_beq (s_label s) l) (states_of b) with
  | Some s => s
  | None => State l GOT_NOTHING COPY_NOWHERE []
  end.
Definition nth_trans (b : block) (l : label) (t : nat) : list stim * label := nth t (s_trans (decl_of b l)) ([], l).
(* Where an epsilon leads, and where a symbol (None is EOS) leads. *)
Definition epsilons (s : nstate) : list nstate :=
  match s with
  | [] => []
  | (b, l, O, _) :: r =>
    map (fun t => (b, l, S t, O) :: r) (seq 0 (length (s_trans (decl_of b l)))) ++
    match l, r with l_out, _ :: _ => [r] | _, _ => [] end
  | (b, l, S t, i) :: r =>
    let '(ss, target) := nth_trans b l t in
    match nth_error ss i with
    | None => [(b, target, O, O) :: r]
    | Some alts => concat (map (fun a => match a with Eps => [(b, l, S t, S i) :: r] | Inst b' => [(b', l_in, O, O) :: (b, l, S t, S i) :: r] | _ => [] end) alts)
    end
  end.
Definition moves (c : option N) (s : nstate) : list nstate :=
  match s with
  | (b, l, S t, i) :: r =>
    match nth_error (fst (nth_trans b l t)) i with
    | None => []
    | Some alts =>
      if existsb (fun a => match a, c with Cl k, Some x => has k x | EOS, None => true | _, _ => false end) alts then [(b, l, S t, S i) :: r] else []
    end
  | _ => []
  end.
Definition tagged (s : nstate) : state_decl :=
  match s with (b, l, O, _) :: _ => decl_of b l | _ => State l_in GOT_NOTHING COPY_NOWHERE [] end.
(* Whether a state has an attribute or can be left by a symbol; only such states are kept in a set. *)
Definition useful (s : nstate) : bool :=
  match s with
  | (b, l, O, _) :: _ => match s_action (decl_of b l), s_copier (decl_of b l) with GOT_NOTHING, COPY_NOWHERE => false | _, _ => true end
  | (b, l, S t, i) :: _ =>
    match nth_error (fst (nth_trans b l t)) i with
    | None => false
    | Some alts => existsb (fun a => match a with Cl _ | EOS => true | _ => false end) alts
    end
  | [] => false
  end.
Definition dstate : Type := list nstate.
(* What epsilons lead to; no path of them is longer than 30 (checked in L_Nvp). *)
Fixpoint close (fuel : nat) (s : nstate) : dstate :=
  match fuel with
  | O => []
  | S f => (if useful s then [s] else []) ++ concat (map (close f) (epsilons s))
  end.
(* each state once *)
Fixpoint once (ss done : list nstate) : dstate :=
  match ss with
  | [] => rev done
  | s :: ss' => once ss' (if existsb (nstate_eqb s) done then done else s :: done)
  end.
Definition closure (ss : list nstate) : dstate := once (concat (map (close 30) ss)) [].
Definition nvp_in : dstate := closure [[(main, l_in, O, O)]].
Definition nvp_next_state (d : dstate) (c : option N) : dstate := closure (concat (map (moves c) d)).
Definition nvp_action (d : dstate) : action :=
  match find (fun a => match a with GOT_NOTHING => false | _ => true end) (map (fun s => s_action (tagged s)) d) with Some a => a | None => GOT_NOTHING end.
Definition nvp_copier (d : dstate) : copier :=
  match find (fun a => match a with COPY_NOWHERE => false | _ => true end) (map (fun s => s_copier (tagged s)) d) with Some a => a | None => COPY_NOWHERE end.

(* nvp.c 36-52 *)
Inductive nvp_type := NVP_NAME | NVP_MAJORMINOR | NVP_NAMEVALUE.
Record nvp_entry := Entry { e_type : nvp_type; e_lhs : bytes; e_rhs : bytes }.
(* 53-68 append: a missing string becomes an empty one *)
Definition or_empty (s : option bytes) : bytes := match s with Some x => x | None => [] end.
(* 103-122 combine_namevalue, when some entry has the name already *)
Fixpoint combine_into (es : list nvp_entry) (nm v : bytes) : option (list nvp_entry) :=
  match es with
  | [] => None
  | e :: es' =>
    match e_type e with
    | NVP_NAMEVALUE => if bytes_eqb (e_lhs e) nm then Some (Entry NVP_NAMEVALUE (e_lhs e) (e_rhs e ++ v) :: es')
                       else option_map (cons e) (combine_into es' nm v)
    | _ => option_map (cons e) (combine_into es' nm v)
    end
  end.
(* 123-133 hex_to_val *)
Definition nvp_hex (c : N) : Z :=
  if isdigit c then Z.of_N c - 48
  else if between 97 102 c then 10 + Z.of_N c - 97
  else if between 65 70 c then 10 + Z.of_N c - 65
  else -1.
(* 267-291: %xx in a value; None means the header could not be parsed *)
Fixpoint percent (s : bytes) : option bytes :=
  match s with
  | [] => Some []
  | c :: s' =>
    if c =? 37 then
      match s' with
      | x :: y :: s'' =>
        if ((nvp_hex x <? 0) || (nvp_hex y <? 0))%Z then None
        else option_map (cons (Z.to_N (nvp_hex x * 16 + nvp_hex y))) (percent s'')
      | _ => None
      end
    else option_map (cons c) (percent s')
  end.
(* 258-262: drop the spaces at the end; there is something else before them *)
Fixpoint trim (isspc : N -> bool) (rev_s : bytes) : res bytes :=
  match rev_s with
  | [] => Err E_oob
  | c :: s' => if isspc c then trim isspc s' else Ok (rev rev_s)
  end.
Record nvp_vars := { x_name : option bytes; x_minor : option bytes; x_value : option bytes; x_result : list nvp_entry }.
(* 250-303: what is done at a terminator; None: could not be parsed.  A decoded value ends at its first NUL. *)
Definition terminator (isspc : N -> bool) (last : action) (x : nvp_vars) : res (option nvp_vars) :=
  let append e x := {| x_name := x_name x; x_minor := x_minor x; x_value := x_value x; x_result := x_result x ++ [e] |} in
  let no_name x := {| x_name := None; x_minor := x_minor x; x_value := x_value x; x_result := x_result x |} in
  let no_value x := {| x_name := x_name x; x_minor := x_minor x; x_value := None; x_result := x_result x |} in
  let no_minor x := {| x_name := x_name x; x_minor := None; x_value := x_value x; x_result := x_result x |} in
  let combine v x :=
    match x_name x with
    | None => Err E_oob
    | Some n =>
      match combine_into (x_result x) n v with
      | Some es => Ok (Some {| x_name := x_name x; x_minor := x_minor x; x_value := Some v; x_result := es |})
      | None => Ok (Some (no_name (no_value (append (Entry NVP_NAMEVALUE n v) x))))
      end
    end in
  match last with
  | GOT_NAME => Ok (Some (no_name (append (Entry NVP_NAME (or_empty (x_name x)) []) x)))
  | GOT_NAME_TRAILING_SPACE =>
    match x_name x with
    | None => Err E_oob
    | Some n => let! n := trim isspc (rev n) in Ok (Some (no_name (append (Entry NVP_NAME n []) x)))
    end
  | GOT_MAJORMINOR => Ok (Some (no_name (no_minor (append (Entry NVP_MAJORMINOR (or_empty (x_name x)) (or_empty (x_minor x))) x))))
  | GOT_NAMEVALUE => Ok (Some (no_name (no_value (append (Entry NVP_NAMEVALUE (or_empty (x_name x)) (or_empty (x_value x))) x))))
  | GOT_NAMEVALUE_CSET | GOT_NAMEVALUE_CCONT =>
    match x_value x with
    | None => Err E_oob
    | Some v => match percent v with None => Ok None | Some v => combine (M_Tokens.cstr v) x end
    end
  | GOT_NAMEVALUE_CONT => match x_value x with None => Err E_oob | Some v => combine v x end
  | GOT_TERMINATOR | GOT_NOTHING => Ok (Some x)
  end.
(* 193-229: where the copied text goes *)
Definition flush (k : copier) (text : bytes) (x : nvp_vars) : nvp_vars :=
  match k with
  | COPY_TO_NAME => {| x_name := Some text; x_minor := x_minor x; x_value := x_value x; x_result := x_result x |}
  | COPY_TO_MINOR => {| x_name := x_name x; x_minor := Some text; x_value := x_value x; x_result := x_result x |}
  | COPY_TO_VALUE => {| x_name := x_name x; x_minor := x_minor x; x_value := Some text; x_result := x_result x |}
  | COPY_NOWHERE => x
  end.
Scheme Equality for copier.
(* 168-308: the loop; text is what lies between copy_start and q, last byte first *)
Fixpoint nvp_loop (isspc : N -> bool) (s : bytes) (d : dstate) (last : action) (last_copier : copier) (text : bytes) (x : nvp_vars) : res (option (list nvp_entry)) :=
  let d := nvp_next_state d (match s with [] => None | c :: _ => Some c end) in
  match d with
  | [] => Ok None
  | _ =>
    let x := if copier_beq (nvp_copier d) last_copier then x else flush last_copier (rev text) x in
    let text := if copier_beq (nvp_copier d) last_copier then text else [] in
    let! y := match nvp_action d with
              | GOT_TERMINATOR => let! x := terminator isspc last x in Ok (x, GOT_NOTHING)
              | GOT_NOTHING => Ok (Some x, last)
              | a => Ok (Some x, a)
              end in
    match fst y with
    | None => Ok None
    | Some x =>
      match s with
      | [] => Ok (Some (x_result x))
      | c :: s' => nvp_loop isspc s' d (snd y) (nvp_copier d) (c :: text) x
      end
    end
  end.
(* 147-316 make_nvp; pfx is in lower case *)
Definition make_nvp (isspc : N -> bool) (s pfx : bytes) : res (option (list nvp_entry)) :=
  if match_string pfx s then
    nvp_loop isspc (skipn (length pfx) s) nvp_in GOT_NOTHING COPY_NOWHERE [] {| x_name := None; x_minor := None; x_value := None; x_result := [] |}
  else Ok None.

(* strcasecmp(a, b) == 0 *)
Fixpoint case_eqb (a b : bytes) : bool :=
  match a, b with
  | [], [] => true
  | x :: a', y :: b' => (tolower x =? tolower y) && case_eqb a' b'
  | _, _ => false
  end.
(* 330-341 nvp_lookup, 343-354 nvp_lookupcase *)
Definition nvp_lookup (es : list nvp_entry) (nm : bytes) : option bytes :=
  option_map e_rhs (find (fun e => match e_type e with NVP_NAMEVALUE => bytes_eqb (e_lhs e) nm | _ => false end) es).
Definition nvp_lookupcase (es : list nvp_entry) (nm : bytes) : option bytes :=
  option_map e_rhs (find (fun e => match e_type e with NVP_NAMEVALUE => case_eqb (e_lhs e) nm | _ => false end) es).
(* 378-430 nvp_major, nvp_minor, nvp_first: only the first entry counts *)
Definition nvp_major (es : list nvp_entry) : option bytes := match es with Entry NVP_MAJORMINOR l _ :: _ => Some l | _ => None end.
Definition nvp_minor (es : list nvp_entry) : option bytes := match es with Entry NVP_MAJORMINOR _ r :: _ => Some r | _ => None end.
Definition nvp_first (es : list nvp_entry) : option bytes := match es with Entry NVP_NAME l _ :: _ => Some l | _ => None end.
