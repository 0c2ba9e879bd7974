(* Model of dfasyn/scan.l: the text of a scanner description (.nfa file) as a list of tokens.  flex takes the longest
   match, and the first rule among those with the longest. *)
From Verif Require Import Base.
Local Open Scope N_scope.

(* parse.y 51-74 *)
Inductive token :=
| STATE | ABBREV | DEFINE | TOKENS | PREFIX | BLOCK | TYPE | ENTRY | ENTRYSTRUCT | ATTR | EARLY | DEFATTR | TAG | GROUP
| STRING (s : bytes) | ARROW | EQUAL | PIPE | AND | NOT | XOR | QUERY | COLON | SEMICOLON | LPAREN | RPAREN | LBRACE | RBRACE
| LANGLE | RANGLE | LSQUARE | LSQUARE_CARET | COMMA | RSQUARE | HYPHEN | CHAR (c : N).
(* scan.l 35-37: the start conditions *)
Inductive start := INITIAL | PASSTHRU | STR | CHARCLASS.

Definition range (lo hi c : N) : bool := (lo <=? c) && (c <=? hi).
(* 59: characters of names *)
Definition word_char (c : N) : bool := range 65 90 c || range 97 122 c || range 48 57 c || (c =? 95) || (c =? 46).
(* 41-58 *)
Definition keywords : list (bytes * token) := map (fun k => (bs (fst k), snd k))
  [("STATE", STATE); ("State", STATE); ("state", STATE); ("ABBREV", ABBREV); ("Abbrev", ABBREV); ("abbrev", ABBREV);
   ("DEFINE", DEFINE); ("Define", DEFINE); ("define", DEFINE); ("TOKENS", TOKENS); ("Tokens", TOKENS); ("tokens", TOKENS);
   ("PREFIX", PREFIX); ("Prefix", PREFIX); ("prefix", PREFIX); ("BLOCK", BLOCK); ("Block", BLOCK); ("block", BLOCK);
   ("TYPE", TYPE); ("Type", TYPE); ("type", TYPE); ("ENTRY", ENTRY); ("Entry", ENTRY); ("entry", ENTRY);
   ("ENTRYSTRUCT", ENTRYSTRUCT); ("EntryStruct", ENTRYSTRUCT); ("Entrystruct", ENTRYSTRUCT); ("entrystruct", ENTRYSTRUCT);
   ("ATTR", ATTR); ("Attr", ATTR); ("attr", ATTR); ("EARLY", EARLY); ("Early", EARLY); ("early", EARLY);
   ("DEFATTR", DEFATTR); ("DefAttr", DEFATTR); ("Defattr", DEFATTR); ("defattr", DEFATTR);
   ("TAG", TAG); ("Tag", TAG); ("tag", TAG); ("GROUP", GROUP); ("Group", GROUP); ("group", GROUP)]%string.
Definition word_token (w : bytes) : token := match find (fun k => bytes_eqb (fst k) w) keywords with Some k => snd k | None => STRING w end.
(* 62-79: marks of one character *)
Definition marks : list (N * token) :=
  [(61, EQUAL); (124, PIPE); (38, AND); (126, NOT); (33, NOT); (94, XOR); (63, QUERY); (58, COLON); (59, SEMICOLON); (40, LPAREN); (41, RPAREN);
   (123, LBRACE); (125, RBRACE); (60, LANGLE); (62, RANGLE); (44, COMMA)].
Fixpoint take_while (p : N -> bool) (s : bytes) : bytes * bytes :=
  match s with
  | c :: s' => if p c then let (a, b) := take_while p s' in (c :: a, b) else ([], s)
  | [] => ([], [])
  end.
Definition not_newline (c : N) : bool := negb (c =? 10).
Definition blank (c : N) : bool := (c =? 32) || (c =? 9).
(* the rest after blanks and a newline: [ \t]*\n *)
Definition blank_line (s : bytes) : option bytes := match snd (take_while blank s) with 10 :: s' => Some s' | _ => None end.
Definition octal (c : N) : bool := range 48 55 c.
Definition hex (c : N) : option N :=
  if range 48 57 c then Some (c - 48) else if range 97 102 c then Some (c - 87) else if range 65 70 c then Some (c - 55) else None.
(* 95-106: a character in brackets, and the rest.  A backslash that starts none of the sequences stands for itself. *)
Definition class_char (s : bytes) : option (N * bytes) :=
  match s with
  | [] => None
  | 92 :: c :: s' =>
    if (c =? 45) || (c =? 93) || (c =? 94) || (c =? 92) then Some (c, s')
    else if c =? 110 then Some (10, s') else if c =? 114 then Some (13, s') else if c =? 102 then Some (12, s') else if c =? 116 then Some (9, s')
    else match c =? 120, s' with
    | true, x :: y :: s'' => match hex x, hex y with Some a, Some b => Some (a * 16 + b, s'') | _, _ => Some (92, c :: s') end
    | _, _ =>
      match s' with
      | d :: e :: s'' => if octal c && octal d && octal e then Some (((c - 48) * 64 + (d - 48) * 8 + (e - 48)) mod 256, s'') else Some (92, c :: s')
      | _ => Some (92, c :: s')
      end
    end
  | 94 :: c :: s' => if range 64 90 c then Some (c - 64, s') else Some (94, c :: s')
  | c :: s' => Some (c, s')
  end.
(* bol: at the beginning of a line.  Each step takes some of the text. *)
Fixpoint lex (fuel : nat) (st : start) (bol : bool) (s : bytes) : res (list token) :=
  match fuel with
  | O => match s with [] => Ok [] | _ => Err E_fuel end
  | S f =>
    match s with
    | [] => Ok []
    | c :: s' =>
      match st with
      | INITIAL =>
        if word_char c then let (w, r) := take_while word_char s in let! ts := lex f INITIAL false r in Ok (word_token w :: ts)
        else if c =? 10 then lex f INITIAL true s'
        else if blank c then lex f INITIAL false (snd (take_while blank s))
        else if c =? 35 then (* 60: a comment ends at a newline, which is not taken *)
          match snd (take_while not_newline s') with [] => Err (E_exit 1) | r => lex f INITIAL false r end
        else if c =? 45 then match s' with 62 :: r => let! ts := lex f INITIAL false r in Ok (ARROW :: ts) | _ => Err (E_exit 1) end
        else if c =? 91 then
          match s' with
          | 94 :: r => let! ts := lex f CHARCLASS false r in Ok (LSQUARE_CARET :: ts)
          | _ => let! ts := lex f CHARCLASS false s' in Ok (LSQUARE :: ts)
          end
        else if c =? 34 then lex f STR false s'
        else if c =? 37 then
          match bol, s' with
          | true, 123 :: r => match blank_line r with Some r' => lex f PASSTHRU true r' | None => Err (E_exit 1) end
          | _, _ => Err (E_exit 1)
          end
        else match find (fun m => fst m =? c) marks with
        | Some m => let! ts := lex f INITIAL false s' in Ok (snd m :: ts)
        | None => Err (E_exit 1)
        end
      | PASSTHRU =>
        if c =? 10 then lex f PASSTHRU true s'
        else match bol, s with
        | true, 37 :: 125 :: r => match blank_line r with Some r' => lex f INITIAL true r' | None => lex f PASSTHRU false (snd (take_while not_newline s)) end
        | _, _ => lex f PASSTHRU false (snd (take_while not_newline s))
        end
      | STR =>
        if c =? 34 then lex f INITIAL false s'
        else let (w, r) := take_while (fun c => negb (c =? 34)) s in let! ts := lex f STR false r in Ok (STRING w :: ts)
      | CHARCLASS =>
        if c =? 93 then let! ts := lex f INITIAL false s' in Ok (RSQUARE :: ts)
        else if c =? 45 then let! ts := lex f CHARCLASS false s' in Ok (HYPHEN :: ts)
        else if c =? 10 then lex f CHARCLASS true s' (* no rule: written to the output *)
        else match class_char s with Some (x, r) => let! ts := lex f CHARCLASS false r in Ok (CHAR x :: ts) | None => Err E_fuel end
      end
    end
  end.
Definition tokens_of (text : bytes) : res (list token) := lex (length text) INITIAL true text.
