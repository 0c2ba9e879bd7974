(* What dfasyn/scan.l asks of flex: its rules, in order, and how flex chooses among them: the longest match, and the first of the rules with that match. *)
From Verif Require Import Base M_Scan.
Local Open Scope N_scope.

Inductive pattern := AnyOf (ws : list bytes) | One (p : N -> bool) | Many (p : N -> bool) | Then (a b : pattern).
Fixpoint matches (p : pattern) (y : bytes) : Prop :=
  match p with
  | AnyOf ws => In y ws
  | One p => exists c, y = [c] /\ p c = true
  | Many p => forallb p y = true
  | Then a b => exists u v, y = u ++ v /\ matches a u /\ matches b v
  end.
(* what is done with the text of a match: perhaps go to another start condition, perhaps give a token; or end the program with code 1 *)
Inductive action := Do (begin : option start) (give : option (bytes -> token)) | Quit.
(* where: the start condition; bol: the rule begins with ^; eol: it ends with $ *)
Record rule := Rule { where_ : start; bol : bool; pat : pattern; eol : bool; act : action }.

Definition give (t : token) : action := Do None (Some (fun _ => t)).
Definition give_char (f : bytes -> N) : action := Do None (Some (fun y => CHAR (f y))).
Definition one_of (cs : bytes) (c : N) : bool := existsb (N.eqb c) cs.
Definition between (lo hi c : N) : bool := (lo <=? c) && (c <=? hi).
Definition name_char (c : N) : bool := between 65 90 c || between 97 122 c || between 48 57 c || one_of (bs "_.") c.
Definition space (c : N) : bool := one_of [32; 9] c.
Definition dot (c : N) : bool := negb (c =? 10).
Definition octal_digit : N -> bool := between 48 55.
Definition hex_digit (c : N) : bool := between 48 57 c || between 97 102 c || between 65 70 c.
Definition digit (c : N) : N := if c <=? 57 then c - 48 else if c <=? 70 then c - 55 else c - 87.
(* %x and %o of sscanf, and the conversion to char *)
Definition number (base : N) (ds : bytes) : N := fold_left (fun n d => n * base + digit d) ds 0 mod 256.

(* scan.l 41-58 *)
Definition word_rules : list (list bytes * token) := map (fun k => (map bs (fst k), snd k))
  [(["STATE"; "State"; "state"], STATE); (["ABBREV"; "Abbrev"; "abbrev"], ABBREV); (["DEFINE"; "Define"; "define"], DEFINE); (["TOKENS"; "Tokens"; "tokens"], TOKENS);
   (["PREFIX"; "Prefix"; "prefix"], PREFIX); (["BLOCK"; "Block"; "block"], BLOCK); (["TYPE"; "Type"; "type"], TYPE); (["ENTRY"; "Entry"; "entry"], ENTRY);
   (["ENTRYSTRUCT"], ENTRYSTRUCT); (["EntryStruct"], ENTRYSTRUCT); (["Entrystruct"], ENTRYSTRUCT); (["entrystruct"], ENTRYSTRUCT);
   (["ATTR"; "Attr"; "attr"], ATTR); (["EARLY"; "Early"; "early"], EARLY); (["DEFATTR"; "DefAttr"], DEFATTR); (["Defattr"; "defattr"], DEFATTR);
   (["TAG"; "Tag"; "tag"], TAG); (["GROUP"; "Group"; "group"], GROUP)]%string.
Definition word_rule (k : list bytes * token) : rule := Rule INITIAL false (AnyOf (fst k)) false (give (snd k)).
Definition mark (s : string) (t : token) : rule := Rule INITIAL false (AnyOf [bs s]) false (give t).
(* 94-102 *)
Definition escape (s : string) (c : N) : rule := Rule CHARCLASS false (AnyOf [92 :: bs s]) false (give_char (fun _ => c)).
(* 59-106 *)
Definition rules : list rule := map word_rule word_rules ++
  [Rule INITIAL false (Then (One name_char) (Many name_char)) false (Do None (Some STRING));
   Rule INITIAL false (Then (AnyOf [bs "#"]) (Many dot)) true (Do None None);
   mark "->" ARROW; mark "=" EQUAL; mark "|" PIPE; mark "&" AND; mark "~" NOT; mark "!" NOT; mark "^" XOR; mark "?" QUERY; mark ":" COLON; mark ";" SEMICOLON;
   mark "(" LPAREN; mark ")" RPAREN; mark "{" LBRACE; mark "}" RBRACE; mark "<" LANGLE; mark ">" RANGLE;
   Rule INITIAL false (AnyOf [bs "["]) false (Do (Some CHARCLASS) (Some (fun _ => LSQUARE)));
   Rule INITIAL false (AnyOf [bs "[^"]) false (Do (Some CHARCLASS) (Some (fun _ => LSQUARE_CARET)));
   mark "," COMMA;
   Rule INITIAL false (AnyOf [[10]]) false (Do None None);
   Rule INITIAL false (Then (One space) (Many space)) false (Do None None);
   Rule INITIAL true (Then (AnyOf [bs "%{"]) (Then (Many space) (AnyOf [[10]]))) false (Do (Some PASSTHRU) None);
   Rule INITIAL false (AnyOf [[34]]) false (Do (Some STR) None);
   Rule INITIAL false (One dot) false Quit;
   Rule PASSTHRU true (Then (AnyOf [bs "%}"]) (Then (Many space) (AnyOf [[10]]))) false (Do (Some INITIAL) None);
   Rule PASSTHRU false (AnyOf [[10]]) false (Do None None);
   Rule PASSTHRU false (Then (One dot) (Many dot)) false (Do None None);
   Rule STR false (AnyOf [[34]]) false (Do (Some INITIAL) None);
   Rule STR false (Many (fun c => negb (c =? 34))) false (Do None (Some STRING));
   Rule CHARCLASS false (AnyOf [bs "]"]) false (Do (Some INITIAL) (Some (fun _ => RSQUARE)));
   Rule CHARCLASS false (AnyOf [bs "-"]) false (give HYPHEN);
   escape "-" 45; escape "]" 93; escape "^" 94; escape "n" 10; escape "r" 13; escape "f" 12; escape "t" 9; escape "\" 92;
   Rule CHARCLASS false (Then (AnyOf [bs "^"]) (One (between 64 90))) false (give_char (fun y => nth 1 y 0 - 64));
   Rule CHARCLASS false (Then (AnyOf [bs "\x"]) (Then (One hex_digit) (One hex_digit))) false (give_char (fun y => number 16 (skipn 2 y)));
   Rule CHARCLASS false (Then (AnyOf [bs "\"]) (Then (One octal_digit) (Then (One octal_digit) (One octal_digit)))) false (give_char (fun y => number 8 (skipn 1 y)));
   Rule CHARCLASS false (One dot) false (give_char (fun y => nth 0 y 0))].

(* the rule can take y from the beginning of s *)
Definition applies (st : start) (at_bol : bool) (s : bytes) (r : rule) (y : bytes) : Prop :=
  where_ r = st /\ (bol r = true -> at_bol = true) /\ matches (pat r) y /\ exists z, s = y ++ z /\ (eol r = true -> exists z', z = 10 :: z').
Definition weight (r : rule) (y : bytes) : nat := (length y + if eol r then 1 else 0)%nat.
Definition chosen (st : start) (at_bol : bool) (s : bytes) (r : rule) (y : bytes) : Prop :=
  applies st at_bol s r y /\
  exists i, nth_error rules i = Some r /\
    forall j r' y', nth_error rules j = Some r' -> applies st at_bol s r' y' -> (weight r' y' < weight r y)%nat \/ (weight r' y' = weight r y /\ (i <= j)%nat).
Definition prepend (t : option token) (o : res (list token)) : res (list token) := match t, o with Some t, Ok ts => Ok (t :: ts) | _, _ => o end.
(* all that is read: a character that no rule takes is written to the output *)
Inductive scans : start -> bool -> bytes -> res (list token) -> Prop :=
| sc_end st b : scans st b [] (Ok [])
| sc_quit st b s r y : s <> [] -> chosen st b s r y -> act r = Quit -> scans st b s (Err (E_exit 1))
| sc_take st b y z r begin give o : y ++ z <> [] -> chosen st b (y ++ z) r y -> act r = Do begin give ->
    scans (match begin with Some st' => st' | None => st end) (last y 0 =? 10) z o -> scans st b (y ++ z) (prepend (option_map (fun g => g y) give) o)
| sc_echo st b c s o : (forall r y, In r rules -> ~ applies st b (c :: s) r y) -> scans st (c =? 10) s o -> scans st b (c :: s) o.
