(* What a scanner description (.nfa file) means, said without tables, bit maps or sets of states: characters in a class,
   paths through the automaton, the tags and attributes that hold after some input. *)
From Coq Require Import Permutation Sorted.
From Verif Require Import Base M_Charclass M_Dfasyn M_Compdfa.

(* The characters of a class: as in [a-z_], [^a-z], ~[a-z], [a-z]~[aeiou]. *)
Definition listed (c : nat) (s : simple_class) : bool :=
  existsb (fun i => match i with Cc_char d => c =? d | Cc_range a b => (Nat.min a b <=? c) && (c <=? Nat.max a b) end) (body s).
Definition in_simple (c : nat) (s : simple_class) : bool := xorb (caret s) (listed c s).
Definition in_class (c : nat) (k : char_class) : bool :=
  match k with
  | Cc_simple s => in_simple c s
  | Cc_negated s => negb (in_simple c s)
  | Cc_diff s t => in_simple c s && negb (in_simple c t)
  end.
(* Classes are written with characters. *)
Definition of_chars (s : simple_class) : Prop :=
  Forall (fun i => match i with Cc_char d => d < 256 | Cc_range a b => a < 256 /\ b < 256 end) (body s).
Definition class_chars (k : char_class) : Prop :=
  match k with Cc_simple s => of_chars s | Cc_negated s => of_chars s | Cc_diff s t => of_chars s /\ of_chars t end.
(* The characters the program takes to be in a class although they are not: certain ones with code 31, 63, ..., 255 that
   are listed in a class with a negation. *)
Definition misread (c : nat) (k : char_class) : bool :=
  (c mod 32 =? 31) &&
  match k with
  | Cc_simple s => caret s && listed c s
  | Cc_negated s => negb (caret s) && listed c s
  | Cc_diff s t => (caret s || caret t) && listed c s && negb (listed c t)
  end.
Definition never_misread (k : char_class) : Prop := forall c, c < 256 -> misread c k = false.

(* What is read: a token by name (number), or a character. *)
Inductive symbol := Tok (t : nat) | Chr (c : nat).
Definition fits (classes : list char_class) (y : trans_type) (s : symbol) : Prop :=
  match y, s with
  | TT_TOKEN t, Tok u => t = u
  | TT_CHARCLASS k, Chr c => exists cc, nth_error classes k = Some cc /\ in_class c cc = true
  | _, _ => False
  end.
Definition edge (b : block) (p : nat) (y : trans_type) (q : nat) : Prop := exists st, nth_error b p = Some st /\ In (y, q) (transitions st).
(* path F p w q: from state p one may come to state q while reading w. *)
Inductive path (F : nfa_file) : nat -> list symbol -> nat -> Prop :=
| path_end q : path F q [] q
| path_eps p q w r : edge (f_block F) p TT_EPSILON q -> path F q w r -> path F p w r
| path_read p y s q w r : edge (f_block F) p y q -> fits (f_classes F) y s -> path F q w r -> path F p (s :: w) r.
(* The tag is on a state one may be in. *)
Definition tagged (F : nfa_file) (e : nat) (w : list symbol) (tag : bytes) : Prop :=
  exists q st, path F e w q /\ nth_error (f_block F) q = Some st /\ In tag (tags st).

(* The definition of a tag is the last one of its name. *)
Fixpoint last_definition (defs : tag_defs) (n : bytes) : option expr :=
  match defs with
  | [] => None
  | d :: r => match last_definition r n with Some e => Some e | None => if bytes_eqb (fst d) n then Some (snd d) else None end
  end.
(* truth defs on e v: the expression e has the value v, if the tags without definition that are set are those of on *)
Inductive truth (defs : tag_defs) (on : bytes -> Prop) : expr -> bool -> Prop :=
| T_and a b x y : truth defs on a x -> truth defs on b y -> truth defs on (E_AND a b) (x && y)
| T_and_no a b : truth defs on a false -> truth defs on (E_AND a b) false
| T_or a b x y : truth defs on a x -> truth defs on b y -> truth defs on (E_OR a b) (x || y)
| T_or_yes a b : truth defs on a true -> truth defs on (E_OR a b) true
| T_xor a b x y : truth defs on a x -> truth defs on b y -> truth defs on (E_XOR a b) (xorb x y)
| T_then a b c y : truth defs on a true -> truth defs on b y -> truth defs on (E_COND a b c) y
| T_else a b c y : truth defs on a false -> truth defs on c y -> truth defs on (E_COND a b c) y
| T_not a x : truth defs on a x -> truth defs on (E_NOT a) (negb x)
| T_set n : last_definition defs n = None -> on n -> truth defs on (E_TAG n) true
| T_unset n : last_definition defs n = None -> ~ on n -> truth defs on (E_TAG n) false
| T_def n e v : last_definition defs n = Some e -> truth defs on e v -> truth defs on (E_TAG n) v.

(* After reading w from entry e: which lines (value, condition, early) of an attribute apply. *)
Definition applies (F : nfa_file) (e : nat) (w : list symbol) (line : bytes * expr * bool) : Prop :=
  truth (r_defs (f_rules F)) (tagged F e w) (snd (fst line)) true.
(* The attribute has this value. *)
Definition has_value (F : nfa_file) (e : nat) (w : list symbol) (x : evaluator) (v : bytes) : Prop :=
  (exists line, In line (attrs x) /\ applies F e w line /\ v = fst (fst line)) \/
  ((forall line, In line (attrs x) -> ~ applies F e w line) /\ defattr x = Some v).
(* A line marked early applies: reading ends here. *)
Definition stops (F : nfa_file) (e : nat) (w : list symbol) : Prop :=
  exists x line, In x (r_evs (f_rules F)) /\ In line (attrs x) /\ applies F e w line /\ snd line = true.
(* Reading w goes on after a place where it ends. *)
Definition overrun (F : nfa_file) (e : nat) (w : list symbol) : Prop := exists u v, w = u ++ v /\ v <> [] /\ stops F e u.
(* One may read w. *)
Definition readable (F : nfa_file) (e : nat) (w : list symbol) : Prop := (exists q, path F e w q) /\ ~ overrun F e w.
(* w contains tokens and characters there are *)
Definition known (F : nfa_file) (w : list symbol) : Prop := Forall (fun s => match s with Tok t => t < f_ntokens F | Chr c => c < 256 end) w.

(* Using the scanner: char2tok for characters, then next_state; stop at -1. *)
Definition token_of (sc : scanner) (s : symbol) : Z := match s with Tok t => Z.of_nat t | Chr c => nth c (sc_char2tok sc) (-1)%Z end.
Fixpoint scan (next : Z -> Z -> res Z) (sc : scanner) (current : Z) (w : list symbol) : res Z :=
  match w with
  | [] => Ok current
  | s :: w' => if (current <? 0)%Z then Ok (-1)%Z else let! z := next current (token_of sc s) in scan next sc z w'
  end.
(* The value of attribute number i in a state. *)
Definition attr_of (sc : scanner) (i : nat) (current : Z) : option bytes := nth (Z.to_nat current) (nth i (sc_attrs sc) []) None.

(* qsort sorts what is there, if the comparison is an order of it. *)
Definition an_order (l : list nat) (cmp : nat -> nat -> comparison) : Prop :=
  (forall i j, In i l -> In j l -> cmp j i = CompOpp (cmp i j)) /\
  (forall i j k, In i l -> In j l -> In k l -> cmp i j <> Gt -> cmp j k <> Gt -> cmp i k <> Gt).
Definition sorts (qsort : sorter) : Prop :=
  forall cmp l, an_order l cmp -> Permutation l (qsort cmp l) /\ StronglySorted (fun i j => cmp i j <> Gt) (qsort cmp l).

(* The scanner's tables have room: states are short, tokens unsigned char and positions unsigned short in them. *)
Definition states (sc : scanner) : nat := length (tb_defstate (sc_tables sc)).
Definition roomy (sc : scanner) : Prop := (Z.of_nat (states sc) < 32768)%Z.
Definition roomy_compressed (sc : scanner) : Prop := roomy sc /\ sc_nt sc <= 256 /\ (N.of_nat (length (tb_token (sc_tables sc))) < 65536)%N.
(* next_state as it is written for the scanner, for either kind of table. *)
Definition next_state (sc : scanner) (next : Z -> Z -> res Z) : Prop :=
  (roomy sc /\ next = next_state_uncompressed (sc_nt sc) (sc_trans sc)) \/ (roomy_compressed sc /\ exists fuel, 2 <= fuel /\ next = next_state_compressed fuel (sc_tables sc)).
(* The state s tells what holds after w. *)
Definition tells (F : nfa_file) (e : nat) (w : list symbol) (sc : scanner) (s : Z) : Prop :=
  readable F e w /\ forall i x v, nth_error (r_evs (f_rules F)) i = Some x -> (attr_of sc i s = Some v <-> has_value F e w x v).
(* After w one may come, now or later, to where an attribute has not its default value. *)
Definition promising (F : nfa_file) (e : nat) (w : list symbol) : Prop :=
  exists u x v, known F u /\ readable F e (w ++ u) /\ In x (r_evs (f_rules F)) /\ has_value F e (w ++ u) x v /\ defattr x <> Some v.
(* What one learns at the end about attribute number i. *)
Definition shown (sc : scanner) (x : evaluator) (i : nat) (s : Z) : option bytes := if (s <? 0)%Z then defattr x else attr_of sc i s.
(* The class is read as it is written. *)
Definition class_ok (k : char_class) : Prop := class_chars k /\ never_misread k.
(* The class k is on a transition. *)
Definition used (F : nfa_file) (k : char_class) : Prop := exists i, nth_error (f_classes F) i = Some k /\ exists p q, edge (f_block F) p (TT_CHARCLASS i) q.

(* Two lines of an attribute apply. *)
Definition ambiguous (F : nfa_file) (e : nat) (w : list symbol) : Prop :=
  exists x l1 a l2 b l3, In x (r_evs (f_rules F)) /\ attrs x = l1 ++ a :: l2 ++ b :: l3 /\ applies F e w a /\ applies F e w b.
(* A tag on a state one may be in has a definition, too. *)
Definition mixed (F : nfa_file) (e : nat) (w : list symbol) : Prop := exists tag, tagged F e w tag /\ last_definition (r_defs (f_rules F)) tag <> None.
(* Nothing that can be read is ambiguous or mixed. *)
Definition faultless (F : nfa_file) : Prop := forall e w, In e (f_entries F) -> known F w -> readable F e w -> ~ ambiguous F e w /\ ~ mixed F e w.
(* Something can be read that is. *)
Definition faulty (F : nfa_file) : Prop := exists e w, In e (f_entries F) /\ known F w /\ readable F e w /\ (ambiguous F e w \/ mixed F e w).
(* The expression mentions the tag. *)
Fixpoint mentions (e : expr) (tag : bytes) : Prop :=
  match e with
  | E_AND a b | E_OR a b | E_XOR a b => mentions a tag \/ mentions b tag
  | E_COND a b c => mentions a tag \/ mentions b tag \/ mentions c tag
  | E_NOT a => mentions a tag
  | E_TAG n => n = tag
  end.
(* Definitions do not go round in circles: tags have ranks, and definitions mention only tags of lower rank. *)
Definition ranked (defs : tag_defs) : Prop := exists rank : bytes -> nat, forall n e, last_definition defs n = Some e -> forall tag, mentions e tag -> rank tag < rank n.
(* References are to states, tokens and classes there are. *)
Definition references_ok (F : nfa_file) : Prop :=
  (forall p y q, edge (f_block F) p y q -> q < length (f_block F) /\ match y with TT_EPSILON => True | TT_TOKEN t => t < f_ntokens F | TT_CHARCLASS k => k < length (f_classes F) end) /\
  (forall e, In e (f_entries F) -> e < length (f_block F)).
(* A description one may expect to be processed. *)
Record well_made (F : nfa_file) : Prop := {
  wm_default : forall x, In x (r_evs (f_rules F)) -> defattr x <> None;
  wm_refs : references_ok F;
  wm_classes : Forall class_ok (f_classes F);
  wm_chars : forall k, used F k -> exists c, c < 256 /\ in_class c k = true;
  wm_ranked : ranked (r_defs (f_rules F)) }.
(* With so much room on the stack. *)
Definition with_stack (d : nat) (F : nfa_file) : nfa_file :=
  Nfa (f_ntokens F) (f_classes F) (f_block F) (f_entries F) (Rules (r_evs (f_rules F)) (r_defs (f_rules F)) d).
