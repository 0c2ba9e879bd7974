(* Structured header values (MIME), apart from the code: a list of components separated by semicolons,
   how each may be written, and the entries that stand for the list. *)
From Verif Require Import Base M_Nvp.
Local Open Scope N_scope.

Definition alnum_ascii (c : N) : Prop := (48 <= c <= 57) \/ (65 <= c <= 90) \/ (97 <= c <= 122).
Definition name_char (c : N) : Prop := alnum_ascii c \/ In c (bs "_-").
Definition minor_char (c : N) : Prop := name_char c \/ In c (bs ".+").
(* printable ASCII but for space, double quote, backslash and semicolon; between quotes also blanks and semicolons *)
Definition value_char (c : N) : Prop := 33 <= c <= 126 /\ ~ In c [34; 92; 59].
Definition quoted_char (c : N) : Prop := value_char c \/ In c [9; 32; 59].
Definition blank (c : N) : Prop := In c [9; 32].
Definition white (c : N) : Prop := In c [9; 13; 32].
(* names may have blanks inside *)
Definition name_ok (n : bytes) : Prop := exists a b, n = a :: b /\ name_char a /\ name_char (last n 0) /\ Forall (fun c => name_char c \/ blank c) b.
Definition some_of (P : N -> Prop) (s : bytes) : Prop := s <> [] /\ Forall P s.

Inductive component :=
| Word (n : bytes)                    (* attachment *)
| Type_of (major minor : bytes)       (* text/plain *)
| Param (n v : bytes)                 (* name=value *)
| Piece (n v : bytes).                (* name*1=value and the like: the values of the pieces are joined *)
(* a value, as it is or between quotes *)
Inductive value_spelled : bytes -> bytes -> Prop :=
| v_plain v : some_of value_char v -> value_spelled v v
| v_quoted v : some_of quoted_char v -> value_spelled v ([34] ++ v ++ [34]).
(* %41 for A *)
Definition pct_digit (v x : N) : Prop := nth_error (bs "0123456789ABCDEF") (N.to_nat v) = Some x \/ nth_error (bs "0123456789abcdef") (N.to_nat v) = Some x.
Inductive pct_spelled : bytes -> bytes -> Prop :=
| pct_nil : pct_spelled [] []
| pct_char c s t : value_char c -> c <> 37 -> pct_spelled s t -> pct_spelled (c :: s) (c :: t)
| pct_hex v w x y s t : pct_digit v x -> pct_digit w y -> 16 * v + w <> 0 -> pct_spelled s t -> pct_spelled (16 * v + w :: s) (37 :: x :: y :: t).
Definition is_digit (c : N) : Prop := 48 <= c <= 57.
Inductive spelled : component -> bytes -> Prop :=
| sp_word n : name_ok n -> spelled (Word n) n
| sp_type a b : some_of name_char a -> some_of minor_char b -> spelled (Type_of a b) (a ++ [47] ++ b)
| sp_param n v w t : name_ok n -> Forall white w -> value_spelled v t -> spelled (Param n v) (n ++ [61] ++ w ++ t)
| sp_piece n k w1 w2 v t : name_ok n -> some_of is_digit k -> Forall white w1 -> Forall white w2 -> value_spelled v t ->
    spelled (Piece n v) (n ++ [42] ++ k ++ w1 ++ [61] ++ w2 ++ t)
| sp_coded n z w1 w2 cs v t : name_ok n -> z = [42] \/ z = bs "*0*" -> Forall white w1 -> Forall white w2 -> Forall minor_char cs -> v <> [] -> pct_spelled v t ->
    spelled (Piece n v) (n ++ z ++ w1 ++ [61] ++ w2 ++ cs ++ bs "''" ++ t)
| sp_coded_piece n k w1 w2 v t : name_ok n -> alnum_ascii k -> k <> 48 -> Forall white w1 -> Forall white w2 -> v <> [] -> pct_spelled v t ->
    spelled (Piece n v) (n ++ [42; k; 42] ++ w1 ++ [61] ++ w2 ++ t).
(* the whole list *)
Inductive listed : list component -> bytes -> Prop :=
| li_last c w1 t w2 : Forall white w1 -> spelled c t -> Forall white w2 -> listed [c] (w1 ++ t ++ w2)
| li_end c w1 t w2 w3 : Forall white w1 -> spelled c t -> Forall white w2 -> Forall white w3 -> listed [c] (w1 ++ t ++ w2 ++ [59] ++ w3)
| li_more c cs w1 t w2 r : Forall white w1 -> spelled c t -> Forall white w2 -> listed cs r -> listed (c :: cs) (w1 ++ t ++ w2 ++ [59] ++ r).

(* the entries *)
Inductive joined (n v : bytes) : list nvp_entry -> list nvp_entry -> Prop :=
| j_here r es : joined n v (Entry NVP_NAMEVALUE n r :: es) (Entry NVP_NAMEVALUE n (r ++ v) :: es)
| j_new : joined n v [] [Entry NVP_NAMEVALUE n v]
| j_skip e es es' : (e_type e = NVP_NAMEVALUE -> e_lhs e <> n) -> joined n v es es' -> joined n v (e :: es) (e :: es').
Inductive stands : list component -> list nvp_entry -> list nvp_entry -> Prop :=
| st_nil es : stands [] es es
| st_word n cs es fs : stands cs (es ++ [Entry NVP_NAME n []]) fs -> stands (Word n :: cs) es fs
| st_type a b cs es fs : stands cs (es ++ [Entry NVP_MAJORMINOR a b]) fs -> stands (Type_of a b :: cs) es fs
| st_param n v cs es fs : stands cs (es ++ [Entry NVP_NAMEVALUE n v]) fs -> stands (Param n v :: cs) es fs
| st_piece n v cs es es' fs : joined n v es es' -> stands cs es' fs -> stands (Piece n v :: cs) es fs.

(* How a name is looked up: the case of letters does not matter. *)
Definition same_name (a b : bytes) : Prop := map tolower a = map tolower b.
Definition about (n : bytes) (c : component) : Prop := exists m v, (c = Param m v \/ c = Piece m v) /\ same_name m n.

(* A parameter as RFC 2045 and RFC 822 allow it to be written: white space around the equals sign; between quotes
   any character may be escaped by a backslash, and there may be nothing between them. *)
Inductive quoted_string : bytes -> bytes -> Prop :=
| qs_nil : quoted_string [] []
| qs_char c s t : quoted_char c -> quoted_string s t -> quoted_string (c :: s) (c :: t)
| qs_escape c s t : quoted_char c \/ In c [34; 92] -> quoted_string s t -> quoted_string (c :: s) (92 :: c :: t).
Inductive rfc_param (n v : bytes) : bytes -> Prop :=
| rfc_plain w1 w2 : some_of name_char n -> Forall blank w1 -> Forall blank w2 -> some_of name_char v -> rfc_param n v (n ++ w1 ++ [61] ++ w2 ++ v)
| rfc_quoted w1 w2 t : some_of name_char n -> Forall blank w1 -> Forall blank w2 -> quoted_string v t -> rfc_param n v (n ++ w1 ++ [61] ++ w2 ++ [34] ++ t ++ [34]).
(* the values of the pieces called n, in order *)
Definition pieces (n : bytes) (cs : list component) : list bytes :=
  concat (map (fun c => match c with Piece m v => if bytes_eqb m n then [v] else [] | _ => [] end) cs).
