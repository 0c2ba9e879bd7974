(* IMAP as both sides see it, apart from the code: what a line from the server says, and what a command
   means to a server (RFC 3501, with the literals of RFC 7888). *)
From Verif Require Import Base.
Local Open Scope N_scope.

(* What stands in a line: atoms, strings, and lists of such. *)
Inductive item := Atom (s : bytes) | Str (s : bytes) | Paren (l : list item) | Square (l : list item).

(* Where an item stands: in a line, behind so many others; or inside brackets. *)
Inductive place := On_line (before : nat) | In_paren | In_square.
Definition blank (c : N) : Prop := c = 32 \/ c = 9.
(* Characters that cannot be part of an atom; brackets only where they would end something or begin it. *)
Definition atom_char (p : place) (c : N) : Prop :=
  ~ In c [0; 9; 10; 13; 32; 34; 40; 123] /\ match p with On_line n => n = 1%nat -> c <> 91 | In_paren => c <> 41 | In_square => c <> 93 end.
Definition number (ds : bytes) : N := fold_left (fun a c => 10 * a + (c - 48)) ds 0.
Definition digit (c : N) : Prop := 48 <= c <= 57.
(* An item and the items of a list, as the server writes them.  A string in quotes has no quotes, line
   ends and backslashes in it; any string can be sent as its length and its bytes. *)
Inductive spelt : place -> item -> bytes -> Prop :=
| sp_atom p s : s <> [] -> Forall (atom_char p) s -> spelt p (Atom s) s
| sp_quoted p s : (forall c, In c s -> c <> 34 /\ c <> 10 /\ c <> 92) -> spelt p (Str s) (34 :: s ++ [34])
| sp_literal p s ds cr : ds <> [] -> Forall digit ds -> number ds = N.of_nat (length s) -> number ds < 2 ^ 31 -> cr = [] \/ cr = [13] ->
    spelt p (Str s) (123 :: ds ++ [125] ++ cr ++ [10] ++ s)
| sp_paren p l t : spelt_all In_paren l t -> spelt p (Paren l) (40 :: t ++ [41])
(* square brackets as in "OK [UIDVALIDITY 7] text" *)
| sp_square l t : spelt_all In_square l t -> spelt (On_line 1) (Square l) (91 :: t ++ [93])
with spelt_all : place -> list item -> bytes -> Prop :=
| sa_nil p : spelt_all p [] []
| sa_one p i t : spelt p i t -> spelt_all p [i] t
| sa_more p i t b is u : spelt p i t -> b <> [] -> Forall blank b -> is <> [] -> spelt_all (match p with On_line n => On_line (S n) | q => q end) is u ->
    spelt_all p (i :: is) (t ++ b ++ u).
(* A whole line: about anything, or the end of the answer to the command with this number. *)
Inductive line := Says (is : list item) | Ends (is : list item).
Inductive line_spelt (tag : N) : line -> bytes -> Prop :=
| ls_says is t : spelt_all (On_line 0) is t -> line_spelt tag (Says is) (bs "* " ++ t ++ [13; 10])
| ls_ends is t ds : spelt_all (On_line 0) is t -> ds <> [] -> Forall digit ds -> number ds = tag -> line_spelt tag (Ends is) (bs "t" ++ ds ++ [32] ++ t ++ [13; 10]).

(* A command as a server reads it: a tag, then arguments with a space between them, then a line end.
   In a string in quotes, a quote and a backslash have a backslash before them.  A longer string is sent
   as its length, a plus sign, and its bytes on the next line. *)
Definition send_char (c : N) : bool := (33 <=? c) && (c <? 127) && negb (existsb (N.eqb c) [34; 40; 41; 123]).
Fixpoint span (f : N -> bool) (t : bytes) : bytes * bytes :=
  match t with [] => ([], []) | c :: u => if f c then let (a, b) := span f u in (c :: a, b) else ([], t) end.
Fixpoint in_quotes (t : bytes) : option (bytes * bytes) :=
  match t with
  | [] => None
  | c :: u =>
      if c =? 34 then Some ([], u)
      else if c =? 92 then
        match u with
        | d :: v => if (d =? 34) || (d =? 92) then match in_quotes v with Some (s, w) => Some (d :: s, w) | None => None end else None
        | [] => None
        end
      else if (c =? 0) || (c =? 10) || (c =? 13) || (128 <=? c) then None
      else match in_quotes u with Some (s, v) => Some (c :: s, v) | None => None end
  end.
Definition is_digit (c : N) : bool := (48 <=? c) && (c <=? 57).
Definition counted (t : bytes) : option (bytes * bytes) :=
  let (ds, u) := span is_digit t in
  if negb (bytes_eqb ds []) && bytes_eqb (firstn 4 u) [43; 125; 13; 10] then
    let n := N.to_nat (number ds) in let v := skipn 4 u in if (n <=? length v)%nat then Some (firstn n v, skipn n v) else None
  else None.
(* [fuel]: at least the number of characters *)
Fixpoint arguments (fuel : nat) (t : bytes) : option (list item * bytes) :=
  match fuel, t with
  | S f, c :: u =>
      let one :=
        if c =? 34 then match in_quotes u with Some (s, v) => Some (Str s, v) | None => None end
        else if c =? 123 then match counted u with Some (s, v) => Some (Str s, v) | None => None end
        else if c =? 40 then
          match u with
          | d :: v => if d =? 41 then Some (Paren [], v)
                      else match arguments f u with Some (is, e :: w) => if e =? 41 then Some (Paren is, w) else None | _ => None end
          | [] => None
          end
        else match span send_char t with ([], _) => None | (s, v) => Some (Atom s, v) end in
      match one with
      | Some (i, d :: v) => if d =? 32 then match arguments f v with Some (is, w) => Some (i :: is, w) | None => None end else Some ([i], d :: v)
      | Some (i, []) => Some ([i], [])
      | None => None
      end
  | _, _ => None
  end.
Definition received (t : bytes) : option (N * list item) :=
  match t with
  | c :: u =>
      if c =? 116 then
        match span is_digit u with
        | ((_ :: _) as ds, d :: v) => if d =? 32 then match arguments (length v) v with Some (is, e) => if bytes_eqb e [13; 10] then Some (number ds, is) else None | None => None end else None
        | _ => None
        end
      else None
  | [] => None
  end.
(* What can be sent: atoms of such characters; strings of bytes, with a length an int can hold. *)
Fixpoint sendable (i : item) : Prop :=
  match i with
  | Atom s => s <> [] /\ Forall (fun c => send_char c = true) s
  | Str s => (forall c, In c s -> c < 256) /\ N.of_nat (length s) < 2 ^ 31
  | Paren l => (fix all (l : list item) : Prop := match l with [] => True | i :: l' => sendable i /\ all l' end) l
  | Square _ => False
  end.
(* No string has a backslash in it, unless it also has a control character, a quote or an 8-bit character. *)
Fixpoint no_backslash (i : item) : Prop :=
  match i with
  | Atom s => True
  | Str s => In 92 s -> exists c, In c s /\ (c < 32 \/ c = 34 \/ 127 <= c)
  | Paren l | Square l => (fix all (l : list item) : Prop := match l with [] => True | i :: l' => no_backslash i /\ all l' end) l
  end.

(* Wherever 't' or '{' stands before a number, the number is below 2^31. *)
Definition no_huge (t : bytes) : Prop :=
  forall a ds b c, t = a ++ c :: ds ++ b -> c = 116 \/ c = 123 -> Forall digit ds -> number ds < 2 ^ 31.
