(* What a separator line looks like after "From ", as a grammar. *)
From Verif Require Import Base.
Local Open Scope N_scope.

Definition lang : Type := bytes -> Prop.
Definition nothing : lang := fun u => u = [].
Definition one (p : N -> Prop) : lang := fun u => exists c, u = [c] /\ p c.
Definition lit (c : N) : lang := one (eq c).
Definition followed (A B : lang) : lang := fun u => exists x y, u = x ++ y /\ A x /\ B y.
Definition alt (A B : lang) : lang := fun u => A u \/ B u.
Inductive many (A : lang) : lang :=
| many_none : many A []
| many_more x y : A x -> many A y -> many A (x ++ y).
Infix ";;" := followed (at level 61, right associativity).
Infix "<|>" := alt (at level 70, right associativity).
Definition some (A : lang) : lang := A ;; many A.
Definition perhaps (A : lang) : lang := fun u => A u \/ u = [].

Definition white (c : N) : Prop := c = 32 \/ c = 9.
Definition digit (c : N) : Prop := 48 <= c <= 57.
Definition upper (c : N) : Prop := 65 <= c <= 90.
Definition lower (c : N) : Prop := 97 <= c <= 122.
Definition alnum (c : N) : Prop := upper c \/ lower c \/ digit c.
(* characters of an address, of a host name, and between quotes *)
Definition atext (c : N) : Prop := alnum c \/ In c (bs "+-.!#$%&'*/=?^_`{|}~").
Definition dtext (c : N) : Prop := alnum c \/ In c (bs "-_.").
Definition qtext (c : N) : Prop := atext c \/ white c \/ In c (bs "@:<>").

Definition quoted : lang := lit 34 ;; many (one qtext) ;; lit 34.
(* A host name has two characters at least; or there are numbers in square brackets. *)
Definition host : lang := (one dtext ;; some (one dtext) <|> lit 91 ;; many (one (fun c => digit c \/ c = 46)) ;; lit 93).
Definition more_local : lang := many (alt (one atext) quoted) ;; perhaps (lit 64 ;; host).
Definition route : lang := many (one atext) ;; lit 64 ;; many (one dtext) ;; lit 58.
Definition address : lang := many route ;; alt (one atext) quoted ;; more_local.
(* The sender: an address, perhaps in angle brackets, or a sign, or missing. *)
Definition sender : lang := many (one white) ;; (address <|> lit 60 ;; address ;; lit 62 <|> one (fun c => c = 43 \/ c = 45) <|> nothing).

Definition ws : lang := some (one white).
Definition d : lang := one digit.
Definition three : lang := one upper ;; one lower ;; one lower.
Definition day : lang := (d <|> d ;; d).
Definition time : lang := (d ;; d ;; lit 58 ;; d ;; d ;; lit 58 ;; d ;; d <|> d ;; d ;; lit 58 ;; d ;; d).
Definition year : lang := d ;; d ;; d ;; d.
Definition zone : lang := (one upper ;; many (one alnum) <|> one (fun c => c = 43 \/ c = 45) ;; some (one alnum)).
(* Mon Mar 15 14:36:40 2021, with at most two words between time and year *)
Definition standard : lang := ws ;; three ;; ws ;; three ;; ws ;; day ;; ws ;; time ;; ws ;; perhaps (zone ;; ws ;; perhaps (zone ;; ws)) ;; year.
(* Mon, 15 Mar 2021 21:36:40 and a blank *)
Definition old : lang := ws ;; three ;; lit 44 ;; ws ;; day ;; ws ;; three ;; one white ;; alt year (d ;; d) ;; many (one white) ;; time ;; one white.
Definition separator : lang := sender ;; alt standard old.
(* The line begins like a separator; what follows the date does not matter. *)
Definition begins_message (text : bytes) : Prop := exists u v, text = u ++ v /\ separator u.
