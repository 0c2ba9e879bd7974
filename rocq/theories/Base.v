(* Shared vocabulary: bytes, C strings, C-locale character classes, 32/64-bit wrap-around.
   A byte is an [N] below 256; a C string is the list of its bytes without the final NUL. *)
From Coq Require Export Ascii String.
From Coq Require Export NArith ZArith Arith Lia Bool List.
From Coq Require Export ZifyBool ZifyNat ZifyN.
Export ListNotations.
Ltac Zify.zify_post_hook ::= Z.div_mod_to_equations.

Global Arguments N.add : simpl never.
Global Arguments N.sub : simpl never.
Global Arguments N.mul : simpl never.
Global Arguments N.div : simpl never.
Global Arguments N.modulo : simpl never.
Global Arguments N.land : simpl never.
Global Arguments N.lor : simpl never.
Global Arguments N.shiftl : simpl never.
Global Arguments N.shiftr : simpl never.
Global Arguments N.testbit : simpl never.
Global Arguments N.leb : simpl never.
Global Arguments N.ltb : simpl never.
Global Arguments N.eqb : simpl never.
Global Arguments N.pow : simpl never.
Global Arguments N.to_nat : simpl never.
Global Arguments N.of_nat : simpl never.

Definition bytes := list N.

(* [b] is a byte. *)
Definition is_byte (b : N) : Prop := (b < 256)%N.
Definition all_bytes (s : bytes) : Prop := Forall is_byte s.

(* A C string: every byte is in 1..255. *)
Definition c_char (b : N) : Prop := (0 < b < 256)%N.
Definition c_string (s : bytes) : Prop := Forall c_char s.

(* Literals for examples: the bytes of a Coq string. *)
Fixpoint bs (s : string) : bytes :=
  match s with
  | EmptyString => []
  | String a s' => N_of_ascii a :: bs s'
  end.
(* One character literal. *)
Definition ch (a : ascii) : N := N_of_ascii a.

(* ctype.h in the C locale. *)
Definition isdigit (c : N) : bool := (48 <=? c)%N && (c <=? 57)%N.
Definition isupper (c : N) : bool := (65 <=? c)%N && (c <=? 90)%N.
Definition islower (c : N) : bool := (97 <=? c)%N && (c <=? 122)%N.
Definition isalpha (c : N) : bool := isupper c || islower c.
Definition isalnum (c : N) : bool := isalpha c || isdigit c.
(* space, \t \n \v \f \r *)
Definition isspace (c : N) : bool := (c =? 32)%N || ((9 <=? c)%N && (c <=? 13)%N).
Definition tolower (c : N) : N := if isupper c then (c + 32)%N else c.

(* strcmp(a,b) == 0 on C strings. *)
Fixpoint bytes_eqb (a b : bytes) : bool :=
  match a, b with
  | [], [] => true
  | x :: a', y :: b' => (x =? y)%N && bytes_eqb a' b'
  | _, _ => false
  end.

(* strcmp(a,b), as a comparison of unsigned bytes, shorter first. *)
Fixpoint bytes_cmp (a b : bytes) : comparison :=
  match a, b with
  | [], [] => Eq
  | [], _ => Lt
  | _, [] => Gt
  | x :: a', y :: b' => match (x ?= y)%N with Eq => bytes_cmp a' b' | c => c end
  end.

(* Unsigned 32- and 64-bit wrap-around, and the value of a 32-bit pattern read as [int]. *)
Definition u32 (x : N) : N := (x mod 2 ^ 32)%N.
Definition u64 (x : N) : N := (x mod 2 ^ 64)%N.
Definition int_of_u32 (x : N) : Z :=
  if (x <? 2 ^ 31)%N then Z.of_N x else (Z.of_N x - 2 ^ 32)%Z.
Definition u32_of_int (z : Z) : N := Z.to_N (z mod 2 ^ 32).

(* Replace element [i] of a list (no change when out of range). *)
Fixpoint set_nth {A} (l : list A) (i : nat) (x : A) : list A :=
  match l, i with
  | [], _ => []
  | _ :: l', O => x :: l'
  | y :: l', S i' => y :: set_nth l' i' x
  end.

(* Outcomes of a modelled C function. *)
Inductive err :=
| E_oob        (* access outside an object *)
| E_fuel       (* the model's loop bound was exhausted: a loop that would not end *)
| E_assert     (* a failed assert(): abort() *)
| E_exit (code : N)  (* exit() *)
| E_ub.        (* other undefined behaviour *)
Inductive res (A : Type) :=
| Ok (a : A)
| Err (e : err).
Arguments Ok {A} a.
Arguments Err {A} e.
Definition bind {A B} (r : res A) (f : A -> res B) : res B :=
  match r with Ok a => f a | Err e => Err e end.
Notation "'let!' x := e 'in' f" := (bind e (fun x => f)) (at level 200, x pattern, e at level 100, f at level 200).
