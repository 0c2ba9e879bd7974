(* The grammar of scanner descriptions (dfasyn/parse.y 86-258, with the precedences of 76-82), as relations between what is described and the tokens. *)
From Verif Require Import Base M_Charclass M_Dfasyn M_Scan M_Parse.

(* 209-213: characters and ranges *)
Inductive items : list cc_item -> list token -> Prop :=
| it_none : items [] []
| it_char c l u : items l u -> items (Cc_char (N.to_nat c) :: l) (CHAR c :: u)
| it_range c d l u : items l u -> items (Cc_range (N.to_nat c) (N.to_nat d) :: l) (CHAR c :: HYPHEN :: CHAR d :: u).
(* 198-207 *)
Inductive brackets : simple_class -> list token -> Prop :=
| br_plain l u : items l u -> l <> [] -> brackets {| caret := false; body := l |} (LSQUARE :: u ++ [RSQUARE])
| br_caret l u : items l u -> l <> [] -> brackets {| caret := true; body := l |} (LSQUARE_CARET :: u ++ [RSQUARE]).
(* 182-196 *)
Inductive class_of : char_class -> list token -> Prop :=
| co_simple s u : brackets s u -> class_of (Cc_simple s) u
| co_negated s u : brackets s u -> class_of (Cc_negated s) (NOT :: u)
| co_diff s t u v : brackets s u -> brackets t v -> class_of (Cc_diff s t) (u ++ NOT :: v).
(* 167-180 *)
Inductive stimulus_of : stimulus -> list token -> Prop :=
| st_name s : stimulus_of (X_name s) [STRING s]
| st_inline t i o : stimulus_of (X_inline t i o) [LANGLE; STRING t; COLON; STRING i; ARROW; STRING o; RANGLE]
| st_class k u : class_of k u -> stimulus_of (X_class k) u
| st_empty : stimulus_of X_empty [].
(* at least one, with a separator between them *)
Inductive separated {A : Type} (R : A -> list token -> Prop) (sep : token) : list A -> list token -> Prop :=
| se_one x u : R x u -> separated R sep [x] u
| se_more x u l v : R x u -> separated R sep l v -> separated R sep (x :: l) (u ++ sep :: v).
(* any number, one after the other *)
Inductive in_turn {A : Type} (R : A -> list token -> Prop) : list A -> list token -> Prop :=
| tu_none : in_turn R [] []
| tu_more x u l v : R x u -> in_turn R l v -> in_turn R (x :: l) (u ++ v).
Definition name_of (s : bytes) (u : list token) : Prop := u = [STRING s].
(* 160-164, 148-154, 144-146, 156-158 *)
Definition choice_of : list stimulus -> list token -> Prop := separated stimulus_of PIPE.
Definition choices_of : list (list stimulus) -> list token -> Prop := separated choice_of SEMICOLON.
Definition names_of : list bytes -> list token -> Prop := separated name_of COMMA.
(* 138-142 *)
Inductive line_of : line -> list token -> Prop :=
| li_to l u ds v : choices_of l u -> names_of ds v -> line_of (Line l (To ds)) (u ++ ARROW :: v)
| li_marked l u gs v : choices_of l u -> names_of gs v -> line_of (Line l (Marked gs)) (u ++ EQUAL :: v).
(* 125-134 *)
Inductive state_of : state_decl -> list token -> Prop :=
| sd_plain n ls u : in_turn line_of ls u -> state_of (Sdecl n None ls) (STATE :: STRING n :: u)
| sd_entry n e ls u : in_turn line_of ls u -> state_of (Sdecl n (Some e) ls) (STATE :: STRING n :: ENTRY :: STRING e :: u).
(* 136 *)
Definition instance_of (i : bytes * bytes) (u : list token) : Prop := u = [STRING (fst i); COLON; STRING (snd i)].
(* 251-258: expressions of level 0 are conditions, then come |, ^, &, and what binds most strongly *)
Inductive expr_of_level : nat -> expr -> list token -> Prop :=
| ex_tag s : expr_of_level 4 (E_TAG s) [STRING s]
| ex_not a u : expr_of_level 4 a u -> expr_of_level 4 (E_NOT a) (NOT :: u)
| ex_paren a u : expr_of_level 0 a u -> expr_of_level 4 a (LPAREN :: u ++ [RPAREN])
| ex_and a u b v : expr_of_level 3 a u -> expr_of_level 4 b v -> expr_of_level 3 (E_AND a b) (u ++ AND :: v)
| ex_xor a u b v : expr_of_level 2 a u -> expr_of_level 3 b v -> expr_of_level 2 (E_XOR a b) (u ++ XOR :: v)
| ex_or a u b v : expr_of_level 1 a u -> expr_of_level 2 b v -> expr_of_level 1 (E_OR a b) (u ++ PIPE :: v)
| ex_cond a u b v c w : expr_of_level 1 a u -> expr_of_level 0 b v -> expr_of_level 0 c w -> expr_of_level 0 (E_COND a b c) (u ++ QUERY :: v ++ COLON :: w)
| ex_up n a u : n < 4 -> expr_of_level (S n) a u -> expr_of_level n a u.
(* 215-233 *)
Definition attr_word (early : bool) : list token := if early then [EARLY; ATTR] else [ATTR].
Inductive attr_of : attr_decl -> list token -> Prop :=
| at_names early l u : names_of l u -> attr_of (A_attrs early l) (attr_word early ++ u)
| at_expr early n e u : expr_of_level 0 e u -> attr_of (A_expr early n e) (attr_word early ++ STRING n :: COLON :: u)
| at_default s : attr_of (A_default s) [DEFATTR; STRING s]
| at_type s : attr_of (A_type s) [TYPE; STRING s].
(* 90-121, 235-249 *)
Inductive decl_of : decl -> list token -> Prop :=
| de_block n is_ u ss v : in_turn instance_of is_ u -> in_turn state_of ss v -> decl_of (D_block (Bdecl n is_ ss)) (BLOCK :: STRING n :: LBRACE :: u ++ v ++ [RBRACE])
| de_tokens l u : in_turn name_of l u -> l <> [] -> decl_of (D_tokens l) (TOKENS :: u)
| de_abbrev n l u : choice_of l u -> decl_of (D_abbrev n l) (ABBREV :: STRING n :: EQUAL :: u)
| de_attr a u : attr_of a u -> decl_of (D_attr a) u
| de_group n l u : in_turn attr_of l u -> decl_of (D_group n l) (GROUP :: STRING n :: LBRACE :: u ++ [RBRACE])
| de_tag n e u : expr_of_level 0 e u -> decl_of (D_tag n e) (TAG :: STRING n :: EQUAL :: u)
| de_prefix s : decl_of (D_prefix s) [PREFIX; STRING s]
| de_entrystruct s v : decl_of (D_entrystruct s v) [ENTRYSTRUCT; STRING s; STRING v].
Definition description : list decl -> list token -> Prop := in_turn decl_of.
