(* Model of the grammar of scanner descriptions (dfasyn/parse.y 86-258), without its actions: what is made of the tokens.
   The parser that bison makes of the grammar is modelled by functions that look one token ahead where it does.  A syntax
   error ends the program with code 1 (dfasyn.c 585-586). *)
From Verif Require Import Base M_Charclass M_Dfasyn M_Scan.

(* parse.y 166-180: what makes the automaton go from one state to another *)
Inductive stimulus := X_name (s : bytes) | X_inline (type in_ out : bytes) | X_class (k : char_class) | X_empty.
(* 138-158: stimuli, each a choice of some, one after the other; and the states they lead to, or the tags they lead to *)
Inductive target := To (dests : list bytes) | Marked (tags : list bytes).
Record line := Line { l_stims : list (list stimulus); l_target : target }.
(* 125-130 *)
Record state_decl := Sdecl { s_name : bytes; s_entry : option bytes; s_lines : list line }.
(* 97-101, 136: instances are written name : block *)
Record block_decl := Bdecl { b_name : bytes; b_instances : list (bytes * bytes); b_states : list state_decl }.
(* 215-233 *)
Inductive attr_decl := A_attrs (early : bool) (names : list bytes) | A_expr (early : bool) (name : bytes) (e : expr) | A_default (name : bytes) | A_type (name : bytes).
(* 90-117, 235-249 *)
Inductive decl :=
| D_block (b : block_decl) | D_tokens (names : list bytes) | D_abbrev (name : bytes) (alts : list stimulus) | D_attr (a : attr_decl)
| D_group (name : bytes) (a : list attr_decl) | D_tag (name : bytes) (e : expr) | D_prefix (name : bytes) | D_entrystruct (s v : bytes).

Definition P (A : Type) : Type := res (A * list token).
Definition syntax_error {A : Type} : P A := Err (E_exit 1).
(* 209-213 and the bracket that ends it *)
Fixpoint cc_body (ts : list token) : P (list cc_item) :=
  match ts with
  | CHAR c :: HYPHEN :: CHAR d :: r => let! (l, r') := cc_body r in Ok (Cc_range (N.to_nat c) (N.to_nat d) :: l, r')
  | CHAR c :: HYPHEN :: _ => syntax_error
  | CHAR c :: r => let! (l, r') := cc_body r in Ok (Cc_char (N.to_nat c) :: l, r')
  | RSQUARE :: r => Ok ([], r)
  | _ => syntax_error
  end.
(* 198-207 *)
Definition simple_char_class (ts : list token) : P simple_class :=
  let rest (car : bool) (r : list token) := let! (l, r') := cc_body r in match l with [] => syntax_error | _ => Ok ({| caret := car; body := l |}, r') end in
  match ts with
  | LSQUARE :: r => rest false r
  | LSQUARE_CARET :: r => rest true r
  | _ => syntax_error
  end.
(* 182-196 *)
Definition char_class_ (ts : list token) : P char_class :=
  match ts with
  | NOT :: r => let! (s, r') := simple_char_class r in Ok (Cc_negated s, r')
  | _ =>
    let! (s, r) := simple_char_class ts in
    match r with
    | NOT :: r' => let! (t, r'') := simple_char_class r' in Ok (Cc_diff s t, r'')
    | _ => Ok (Cc_simple s, r)
    end
  end.
(* 167-180 *)
Definition stimulus_ (ts : list token) : P stimulus :=
  match ts with
  | STRING s :: r => Ok (X_name s, r)
  | LANGLE :: r =>
    match r with
    | STRING t :: COLON :: STRING i :: ARROW :: STRING o :: RANGLE :: r' => Ok (X_inline t i o, r')
    | _ => syntax_error
    end
  | LSQUARE :: _ | LSQUARE_CARET :: _ | NOT :: _ => let! (k, r) := char_class_ ts in Ok (X_class k, r)
  | _ => Ok (X_empty, ts)
  end.
(* 160-164 *)
Fixpoint stimulus_seq (fuel : nat) (ts : list token) : P (list stimulus) :=
  match fuel with
  | O => Err E_fuel
  | S f =>
    let! (x, r) := stimulus_ ts in
    match r with
    | PIPE :: r' => let! (l, r'') := stimulus_seq f r' in Ok (x :: l, r'')
    | _ => Ok ([x], r)
    end
  end.
(* 148-154 *)
Fixpoint transition_seq (fuel : nat) (ts : list token) : P (list (list stimulus)) :=
  match fuel with
  | O => Err E_fuel
  | S f =>
    let! (x, r) := stimulus_seq (S f) ts in
    match r with
    | SEMICOLON :: r' => let! (l, r'') := transition_seq f r' in Ok (x :: l, r'')
    | _ => Ok ([x], r)
    end
  end.
(* 144-146, 156-158, 223-233: names with commas *)
Fixpoint name_seq (ts : list token) : P (list bytes) :=
  match ts with
  | STRING s :: COMMA :: r => let! (l, r') := name_seq r in Ok (s :: l, r')
  | STRING s :: r => Ok ([s], r)
  | _ => syntax_error
  end.
(* 138-142 *)
Definition transition_decl (fuel : nat) (ts : list token) : P line :=
  let! (l, r) := transition_seq fuel ts in
  match r with
  | ARROW :: r' => let! (ds, r'') := name_seq r' in Ok (Line l (To ds), r'')
  | EQUAL :: r' => let! (gs, r'') := name_seq r' in Ok (Line l (Marked gs), r'')
  | _ => syntax_error
  end.
(* 132-134 *)
Fixpoint sdecl_seq (fuel : nat) (ts : list token) : P (list line) :=
  match fuel with
  | O => Err E_fuel
  | S f =>
    match ts with
    | STATE :: _ | RBRACE :: _ => Ok ([], ts)
    | _ => let! (x, r) := transition_decl (S f) ts in let! (l, r') := sdecl_seq f r in Ok (x :: l, r')
    end
  end.
(* 123-130 and the brace that ends them *)
Fixpoint state_decl_seq (fuel : nat) (ts : list token) : P (list state_decl) :=
  match fuel with
  | O => Err E_fuel
  | S f =>
    match ts with
    | STATE :: STRING n :: ENTRY :: STRING e :: r => let! (ls, r') := sdecl_seq (S f) r in let! (l, r'') := state_decl_seq f r' in Ok (Sdecl n (Some e) ls :: l, r'')
    | STATE :: STRING n :: r => let! (ls, r') := sdecl_seq (S f) r in let! (l, r'') := state_decl_seq f r' in Ok (Sdecl n None ls :: l, r'')
    | RBRACE :: r => Ok ([], r)
    | _ => syntax_error
    end
  end.
(* 121, 136 *)
Fixpoint instance_decl_seq (ts : list token) : list (bytes * bytes) * list token :=
  match ts with
  | STRING i :: COLON :: STRING b :: r => let (l, r') := instance_decl_seq r in ((i, b) :: l, r')
  | _ => ([], ts)
  end.
(* 117 *)
Fixpoint token_seq (ts : list token) : list bytes * list token :=
  match ts with
  | STRING s :: r => let (l, r') := token_seq r in (s :: l, r')
  | _ => ([], ts)
  end.
(* 76-82, 251-258: ? and : bind weakest, and to the right; then | ^ & to the left, then negation.
   Level 0 is a condition, 1 |, 2 ^, 3 &, 4 the rest. *)
Definition op_of (lvl : nat) (t : token) : option (expr -> expr -> expr) :=
  match lvl, t with
  | 1, PIPE => Some E_OR
  | 2, XOR => Some E_XOR
  | 3, AND => Some E_AND
  | _, _ => None
  end.
Fixpoint expr_ (fuel : nat) (lvl : nat) (ts : list token) : P expr :=
  match fuel with
  | O => Err E_fuel
  | S f =>
    match lvl with
    | 0 =>
      let! (a, r) := expr_ f 1 ts in
      match r with
      | QUERY :: r1 =>
        let! (b, r2) := expr_ f 0 r1 in
        match r2 with COLON :: r3 => let! (c, r4) := expr_ f 0 r3 in Ok (E_COND a b c, r4) | _ => syntax_error end
      | _ => Ok (a, r)
      end
    | 4 =>
      match ts with
      | NOT :: r => let! (a, r') := expr_ f 4 r in Ok (E_NOT a, r')
      | LPAREN :: r => let! (a, r') := expr_ f 0 r in match r' with RPAREN :: r'' => Ok (a, r'') | _ => syntax_error end
      | STRING s :: r => Ok (E_TAG s, r)
      | _ => syntax_error
      end
    | _ =>
      (fix more (k : nat) (acc : P expr) : P expr :=
        match k with
        | O => Err E_fuel
        | S k' =>
          let! (a, r) := acc in
          match r with
          | t :: r' => match op_of lvl t with Some op => more k' (let! (b, r'') := expr_ f (S lvl) r' in Ok (op a b, r'')) | None => Ok (a, r) end
          | [] => Ok (a, r)
          end
        end) (S f) (expr_ f (S lvl) ts)
    end
  end.
Definition expr_of (ts : list token) : P expr := expr_ (8 + 5 * length ts) 0 ts.
(* 215-221 *)
Definition attr_decl_ (ts : list token) : P attr_decl :=
  let rest (early : bool) (r : list token) :=
    match r with
    | STRING n :: COLON :: r' => let! (e, r'') := expr_of r' in Ok (A_expr early n e, r'')
    | _ => let! (l, r') := name_seq r in Ok (A_attrs early l, r')
    end in
  match ts with
  | ATTR :: r => rest false r
  | EARLY :: ATTR :: r => rest true r
  | DEFATTR :: STRING s :: r => Ok (A_default s, r)
  | TYPE :: STRING s :: r => Ok (A_type s, r)
  | _ => syntax_error
  end.
(* 240-242 and the brace that ends it *)
Fixpoint attr_decl_seq (fuel : nat) (ts : list token) : P (list attr_decl) :=
  match fuel with
  | O => Err E_fuel
  | S f =>
    match ts with
    | RBRACE :: r => Ok ([], r)
    | _ => let! (a, r) := attr_decl_ ts in let! (l, r') := attr_decl_seq f r in Ok (a :: l, r')
    end
  end.
(* 90-117, 235-249 *)
Definition decl_ (fuel : nat) (ts : list token) : P decl :=
  match ts with
  | BLOCK :: STRING n :: LBRACE :: r => let (is_, r') := instance_decl_seq r in let! (ss, r'') := state_decl_seq fuel r' in Ok (D_block (Bdecl n is_ ss), r'')
  | TOKENS :: r => match token_seq r with ([], _) => syntax_error | (l, r') => Ok (D_tokens l, r') end
  | ABBREV :: STRING n :: EQUAL :: r => let! (l, r') := stimulus_seq fuel r in Ok (D_abbrev n l, r')
  | GROUP :: STRING n :: LBRACE :: r => let! (l, r') := attr_decl_seq fuel r in Ok (D_group n l, r')
  | TAG :: STRING n :: EQUAL :: r => let! (e, r') := expr_of r in Ok (D_tag n e, r')
  | PREFIX :: STRING s :: r => Ok (D_prefix s, r)
  | ENTRYSTRUCT :: STRING s :: STRING v :: r => Ok (D_entrystruct s v, r)
  | ATTR :: _ | EARLY :: _ | DEFATTR :: _ | TYPE :: _ => let! (a, r) := attr_decl_ ts in Ok (D_attr a, r)
  | _ => syntax_error
  end.
Fixpoint decl_seq (fuel : nat) (ts : list token) : res (list decl) :=
  match ts with
  | [] => Ok []
  | _ => match fuel with O => Err E_fuel | S f => let! (d, r) := decl_ (S (length ts)) ts in let! l := decl_seq f r in Ok (d :: l) end
  end.
Definition parse (ts : list token) : res (list decl) := decl_seq (length ts) ts.
Definition read_description (text : bytes) : res (list decl) := let! ts := tokens_of text in parse ts.
