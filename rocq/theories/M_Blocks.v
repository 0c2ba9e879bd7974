(* Model of what dfasyn does with a description that was read: the actions of the grammar (dfasyn/parse.y), dfasyn/states.c,
   dfasyn/blocks.c, dfasyn/stimulus.c, dfasyn/abbrevs.c, dfasyn/tokens.c, the definitions in dfasyn/evaluator.c and
   dfasyn/expr.c, and the choice of entries in dfasyn/dfasyn.c.  The states of a block are found by name: the hash table
   (states.c 41-56, 90-98) has each of them once, and lists have the earliest first. *)
From Verif Require Import Base M_Charclass M_Dfasyn M_Compdfa M_Parse.

(* dfasyn.h 124-171: a state in a block that is being read; transitions go to names *)
Record cstate := Cstate { c_name : bytes; c_trans : list (trans_type * bytes); c_tags : list bytes }.
(* dfasyn.h 186-203: subcount numbers internal states, subblockcount inline instances *)
Record cblock := Cblock { k_name : bytes; k_states : list cstate; k_subcount : nat; k_subblocks : nat }.
(* dfasyn.h 91-113: a stimulus.  For an abbreviation it is a pointer into the table of abbreviations as it was when
   the stimulus was read: with size places, the i-th. *)
Inductive stim := S_EPSILON | S_TOKEN (t : nat) | S_ABBREV (size i : nat) | S_INLINE (type in_ out : bytes) | S_CLASS (k : nat).
(* evaluator.c 52-58: the list has the newest first; the name of the default one is NULL *)
Definition evaluators := list (option bytes * evaluator).
(* What has been read: blocks in order, tokens, abbreviations, character classes; entries (dfasyn.h 255-261), the newest
   first, by the numbers of block and state; the current state; evaluators; tags. *)
Record env := Env { n_blocks : list cblock; n_tokens : list bytes; n_abbrevs : list (bytes * list stim); n_classes : list char_class;
  n_entries : list (bytes * (nat * nat)); n_cur : option (nat * nat); n_evs : evaluators; n_defs : tag_defs }.

(* new_string and the names of sub blocks: decimal *)
Fixpoint digits (fuel n : nat) (acc : bytes) : bytes :=
  match fuel with
  | O => acc
  | S f => let acc' := (48 + N.of_nat (n mod 10))%N :: acc in if n <? 10 then acc' else digits f (n / 10) acc'
  end.
Definition decimal (n : nat) : bytes := digits (S n) n [].
Definition HASH : N := 35.
Definition DOT : N := 46.

(* tokens.c 46-84: the number of a token *)
Fixpoint find_name {A : Type} (name_of : A -> bytes) (i : nat) (l : list A) (name : bytes) : option nat :=
  match l with
  | [] => None
  | x :: l' => if bytes_eqb (name_of x) name then Some i else find_name name_of (S i) l' name
  end.
Definition lookup_token (E : env) (name : bytes) : option nat := find_name (fun s => s) 0 (n_tokens E) name.
(* abbrevs.c 31-47: the table has room for 32, and grows by 32 when it is full; it is then moved *)
Definition table_size (n : nat) : nat := 32 * ((n + 31) / 32).
(* abbrevs.c 49-66: the latest of this name *)
Definition lookup_abbrev (E : env) (name : bytes) : option nat :=
  option_map (fun i => length (n_abbrevs E) - 1 - i) (find_name fst 0 (rev (n_abbrevs E)) name).
(* stimulus.c 27-78 and parse.y 166-180.  Classes are put in the list as they are read. *)
Definition stimulus_of (E : env) (x : stimulus) : res (stim * env) :=
  match x with
  | X_empty => Ok (S_EPSILON, E)
  | X_inline t i o => Ok (S_INLINE t i o, E)
  | X_class k => Ok (S_CLASS (length (n_classes E)), Env (n_blocks E) (n_tokens E) (n_abbrevs E) (n_classes E ++ [k]) (n_entries E) (n_cur E) (n_evs E) (n_defs E))
  | X_name s =>
    match lookup_abbrev E s with
    | Some i => Ok (S_ABBREV (table_size (length (n_abbrevs E))) i, E)
    | None => match lookup_token E s with Some t => Ok (S_TOKEN t, E) | None => Err (E_exit 1) end
    end
  end.
(* parse.y 160-164, stimulus.c 79-87: each is put in front of the list *)
Fixpoint stimuli_of (E : env) (l : list stimulus) (acc : list stim) : res (list stim * env) :=
  match l with
  | [] => Ok (acc, E)
  | x :: l' => let! (s, E') := stimulus_of E x in stimuli_of E' l' (s :: acc)
  end.
Fixpoint all_stimuli_of (E : env) (l : list (list stimulus)) : res (list (list stim) * env) :=
  match l with
  | [] => Ok ([], E)
  | x :: l' => let! (s, E1) := stimuli_of E x [] in let! (ss, E2) := all_stimuli_of E1 l' in Ok (s :: ss, E2)
  end.

(* states.c 80-118 lookup_state with CREATE_OR_USE_OLD, and 58-78 create_state *)
Definition with_states (b : cblock) (l : list cstate) : cblock := Cblock (k_name b) l (k_subcount b) (k_subblocks b).
Definition lookup_state (b : cblock) (name : bytes) : cblock * nat :=
  match find_name c_name 0 (k_states b) name with
  | Some i => (b, i)
  | None => (with_states b (k_states b ++ [Cstate name [] []]), length (k_states b))
  end.
Definition change_state (b : cblock) (i : nat) (f : cstate -> cstate) : cblock :=
  with_states b (match nth_error (k_states b) i with Some s => set_nth (k_states b) i (f s) | None => k_states b end).
(* states.c 148-172, 196-203: a transition is put in front *)
Definition push_trans (t : trans_type) (dest : bytes) (s : cstate) : cstate := Cstate (c_name s) ((t, dest) :: c_trans s) (c_tags s).
Definition push_tags (l : list bytes) (s : cstate) : cstate := Cstate (c_name s) (c_trans s) (l ++ c_tags s).
(* blocks.c 120-122, 132-134: namebuf has room for 1024 bytes *)
Definition in_instance (inst name : bytes) : res bytes := let n := inst ++ DOT :: name in if length n <? 1024 then Ok n else Err E_oob.
Fixpoint copy_trans (inst : bytes) (l acc : list (trans_type * bytes)) : res (list (trans_type * bytes)) :=
  match l with
  | [] => Ok acc
  | (t, d) :: l' => let! d' := in_instance inst d in copy_trans inst l' ((t, d') :: acc)
  end.
(* blocks.c 115-150: one state; the tags of the copy replace what tags there are *)
Definition copy_state (inst : bytes) (s : cstate) (b : cblock) : res cblock :=
  let! n := in_instance inst (c_name s) in
  let (b1, i) := lookup_state b n in
  match nth_error (k_states b1) i with
  | None => Err E_oob
  | Some s1 => let! ts := copy_trans inst (c_trans s) (c_trans s1) in Ok (change_state b1 i (fun s1 => Cstate (c_name s1) ts (rev (c_tags s))))
  end.
(* 114-156: master is None if the block is put into itself: then it grows meanwhile *)
Fixpoint copy_states (fuel : nat) (master : option (list cstate)) (inst : bytes) (i : nat) (b : cblock) : res cblock :=
  match nth_error (match master with Some l => l | None => k_states b end) i with
  | None => Ok b
  | Some s => match fuel with O => Err E_fuel | S f => let! b' := copy_state inst s b in copy_states f master inst (S i) b' end
  end.
(* blocks.c 72-106, 109-111; the block that is being read is in the list, too *)
Definition instantiate_block (E : env) (b : cblock) (type inst : bytes) : res cblock :=
  match find (fun m => bytes_eqb (k_name m) type) (n_blocks E) with
  | Some m => copy_states (length (k_states m)) (Some (k_states m)) inst 0 b
  | None => if bytes_eqb (k_name b) type then copy_states (1024 * S (length (k_states b))) None inst 0 b else Err (E_exit 1)
  end.
(* states.c 181-195.  snprintf cuts names that are too long for block_name, input_name, output_name; here the model
   stops with an error value, as it does where namebuf overflows. *)
Definition add_inline_block_transition (E : env) (b : cblock) (cur : nat) (type in_ out dest : bytes) : res cblock :=
  let block_name := type ++ HASH :: decimal (k_subblocks b) in
  let b0 := Cblock (k_name b) (k_states b) (k_subcount b) (S (k_subblocks b)) in
  let! b1 := instantiate_block E b0 type block_name in
  let! input_name := in_instance block_name in_ in
  let! output_name := in_instance block_name out in
  let (b2, o) := lookup_state b1 output_name in
  Ok (change_state (change_state b2 cur (push_trans TT_EPSILON input_name)) o (push_trans TT_EPSILON dest)).
(* states.c 173-180, 204-227: a pointer to an abbreviation is no longer good when the table has been moved *)
Fixpoint add_transition (fuel : nat) (E : env) (cur : nat) (dest : bytes) (b : cblock) (s : stim) : res cblock :=
  match s with
  | S_EPSILON => Ok (change_state b cur (push_trans TT_EPSILON dest))
  | S_TOKEN t => Ok (change_state b cur (push_trans (TT_TOKEN t) dest))
  | S_CLASS k => Ok (change_state b cur (push_trans (TT_CHARCLASS k) dest))
  | S_INLINE t i o => add_inline_block_transition E b cur t i o dest
  | S_ABBREV size i =>
    match fuel with
    | O => Err E_fuel
    | S f =>
      if negb (size =? table_size (length (n_abbrevs E))) then Err E_ub else
      match nth_error (n_abbrevs E) i with
      | None => Err E_oob
      | Some (_, l) => fold_left (fun r s => let! b := r in add_transition f E cur dest b s) l (Ok b)
      end
    end
  end.
(* states.c 228-235; an abbreviation refers only to earlier ones *)
Definition add_transitions (E : env) (b : cblock) (cur : nat) (l : list stim) (dest : bytes) : res cblock :=
  fold_left (fun r s => let! b := r in add_transition (S (length (n_abbrevs E))) E cur dest b s) l (Ok b).
(* states.c 236-245; if there is a state of this name it is used, with a warning (107-113) *)
Definition add_transitions_to_internal (E : env) (b : cblock) (cur : nat) (l : list stim) : res (cblock * nat) :=
  let name := HASH :: decimal (k_subcount b) in
  let (b1, i) := lookup_state (Cblock (k_name b) (k_states b) (S (k_subcount b)) (k_subblocks b)) name in
  let! b2 := add_transitions E b1 cur l name in Ok (b2, i).
(* parse.y 138-158: the stimuli but the last lead to internal states *)
Fixpoint add_line (E : env) (b : cblock) (cur : nat) (ss : list (list stim)) (t : target) : res cblock :=
  match ss with
  | [] => Err E_assert
  | s :: [] =>
    match t with
    | To ds => fold_left (fun r d => let! b := r in add_transitions E b cur s d) ds (Ok b)
    | Marked gs => let! (b1, i) := add_transitions_to_internal E b cur s in Ok (change_state b1 i (push_tags (rev gs)))
    end
  | s :: ss' => let! (b1, i) := add_transitions_to_internal E b cur s in add_line E b1 i ss' t
  end.
Fixpoint add_lines (E : env) (b : cblock) (cur : nat) (ls : list line) : res (cblock * env) :=
  match ls with
  | [] => Ok (b, E)
  | x :: ls' =>
    let! (ss, E1) := all_stimuli_of E (l_stims x) in
    let! b1 := add_line E1 b cur ss (l_target x) in add_lines E1 b1 cur ls'
  end.
(* parse.y 125-130, states.c 119-128 *)
Definition set_cur (E : env) (cur : nat) (entry : option bytes) : env :=
  let here := (length (n_blocks E), cur) in
  Env (n_blocks E) (n_tokens E) (n_abbrevs E) (n_classes E) (match entry with Some e => (e, here) :: n_entries E | None => n_entries E end) (Some here) (n_evs E) (n_defs E).
Fixpoint add_states (E : env) (b : cblock) (ss : list state_decl) : res (cblock * env) :=
  match ss with
  | [] => Ok (b, E)
  | s :: ss' =>
    let (b1, i) := lookup_state b (s_name s) in
    let! (b2, E2) := add_lines (set_cur E i (s_entry s)) b1 i (s_lines s) in add_states E2 b2 ss'
  end.
(* parse.y 136 *)
Fixpoint add_instances (E : env) (b : cblock) (l : list (bytes * bytes)) : res cblock :=
  match l with
  | [] => Ok b
  | (i, m) :: l' => let! b1 := instantiate_block E b m i in add_instances E b1 l'
  end.
(* states.c 256-266: states that are only mentioned *)
Definition fixup_state_refs (b : cblock) : cblock :=
  fold_left (fun b s => fold_left (fun b t => fst (lookup_state b (snd t))) (c_trans s) b) (k_states b) b.
(* parse.y 97-101 *)
Definition add_block (E : env) (d : block_decl) : res env :=
  if existsb (fun m => bytes_eqb (k_name m) (b_name d)) (n_blocks E) then Err (E_exit 1) else
  let E0 := Env (n_blocks E) (n_tokens E) (n_abbrevs E) (n_classes E) (n_entries E) None (n_evs E) (n_defs E) in
  let! b1 := add_instances E0 (Cblock (b_name d) [] 1 1) (b_instances d) in
  let! (b2, E2) := add_states E0 b1 (b_states d) in
  Ok (Env (n_blocks E2 ++ [fixup_state_refs b2]) (n_tokens E2) (n_abbrevs E2) (n_classes E2) (n_entries E2) (n_cur E2) (n_evs E2) (n_defs E2)).
(* parse.y 117-119 *)
Fixpoint add_tokens (E : env) (l : list bytes) : res env :=
  match l with
  | [] => Ok E
  | s :: l' =>
    match lookup_token E s with
    | Some _ => Err (E_exit 1)
    | None => add_tokens (Env (n_blocks E) (n_tokens E ++ [s]) (n_abbrevs E) (n_classes E) (n_entries E) (n_cur E) (n_evs E) (n_defs E)) l'
    end
  end.
(* evaluator.c 64-91 start_evaluator *)
Definition same_group (a b : option bytes) : bool := match a, b with None, None => true | Some x, Some y => bytes_eqb x y | _, _ => false end.
Definition start_evaluator (evs : evaluators) (name : option bytes) : evaluators :=
  if existsb (fun x => same_group (fst x) name) evs then evs else (name, Evaluator [] None) :: evs.
Definition change_evaluator (evs : evaluators) (name : option bytes) (f : evaluator -> evaluator) : evaluators :=
  map (fun x => if same_group (fst x) name then (fst x, f (snd x)) else x) evs.
(* evaluator.c 98-165, parse.y 215-233 *)
Definition define_attr (e : option expr) (early : bool) (name : bytes) (x : evaluator) : evaluator :=
  Evaluator (attrs x ++ [(name, match e with Some e => e | None => E_TAG name end, early)]) (defattr x).
Definition add_attr (evs : evaluators) (group : option bytes) (a : attr_decl) : evaluators :=
  match a with
  | A_attrs early names => fold_left (fun evs n => change_evaluator evs group (define_attr None early n)) names evs
  | A_expr early n e => change_evaluator evs group (define_attr (Some e) early n)
  | A_default n => change_evaluator evs group (fun x => Evaluator (attrs x) (Some n))
  | A_type _ => evs
  end.
Definition with_evs (E : env) (evs : evaluators) : env := Env (n_blocks E) (n_tokens E) (n_abbrevs E) (n_classes E) (n_entries E) (n_cur E) evs (n_defs E).
(* parse.y 88-117, 235-249.  A second prefix is ignored with a warning, a second entrystruct is an error (dfasyn.c 41-50):
   the names that are written are not modelled. *)
Definition add_decl (E : env) (d : decl) : res env :=
  match d with
  | D_block b => add_block E b
  | D_tokens l => add_tokens E l
  | D_abbrev n alts =>
    let! (l, E1) := stimuli_of E alts [] in
    Ok (Env (n_blocks E1) (n_tokens E1) (n_abbrevs E1 ++ [(n, l)]) (n_classes E1) (n_entries E1) (n_cur E1) (n_evs E1) (n_defs E1))
  | D_attr a => Ok (with_evs E (add_attr (n_evs E) None a))
  | D_group n l => Ok (with_evs E (fold_left (fun evs a => add_attr evs (Some n) a) l (start_evaluator (n_evs E) (Some n))))
  | D_tag n e => Ok (Env (n_blocks E) (n_tokens E) (n_abbrevs E) (n_classes E) (n_entries E) (n_cur E) (n_evs E) (n_defs E ++ [(n, e)]))
  | D_prefix _ | D_entrystruct _ _ => Ok E
  end.
Fixpoint add_decls (E : env) (ds : list decl) : res env :=
  match ds with
  | [] => Ok E
  | d :: ds' => let! E1 := add_decl E d in add_decls E1 ds'
  end.
(* dfasyn.c 576 eval_initialise: the default evaluator *)
Definition empty_env : env := Env [] [] [] [] [] None [(None, Evaluator [] None)] [].

(* The reference of each transition (ds_ref) is the state of the name it has, after off states of other blocks. *)
Definition resolve (b : cblock) (off : nat) : block :=
  map (fun s => State (map (fun t => (fst t, off + match find_name c_name 0 (k_states b) (snd t) with Some i => i | None => 0 end)) (c_trans s)) (c_tags s)) (k_states b).
(* dfasyn.c 349-383, 399-403: the blocks with entries, one after the other, each once; where each starts *)
Fixpoint union_blocks (bs_ : list nat) (seen : list nat) : list nat :=
  match bs_ with
  | [] => rev seen
  | b :: r => union_blocks r (if existsb (Nat.eqb b) seen then seen else b :: seen)
  end.
Fixpoint offset (E : env) (bs_ : list nat) (b : nat) : nat :=
  match bs_ with
  | [] => 0
  | x :: r => if x =? b then 0 else length (k_states (nth x (n_blocks E) (Cblock [] [] 0 0))) + offset E r b
  end.
Definition jumbo (E : env) (bs_ : list nat) : block := flat_map (fun x => resolve (nth x (n_blocks E) (Cblock [] [] 0 0)) (offset E bs_ x)) bs_.
(* dfasyn.c 588-618, before classes are split: with entries, or the last state that was current.  stack: see M_Dfasyn. *)
Definition nfa_of (stack : nat) (E : env) : res nfa_file :=
  let make b es := Nfa (length (n_tokens E)) (n_classes E) b es (Rules (map snd (n_evs E)) (n_defs E) stack) in
  match n_entries E with
  | [] =>
    match n_cur E with
    | None => Err E_ub
    | Some (x, i) => Ok (make (jumbo E [x]) [i])
    end
  | _ =>
    let bs_ := union_blocks (map (fun e => fst (snd e)) (n_entries E)) [] in
    Ok (make (jumbo E bs_) (map (fun e => offset E bs_ (fst (snd e)) + snd (snd e)) (n_entries E)))
  end.
Definition compile (stack : nat) (ds : list decl) : res nfa_file := let! E := add_decls empty_env ds in nfa_of stack E.
Definition dfasyn_text (fuel stack : nat) (qsort : sorter) (ud : bool) (text : bytes) : res scanner :=
  let! ds := read_description text in let! F := compile stack ds in dfasyn fuel qsort ud F.
