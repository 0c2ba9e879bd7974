(* Model of dfasyn/n2d.c: from a nondeterministic automaton to a deterministic one; and of dfasyn/evaluator.c and
   dfasyn/expr.c: the attributes of its states. *)
From Verif Require Import Base M_Charclass.
Local Open Scope N_scope.

(* Sets of NFA states: rows of longs, 32 bits of each are used.
   n2d.c 52-55 *)
Definition round_up (x : nat) : nat := (x + 31) / 32.
(* 56-62 *)
Definition row_set (x : list N) (n : nat) : list N := set_nth x (n / 32) (N.lor (nth (n / 32) x 0) (N.shiftl 1 (N.of_nat (n mod 32)))).
(* 63-69 *)
Definition is_set (x : list N) (n : nat) : bool := negb (N.land (nth (n / 32) x 0) (N.shiftl 1 (N.of_nat (n mod 32))) =? 0).
Definition or_row (x y : list N) : list N := words N.lor x y.

(* transitively_close_eclo, 102-111: the row of state merge_idx is merged into the row of the state that is
   being done, from; both may be the same row.  Returns the row, todo, and any_changes. *)
Definition merge (from_row todo to_merge : list N) (any : bool) : list N * list N * bool :=
  let diffs := words N.ldiff to_merge from_row in
  (or_row from_row to_merge, or_row todo diffs, any || existsb (fun d => negb (d =? 0)) diffs).
(* 94-118: the bits of one word; the shifts that end the loop early are left out, and so are the states not
   below N *)
Definition close_word (eclo : list (list N)) (from n i : nat) (s : list N * list N * bool) : list N * list N * bool :=
  let '(row, todo, any) := s in
  let this_todo := nth i todo 0 in
  fold_left (fun (s : list N * list N * bool) j =>
    let '(row, todo, any) := s in
    if N.testbit this_todo (N.of_nat j) then
      let m := (i * 32 + j)%nat in merge row todo (if (m =? from)%nat then row else nth m eclo []) any
    else s) (seq 0 (Nat.min 32 (n - i * 32))) (row, set_nth todo i 0, any).
(* 85-119 *)
Fixpoint close_row (fuel : nat) (eclo : list (list N)) (from n : nat) (row todo : list N) : res (list N) :=
  match fuel with
  | O => Err E_fuel
  | S f =>
    let '(row', todo', any) := fold_left (fun s i => close_word eclo from n i s) (seq 0 (round_up n)) (row, todo, false) in
    if any then close_row f eclo from n row' todo' else Ok row'
  end.
(* 71-120: row after row, in place; a row changes at most n times *)
Fixpoint close_rows (k : nat) (eclo : list (list N)) (from n : nat) : res (list (list N)) :=
  match k with
  | O => Ok eclo
  | S k' =>
    let row := nth from eclo [] in
    let! row' := close_row (S (S n)) eclo from n row row in
    close_rows k' (set_nth eclo from row') (S from) n
  end.
(* 135-160: what a state leads to at once.  A class left over from before is the failing assertion of 157. *)
Fixpoint immediate (row : list N) (ts : list (trans_type * nat)) : res (list N) :=
  match ts with
  | [] => Ok row
  | (TT_EPSILON, d) :: ts' => immediate (row_set row d) ts'
  | (TT_TOKEN _, _) :: ts' => immediate row ts'
  | (TT_CHARCLASS _, _) :: _ => Err E_assert
  end.
Fixpoint immediates (i n : nat) (b : block) : res (list (list N)) :=
  match b with
  | [] => Ok []
  | s :: b' =>
    let! row := immediate (row_set (repeat 0 (round_up n)) i) (transitions s) in
    let! rows := immediates (S i) n b' in Ok (row :: rows)
  end.
(* 122-165 *)
Definition generate_epsilon_closure (b : block) : res (list (list N)) :=
  let n := length b in
  let! eclo := immediates 0 n b in close_rows n eclo 0 n.

(* 248-292: where token t leads from a state, followed by epsilons; and whether anywhere *)
Definition transmap (n : nat) (eclo : list (list N)) (s : state) (t : nat) : list N :=
  fold_left (fun x tr => match tr with (TT_TOKEN t', d) => if (t' =? t)%nat then or_row x (nth d eclo []) else x | _ => x end) (transitions s) (repeat 0 (round_up n)).
Definition anytrans (eclo : list (list N)) (s : state) (t : nat) : bool :=
  existsb (fun tr => match tr with (TT_TOKEN t', d) => (t' =? t)%nat && existsb (fun x => negb (x =? 0)) (nth d eclo []) | _ => false end) (transitions s).

(* expr.c 31-47 *)
Inductive expr := E_AND (a b : expr) | E_OR (a b : expr) | E_XOR (a b : expr) | E_COND (a b c : expr) | E_NOT (a : expr) | E_TAG (name : bytes).
(* evaluator.c 31-50: the values of an attribute with the condition of each and whether the scanner stops there
   (early), and the value it has otherwise *)
Record evaluator := Evaluator { attrs : list (bytes * expr * bool); defattr : option bytes }.
(* expr.c 157-192: tags defined by expressions, the last definition of a name counts; and the tags that are set *)
Definition tag_defs := list (bytes * expr).
Definition defined (defs : tag_defs) (name : bytes) : option expr := option_map snd (find (fun d => bytes_eqb (fst d) name) (rev defs)).
(* 194-230; the fuel stands for the stack, which definitions that go round in circles overrun *)
Fixpoint eval (fuel : nat) (defs : tag_defs) (on : list bytes) (e : expr) : res bool :=
  match fuel with
  | O => Err E_ub
  | S f =>
    let ev := eval f defs on in
    match e with
    | E_AND a b => let! x := ev a in if x then ev b else Ok false
    | E_OR a b => let! x := ev a in if x then Ok true else ev b
    | E_XOR a b => let! x := ev a in let! y := ev b in Ok (xorb x y)
    | E_COND a b c => let! x := ev a in if x then ev b else ev c
    | E_NOT a => let! x := ev a in Ok (negb x)
    | E_TAG name => match defined defs name with Some e' => ev e' | None => Ok (existsb (bytes_eqb name) on) end
    end
  end.
(* evaluator.c 202-217: the value that applies, whether it is early, and whether it is the only one.  When a second
   one applies the loop ends. *)
Fixpoint evaluate_attr (fuel : nat) (defs : tag_defs) (on : list bytes) (matched : option (bytes * bool)) (l : list (bytes * expr * bool)) : res (option (bytes * bool) * bool) :=
  match l with
  | [] => Ok (matched, true)
  | (a, e, early) :: l' =>
    let! x := eval fuel defs on e in
    if x then match matched with Some _ => Ok (matched, false) | None => evaluate_attr fuel defs on (Some (a, early)) l' end
    else evaluate_attr fuel defs on matched l'
  end.
(* 181-223 *)
Fixpoint evaluate_attrs (fuel : nat) (defs : tag_defs) (on : list bytes) (evs : list evaluator) : res (list (option bytes) * bool * bool) :=
  match evs with
  | [] => Ok ([], false, true)
  | x :: evs' =>
    let! (m, one) := evaluate_attr fuel defs on None (attrs x) in
    let! (vs, early, ok) := evaluate_attrs fuel defs on evs' in
    Ok (option_map fst m :: vs, match m with Some (_, true) => true | _ => early end, one && ok)
  end.

(* dfasyn.h 208-245, what is set in n2d.c.  d_one: the attributes are not ambiguous. *)
Record dfa_node := Node { d_nfas : list N; d_map : list Z; d_attrs : list (option bytes); d_early : bool; d_one : bool }.
(* What attributes are computed from. *)
Record rules := Rules { r_evs : list evaluator; r_defs : tag_defs; r_fuel : nat }.
(* n2d.c 325-333, 344-347 *)
Definition signature (nfas : list N) : N := fold_left N.lxor nfas 0.
Definition fold_signature (sig : N) : N := let f := N.lxor sig (N.shiftr sig 16) in N.land (N.lxor f (N.shiftr f 8)) 255.
(* 335-369: the lists of the hash table have the latest first *)
Fixpoint find_newest (nfas : list N) (i : nat) (rnodes : list dfa_node) : option nat :=
  match rnodes with
  | [] => None
  | d :: r =>
    if (fold_signature (signature (d_nfas d)) =? fold_signature (signature nfas)) && (signature nfas =? signature (d_nfas d)) && bytes_eqb nfas (d_nfas d)
    then Some (i - 1)%nat else find_newest nfas (i - 1) r
  end.
Definition find_dfa (nfas : list N) (nodes : list dfa_node) : option nat := find_newest nfas (length nodes) (rev nodes).
(* 414-431: the tags of the NFA states; one defined by an expression ends the program (expr.c 186-188) *)
Definition tags_of (b : block) (nfas : list N) : list bytes := flat_map (fun js => if is_set nfas (fst js) then tags (snd js) else []) (List.combine (seq 0 (length b)) b).
(* 372-452 *)
Definition add_dfa (R : rules) (b : block) (nt : nat) (nfas : list N) (nodes : list dfa_node) : res (list dfa_node) :=
  let on := tags_of b nfas in
  if existsb (fun n => match defined (r_defs R) n with Some _ => true | None => false end) on then Err (E_exit 2) else
  let! (vs, early, ok) := evaluate_attrs (r_fuel R) (r_defs R) on (r_evs R) in
  Ok (nodes ++ [Node nfas (repeat (-1)%Z nt) vs early ok]).
Definition find_or_add (R : rules) (b : block) (nt : nat) (nfas : list N) (nodes : list dfa_node) : res (nat * list dfa_node) :=
  match find_dfa nfas nodes with
  | Some i => Ok (i, nodes)
  | None => let! nodes' := add_dfa R b nt nfas nodes in Ok (length nodes, nodes')
  end.
(* 489-505: the entry states *)
Fixpoint add_entries (R : rules) (b : block) (nt : nat) (eclo : list (list N)) (entries : list nat) (nodes : list dfa_node) : res (list nat * list dfa_node) :=
  match entries with
  | [] => Ok ([], nodes)
  | e :: es =>
    let! (i, nodes') := find_or_add R b nt (or_row (repeat 0 (round_up (length b))) (nth e eclo [])) nodes in
    let! (is_, nodes'') := add_entries R b nt eclo es nodes' in Ok (i :: is_, nodes'')
  end.
(* 537-565: where token t leads from a set of NFA states, and whether anywhere *)
Definition targets (b : block) (eclo : list (list N)) (nfas : list N) (t : nat) : list N * bool :=
  let n := length b in
  fold_left (fun (x : list N * bool) (js : nat * state) =>
    if is_set nfas (fst js) && anytrans eclo (snd js) t then
      let m := transmap n eclo (snd js) t in (or_row (fst x) m, snd x || existsb (fun w => negb (w =? 0)) m)
    else x) (List.combine (seq 0 n) b) (repeat 0 (round_up n), false).
(* 567-577: the tokens from t on *)
Fixpoint map_tokens (R : rules) (b : block) (nt : nat) (eclo : list (list N)) (nfas : list N) (k t : nat) (nodes : list dfa_node) : res (list Z * list dfa_node) :=
  match k with
  | O => Ok ([], nodes)
  | S k' =>
    let (row, any) := targets b eclo nfas t in
    let! (z, nodes') := if any then let! (i, nodes') := find_or_add R b nt row nodes in Ok (Z.of_nat i, nodes') else Ok ((-1)%Z, nodes) in
    let! (zs, nodes'') := map_tokens R b nt eclo nfas k' (S t) nodes' in Ok (z :: zs, nodes'')
  end.
Definition set_map (d : dfa_node) (m : list Z) : dfa_node := Node (d_nfas d) m (d_attrs d) (d_early d) (d_one d).
(* 515-580 *)
Fixpoint build_loop (fuel : nat) (R : rules) (b : block) (nt : nat) (eclo : list (list N)) (next : nat) (nodes : list dfa_node) : res (list dfa_node) :=
  match nth_error nodes next with
  | None => Ok nodes
  | Some d =>
    match fuel with
    | O => Err E_fuel
    | S f =>
      if d_early d then build_loop f R b nt eclo (S next) nodes else
      let! (m, nodes') := map_tokens R b nt eclo (d_nfas d) nt 0 nodes in
      build_loop f R b nt eclo (S next) (set_nth nodes' next (set_map d m))
    end
  end.
(* 461-586; and the entries, renumbered *)
Definition build_dfa (fuel : nat) (R : rules) (b : block) (nt : nat) (eclo : list (list N)) (entries : list nat) : res (list nat * list dfa_node) :=
  let! (is_, nodes) := add_entries R b nt eclo entries [] in
  let! nodes' := build_loop fuel R b nt eclo 0 nodes in Ok (is_, nodes').
