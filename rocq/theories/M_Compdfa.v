(* Model of dfasyn/compdfa.c: states that behave alike are made one; of dfasyn/tabcompr.c and of the tables and the
   function next_state that dfasyn/dfasyn.c writes; and of main there. *)
From Verif Require Import Base M_Charclass M_Dfasyn.
Local Open Scope N_scope.

(* qsort on an array of states, by number; a parameter *)
Definition sorter := (nat -> nat -> comparison) -> list nat -> list nat.
Definition attr_or (d v : option bytes) : option bytes := match v with Some _ => v | None => d end.

(* compdfa.c 348-363; get_defattr is never null here (check_default_attrs) *)
Definition nondefault (evs : list evaluator) (d : dfa_node) : bool :=
  existsb (fun xv => match snd xv, defattr (fst xv) with Some v, Some w => negb (bytes_eqb w v) | _, _ => false end) (List.combine evs (d_attrs d)).
(* 386-409: one round over the states *)
Definition leads_round (evs : list evaluator) (nodes : list dfa_node) (leads : list bool) : list bool * bool :=
  fold_left (fun (la : list bool * bool) (id : nat * dfa_node) =>
    if nth (fst id) (fst la) false then la else
    if nondefault evs (snd id) || existsb (fun z => (0 <=? z)%Z && nth (Z.to_nat z) (fst la) false) (d_map (snd id)) then (set_nth (fst la) (fst id) true, true) else la)
    (List.combine (seq 0 (length nodes)) nodes) (leads, false).
Fixpoint leads_loop (fuel : nat) (evs : list evaluator) (nodes : list dfa_node) (leads : list bool) : res (list bool) :=
  match fuel with
  | O => Err E_fuel
  | S f => let (leads', did_any) := leads_round evs nodes leads in if did_any then leads_loop f evs nodes leads' else Ok leads'
  end.
(* 365-439: which states lead to a result, and the states without transitions to others.  A state that does not
   is dead. *)
Definition find_dead_states (evs : list evaluator) (nodes : list dfa_node) : res (list bool * list dfa_node) :=
  let! leads := leads_loop (S (length nodes)) evs nodes (repeat false (length nodes)) in
  Ok (leads, map (fun d => set_map d (map (fun z => if (0 <=? z)%Z && negb (nth (Z.to_nat z) leads false) then (-1)%Z else z) (d_map d))) nodes).

(* 160-193 *)
Definition opt_cmp (a b : option bytes) : comparison :=
  match a, b with None, None => Eq | None, Some _ => Lt | Some _, None => Gt | Some x, Some y => bytes_cmp x y end.
Fixpoint attrs_cmp (evs : list evaluator) (a b : list (option bytes)) : comparison :=
  match evs, a, b with
  | x :: evs', v :: a', w :: b' => match opt_cmp (attr_or (defattr x) v) (attr_or (defattr x) w) with Eq => attrs_cmp evs' a' b' | c => c end
  | _, _, _ => Eq
  end.
Definition empty_node : dfa_node := Node [] [] [] false true.
Definition node (nodes : list dfa_node) (i : nat) : dfa_node := nth i nodes empty_node.
Definition initial_compare (evs : list evaluator) (nodes : list dfa_node) (i j : nat) : comparison := attrs_cmp evs (d_attrs (node nodes i)) (d_attrs (node nodes j)).
(* 195-213: the states after the first *)
Fixpoint number_classes (cmp : nat -> nat -> comparison) (prev : nat) (l : list nat) (last : nat) (eqc : list nat) : list nat * nat :=
  match l with
  | [] => (eqc, last)
  | i :: l' => let last' := match cmp prev i with Eq => last | _ => S last end in number_classes cmp i l' last' (set_nth eqc i last')
  end.
Definition assign_initial_classes (qsort : sorter) (evs : list evaluator) (nodes : list dfa_node) (sq : list nat) : list nat * (list nat * nat) :=
  let sq' := qsort (initial_compare evs nodes) sq in
  match sq' with
  | [] => (sq', ([], O))
  | i :: l => (sq', number_classes (initial_compare evs nodes) i l 0 (set_nth (repeat O (length nodes)) i O))
  end.

(* tabcompr.c 33-40 *)
Definition increment (x : N) (field : N) : N :=
  let f2 := field + field in
  let h := nth (N.to_nat (N.land (N.shiftr x f2) 3)) [1; 2; 2; 1] 0 in
  N.lxor x (N.shiftl h f2).
(* compdfa.c 60-82 *)
Definition class_sig (nodes : list dfa_node) (eqc : list nat) (i : nat) : N :=
  fold_left (fun sig z => if (0 <=? z)%Z then increment sig (N.land (N.of_nat (nth (Z.to_nat z) eqc O)) 15) else sig) (d_map (node nodes i)) 0.
(* 100-112 *)
Definition class_of (eqc : list nat) (z : Z) : Z := if (0 <=? z)%Z then Z.of_nat (nth (Z.to_nat z) eqc O) else (-1)%Z.
Fixpoint maps_cmp (eqc : list nat) (a b : list Z) : comparison :=
  match a, b with
  | x :: a', y :: b' => match (class_of eqc x ?= class_of eqc y)%Z with Eq => maps_cmp eqc a' b' | c => c end
  | _, _ => Eq
  end.
(* 83-118 *)
Definition general_compare (nodes : list dfa_node) (eqc : list nat) (i j : nat) : comparison :=
  match (nth i eqc O ?= nth j eqc O)%nat with
  | Eq => match class_sig nodes eqc i ?= class_sig nodes eqc j with Eq => maps_cmp eqc (d_map (node nodes i)) (d_map (node nodes j)) | c => c end
  | c => c
  end.
(* 131-153: the states after the first.  neqc: the new classes; whether there was a split *)
Fixpoint split_pass (nodes : list dfa_node) (eqc : list nat) (prev : nat) (l : list nat) (neqc : list nat) (last : nat) (had : bool) : list nat * nat * bool :=
  match l with
  | [] => (neqc, last, had)
  | i :: l' =>
    let '(c, last', had') :=
      if (nth i eqc O =? nth prev eqc O)%nat then match general_compare nodes eqc i prev with Eq => (nth prev neqc O, last, had) | _ => (S last, S last, true) end
      else (nth i eqc O, last, had) in
    split_pass nodes eqc i l' (set_nth neqc i c) last' had'
  end.
(* 120-158 *)
Definition split_classes (qsort : sorter) (nodes : list dfa_node) (sq : list nat) (eqc : list nat) (last : nat) : list nat * (list nat * nat * bool) :=
  let sq' := qsort (general_compare nodes eqc) sq in
  match sq' with
  | [] => (sq', (eqc, last, false))
  | i :: l => (sq', split_pass nodes eqc i l eqc last false)
  end.
(* 446-449 *)
Fixpoint split_loop (fuel : nat) (qsort : sorter) (nodes : list dfa_node) (sq eqc : list nat) (last : nat) : res (list nat) :=
  match fuel with
  | O => Err E_fuel
  | S f => let '(sq', (eqc', last', had)) := split_classes qsort nodes sq eqc last in if had then split_loop f qsort nodes sq' eqc' last' else Ok eqc'
  end.

(* 240-252: the first state of each class *)
Definition rep_of (eqc : list nat) (i : nat) : nat := match find (fun j => (nth j eqc O =? nth i eqc O)%nat) (seq 0 (length eqc)) with Some j => j | None => i end.
(* 254-273 *)
Fixpoint new_indices (leads : list bool) (eqc : list nat) (k i next : nat) (acc : list Z) : list Z :=
  match k with
  | O => acc
  | S k' =>
    if negb (nth i leads false) then new_indices leads eqc k' (S i) next (acc ++ [(-1)%Z]) else
    if (rep_of eqc i =? i)%nat then new_indices leads eqc k' (S i) (S next) (acc ++ [Z.of_nat next])
    else new_indices leads eqc k' (S i) next (acc ++ [nth (rep_of eqc i) acc (-1)%Z])
  end.
(* 217-321; from_state and via_token are for the report only *)
Definition compress_states (leads : list bool) (nodes : list dfa_node) (eqc : list nat) (entries : list nat) : list Z * list dfa_node :=
  let n := length nodes in
  let ni := new_indices leads eqc n 0 0 [] in
  (map (fun e => nth e ni (-1)%Z) entries,
   map (fun id => set_map (snd id) (map (fun z => if (0 <=? z)%Z then nth (Z.to_nat z) ni (-1)%Z else z) (d_map (snd id))))
     (filter (fun id => nth (fst id) leads false && (rep_of eqc (fst id) =? fst id)%nat) (List.combine (seq 0 n) nodes))).
(* 427-458 *)
Definition compress_dfa (qsort : sorter) (evs : list evaluator) (nodes : list dfa_node) (entries : list nat) : res (list Z * list dfa_node) :=
  match nodes with
  | [] => Ok (map Z.of_nat entries, [])
  | _ =>
    let! (leads, nodes1) := find_dead_states evs nodes in
    let '(sq, (eqc, last)) := assign_initial_classes qsort evs nodes1 (seq 0 (length nodes)) in
    let! eqc' := split_loop (S (length nodes)) qsort nodes1 sq eqc last in
    Ok (compress_states leads nodes1 eqc' entries)
  end.

(* tabcompr.c 45-58 *)
Definition count_bits_set (x : N) : N :=
  let c := 1431655765 in let y := N.land (N.shiftr x 1) c + N.land x c in
  let c := 858993459 in let y := N.land (N.shiftr y 2) c + N.land y c in
  let y := N.shiftr y 4 + y in
  let y := N.land y 252645135 in
  let y := N.shiftr y 8 + y in
  let y := N.shiftr y 16 + y in
  N.land y 31.
(* 68-82; -1 becomes a long, its last four bits are set *)
Definition transition_sig (d : dfa_node) : N := fold_left (fun ts z => increment ts (Z.to_N (z mod 16))) (d_map d) 0.
Definition differences (a b : list Z) : nat := length (filter (fun xy => negb (fst xy =? snd xy)%Z) (List.combine a b)).
(* 104-143: the states before state i that have no default state; best is the best one so far with its differences *)
Fixpoint best_default (d : dfa_node) (nt trans_count : nat) (before : list (nat * (dfa_node * Z))) (best : option nat) (best_diff : nat) : option nat :=
  match before with
  | [] => best
  | (j, (e, def)) :: r =>
    if (0 <=? def)%Z then best_default d nt trans_count r best best_diff else
    let diffsize := N.to_nat (count_bits_set (N.lxor (transition_sig d) (transition_sig e))) in
    if (best_diff <=? diffsize)%nat then best_default d nt trans_count r best best_diff else
    if (trans_count <=? diffsize)%nat then best_default d nt trans_count r best best_diff else
    let diffsize := differences (d_map d) (d_map e) in
    if match best with None => true | Some _ => (diffsize <? best_diff)%nat end && (diffsize + 2 <? trans_count)%nat
    then best_default d nt trans_count r (Some j) diffsize else best_default d nt trans_count r best best_diff
  end.
(* 88-148: the default states of the states from i on *)
Fixpoint find_default_states (nt : nat) (nodes : list dfa_node) (rest : list dfa_node) (defs : list Z) : list Z :=
  match rest with
  | [] => defs
  | d :: rest' =>
    let trans_count := length (filter (fun z => (0 <=? z)%Z) (d_map d)) in
    let before := List.combine (seq 0 (length defs)) (List.combine nodes defs) in
    let def := match best_default d nt trans_count before None (S nt) with Some j => Z.of_nat j | None => (-1)%Z end in
    find_default_states nt nodes rest' (defs ++ [def])
  end.

(* The tables: the C types short, unsigned short and unsigned char.
   dfasyn.c 131-166 *)
Definition as_short (z : Z) : Z := ((z + 32768) mod 65536 - 32768)%Z.
Definition uncompressed_table (nodes : list dfa_node) : list Z := flat_map (fun d => map as_short (d_map d)) nodes.
(* 112-129; a negative state is not looked for *)
Definition next_state_uncompressed (nt : nat) (trans : list Z) (current_state next_token : Z) : res Z :=
  if (next_token <? 0)%Z || (Z.of_nat nt <=? next_token)%Z then Ok (-1)%Z else
  let i := (Z.of_nat nt * current_state + next_token)%Z in
  if (i <? 0)%Z then Err E_oob else match nth_error trans (Z.to_nat i) with Some z => Ok z | None => Err E_oob end.
Record tables := Tables { tb_token : list N; tb_nextstate : list Z; tb_base : list N; tb_defstate : list Z }.
(* 168-176 *)
Definition check_include_char (nodes : list dfa_node) (d : dfa_node) (def : Z) (t : nat) : bool :=
  if (0 <=? def)%Z then negb (nth t (d_map d) (-1) =? nth t (d_map (node nodes (Z.to_nat def))) (-1))%Z else (0 <=? nth t (d_map d) (-1))%Z.
(* 211-303 *)
Definition included (nt : nat) (nodes : list dfa_node) (dd : dfa_node * Z) : list (nat * Z) :=
  map (fun t => (t, nth t (d_map (fst dd)) (-1)%Z)) (filter (check_include_char nodes (fst dd) (snd dd)) (seq 0 nt)).
Fixpoint bases (n : nat) (rows : list (list (nat * Z))) : list N :=
  match rows with
  | [] => [N.of_nat n mod 65536]
  | r :: rows' => N.of_nat n mod 65536 :: bases (n + length r) rows'
  end.
Definition compressed_tables (nt : nat) (nodes : list dfa_node) (defs : list Z) : tables :=
  let rows := map (included nt nodes) (List.combine nodes defs) in
  Tables (map (fun tz => N.of_nat (fst tz) mod 256) (concat rows)) (map (fun tz => as_short (snd tz)) (concat rows)) (bases 0 rows) (map as_short defs).
(* 188-195: the while loop over l and h *)
Fixpoint bisect (fuel : nat) (token : list N) (l h : nat) (next_token : Z) : res (option nat) :=
  match fuel with
  | O => Err E_fuel
  | S f =>
    if (h <=? l)%nat then Ok None else
    let m := ((h + l) / 2)%nat in
    match nth_error token m with
    | None => Err E_oob
    | Some xm =>
      if (Z.of_N xm =? next_token)%Z then Ok (Some m) else
      if (m =? l)%nat then Ok None else
      if (next_token <? Z.of_N xm)%Z then bisect f token l m next_token else bisect f token m h next_token
    end
  end.
(* 178-209 *)
Fixpoint next_state_compressed (fuel : nat) (T : tables) (current_state next_token : Z) : res Z :=
  if (current_state <? 0)%Z then Ok (-1)%Z else
  match fuel with
  | O => Err E_fuel
  | S f =>
    let i := Z.to_nat current_state in
    match nth_error (tb_base T) i, nth_error (tb_base T) (S i) with
    | Some l, Some h =>
      let! r := bisect (S (N.to_nat h - N.to_nat l)) (tb_token T) (N.to_nat l) (N.to_nat h) next_token in
      match r with
      | Some m => match nth_error (tb_nextstate T) m with Some z => Ok z | None => Err E_oob end
      | None => match nth_error (tb_defstate T) i with Some z => next_state_compressed f T z next_token | None => Err E_oob end
      end
    | _, _ => Err E_oob
    end
  end.
(* 71-91: the value of each attribute in each state *)
Definition attr_tables (evs : list evaluator) (nodes : list dfa_node) : list (list (option bytes)) :=
  map (fun xi => map (fun d => attr_or (defattr (snd xi)) (nth (fst xi) (d_attrs d) None)) nodes) (List.combine (seq 0 (length evs)) evs).

(* What the parser (parse.y) has read: the number of tokens, the classes in the order of the file, the block with its
   references to states (fixup_state_refs) as numbers, the entries, and the rules for attributes.  Without entry the
   last state that was current is the one entry (main, 615-638; dfa_entries then points to an array whose block has
   ended, modelled as if it were still there). *)
Record nfa_file := Nfa { f_ntokens : nat; f_classes : list char_class; f_block : block; f_entries : list nat; f_rules : rules }.
(* What is written. *)
Record scanner := Scanner { sc_nt : nat; sc_char2tok : list Z; sc_trans : list Z; sc_tables : tables; sc_attrs : list (list (option bytes)); sc_entries : list Z }.
(* The references are in range: not a check of the program. *)
Definition in_range (ntokens nclasses : nat) (b : block) (entries : list nat) : bool :=
  forallb (fun s => forallb (fun t => (snd t <? length b)%nat && match fst t with TT_EPSILON => true | TT_TOKEN t => (t <? ntokens)%nat | TT_CHARCLASS k => (k <? nclasses)%nat end) (transitions s)) b &&
  forallb (fun e => (e <? length b)%nat) entries.
(* dfasyn.c 485-690, from 606 on; ud: -ud was given.  Both kinds of table are written here, the program writes one. *)
Definition dfasyn (fuel : nat) (qsort : sorter) (ud : bool) (F : nfa_file) : res scanner :=
  let R := f_rules F in let evs := r_evs R in let b := f_block F in
  if existsb (fun x => match defattr x with None => true | Some _ => false end) evs then Err (E_exit 1) else
  if negb (in_range (f_ntokens F) (length (f_classes F)) b (f_entries F)) then Err E_oob else
  let classes := map make_class (f_classes F) in
  let! (mapping, ncc) := split_charclasses (reduce_list b classes) in
  let nt := (f_ntokens F + ncc)%nat in
  let b1 := expand_charclass_transitions (f_ntokens F) classes mapping b in
  let! eclo := generate_epsilon_closure b1 in
  let! (entries, nodes) := build_dfa fuel R b1 nt eclo (f_entries F) in
  if existsb (fun d => negb (d_one d)) nodes then Err (E_exit 2) else
  let! (entries', nodes') := if ud then Ok (map Z.of_nat entries, nodes) else compress_dfa qsort evs nodes entries in
  let defs := find_default_states nt nodes' nodes' [] in
  Ok (Scanner nt (char2tok (f_ntokens F) mapping) (uncompressed_table nodes') (compressed_tables nt nodes' defs) (attr_tables evs nodes') entries').
