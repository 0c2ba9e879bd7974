(* Searching an open index file: search.c 49-72, 245-556, 781-1081 up to the
   sorted list of results. *)
From Verif Require Import Base M_Encoding M_TokTable M_DbFile M_WuManber.
Local Open Scope N_scope.

(* The hit arrays: one flag per message (hit0..hit3, search.c 827-830). *)
Definition hits := list bool.

(* ---- hits from the word tables ---- *)

(* search.c 49-60 mark_hits_in_table and 61-72 mark_hits_in_table2, on the numbers the list reader
   produces.  idx is an int, so a number of 2^31 or more is a negative index.
   Simplified: the list is read to its end before the first store. *)
Fixpoint mark (n : Z) (vs : list N) (h : hits) : res hits :=
  match vs with
  | [] => Ok h
  | v :: vs' =>
    let idx := int_of_u32 v in
    if (n <=? idx)%Z then Err E_assert
    else if (idx <? 0)%Z then Err E_oob
    else mark n vs' (set_nth h (Z.to_nat idx) true)
  end.
Definition mark_at (data : bytes) (n : Z) (off : N) (h : hits) : res hits :=
  match read_list_at data (N.to_nat off) with
  | RA_ok vs _ => mark n vs h
  | RA_oob _ => Err E_oob
  | RA_fuel => Err E_fuel
  end.

(* The loops of search.c 263-287 and 356-362: every word of a table that satisfies p marks its
   messages; words the reader refuses are skipped. *)
Fixpoint scan_table (data : bytes) (n : Z) (t : toktable_db) (p : bytes -> bool) (k : nat) (i : N) (h : hits)
  : res hits :=
  match k with
  | O => Ok h
  | S k' =>
    let! off := ui data (t_tok t + i) in
    let! h' := match get_db_token data (N.to_nat off) with
               | T_ok w => if p w then let! e := ui data (t_enc t + i) in mark_at data n e h else Ok h
               | T_none => Ok h
               | T_oob _ => Err E_oob
               | T_fuel => Err E_fuel
               end in
    scan_table data n t p k' (i + 1) h'
  end.
(* search.c 350-365 match_string_in_table *)
Definition match_string_in_table (data : bytes) (n : Z) (t : toktable_db) (key : bytes) (h : hits) : res hits :=
  scan_table data n t (bytes_eqb key) (N.to_nat (t_n t)) 0 h.
(* search.c 246-291 match_substring_in_table *)
Definition match_substring_in_table (data : bytes) (n : Z) (t : toktable_db) (s : bytes) (errors : nat)
    (anchor : bool) (h : hits) : res hits :=
  let! (a, hit) := build_match_vector s in
  scan_table data n t (substring_match a hit anchor errors) (N.to_nat (t_n t)) 0 h.
(* search.c 366-380 match_string_in_table2: no check that the reader returned a word, so NULL goes
   to strcmp. *)
Fixpoint scan_table2 (data : bytes) (n : Z) (t : toktable2_db) (p : bytes -> bool) (k : nat) (i : N) (h : hits)
  : res hits :=
  match k with
  | O => Ok h
  | S k' =>
    let! off := ui data (t2_tok t + i) in
    let! h' := match get_db_token data (N.to_nat off) with
               | T_ok w => if p w then let! e := ui data (t2_enc1 t + i) in mark_at data n e h else Ok h
               | T_none => Err E_ub
               | T_oob _ => Err E_oob
               | T_fuel => Err E_fuel
               end in
    scan_table2 data n t p k' (i + 1) h'
  end.
Definition match_string_in_table2 (data : bytes) (n : Z) (t : toktable2_db) (key : bytes) (h : hits) : res hits :=
  scan_table2 data n t (bytes_eqb key) (N.to_nat (t2_n t)) 0 h.

(* ---- hits from the per-message tables ---- *)

(* A loop over all messages, i = first, first + 1, ... *)
Fixpoint for_msgs {A} (f : N -> res A) (k : nat) (i : N) : res (list A) :=
  match k with
  | O => Ok []
  | S k' => let! x := f i in let! xs := for_msgs f k' (i + 1) in Ok (x :: xs)
  end.
Definition each_msg {A} (r : read_db) (f : N -> res A) : res (list A) := for_msgs f (N.to_nat (r_n r)) 0.

(* reader.h 177-182 rd_msg_type *)
Definition type_and_flags (data : bytes) (r : read_db) (i : N) : res N := fetch (rd8 data (r_type r + i)).
Definition rd_msg_type (data : bytes) (r : read_db) (i : N) : res N :=
  let! b := type_and_flags data r i in Ok (N.land b 7).

(* search.c 292-349 match_substring_in_paths: assigns hits[i] for every message; the previous
   contents of the array are lost.  A message that is neither a file, an mbox message nor dead
   leaves token NULL and the assertion of line 322 fails.
   Simplified: the path is read to its NUL before matching. *)
Definition path_token (data : bytes) (r : read_db) (i : N) : res (option bytes) :=
  let! ty := rd_msg_type data r i in
  if ty =? 1 then let! off := ui data (r_path r + i) in let! w := cstr data off in Ok (Some w)
  else if ty =? 2 then
    let! off := ui data (r_path r + i) in
    let! (mbix, msgix) := decode_mbox_indices data off in
    let! po := ui data (r_mbp r + mbix) in
    let! w := cstr data po in Ok (Some w)
  else if ty =? 0 then Ok None
  else Err E_assert.
Definition match_substring_in_paths (data : bytes) (r : read_db) (s : bytes) (errors : nat) (anchor : bool)
  : res hits :=
  let! (a, hit) := build_match_vector s in
  each_msg r (fun i => let! tok := path_token data r i in
    Ok match tok with Some w => substring_match a hit anchor errors w | None => false end).

(* sscanf "%d" (and atoi): white space, an optional sign, at least one digit.  A value outside int
   is undefined behaviour.  Returns the value and what follows it. *)
Fixpoint skip_space (s : bytes) : bytes :=
  match s with c :: s' => if isspace c then skip_space s' else s | [] => [] end.
Fixpoint digits (s : bytes) : bytes * bytes :=
  match s with
  | c :: s' => if isdigit c then let (d, rest) := digits s' in (c :: d, rest) else ([], s)
  | [] => ([], [])
  end.
Definition dec (d : bytes) : N := fold_left (fun a c => 10 * a + (c - 48)) d 0.
Definition scan_int (s : bytes) : res (option (Z * bytes)) :=
  let s := skip_space s in
  let (neg, s) := match s with
                  | c :: s' => if c =? 45 then (true, s') else if c =? 43 then (false, s') else (false, s)
                  | [] => (false, [])
                  end in
  let (d, rest) := digits s in
  match d with
  | [] => Ok None
  | _ => let v := if neg : bool then (- Z.of_N (dec d))%Z else Z.of_N (dec d) in
         if ((v <? - 2 ^ 31) || (2 ^ 31 <=? v))%Z then Err E_ub else Ok (Some (v, rest))
  end.

(* search.c 381-407 parse_size_expr: shifting a negative int, or shifting out of int, is undefined. *)
Definition shift_int (v : Z) (by_ : N) : res Z :=
  if ((v <? 0) || (2 ^ 31 <=? v * 2 ^ Z.of_N by_))%Z then Err E_ub else Ok (v * 2 ^ Z.of_N by_)%Z.
Definition parse_size_expr (x : bytes) : res Z :=
  let! o := scan_int x in
  match o with
  | None => Ok (-1)%Z
  | Some (v, rest) =>
    match rest with
    | c :: _ => if (c =? 107) || (c =? 75) then shift_int v 10
                else if (c =? 109) || (c =? 77) then shift_int v 20 else Ok v
    | [] => Ok v
    end
  end.
(* The text before and after the first c (strchr). *)
Fixpoint split_at (c : N) (s : bytes) : option (bytes * bytes) :=
  match s with
  | [] => None
  | x :: s' => if x =? c then Some ([], s')
               else match split_at c s' with Some (a, b) => Some (x :: a, b) | None => None end
  end.
(* search.c 414 *)
Definition drop_colon (e : bytes) : bytes :=
  match e with c :: x => if c =? 58 then x else e | [] => e end.
(* search.c 408-445 parse_size_range: without a dash the whole expression, with its leading colon if
   it has one, is parsed. *)
Definition parse_size_range (e : bytes) : res (option Z * option Z) :=
  match split_at 45 (drop_colon e) with
  | Some (a, b) =>
    let! start := match a with [] => Ok None | _ => let! v := parse_size_expr a in Ok (Some v) end in
    let! end_ := match b with [] => Ok None | _ => let! v := parse_size_expr b in Ok (Some v) end in
    Ok (start, end_)
  | None => let! v := parse_size_expr e in Ok (None, Some v)
  end.
(* search.c 453-460 and 486-493 *)
Definition order_ends (start end_ : option Z) : option Z * option Z :=
  match start, end_ with
  | Some a, Some b => if (b <? a)%Z then (Some b, Some a) else (start, end_)
  | _, _ => (start, end_)
  end.
(* search.c 446-471 find_size_matches_in_table: comparing the unsigned size with an int converts
   the int to unsigned. *)
Definition find_size_matches (data : bytes) (r : read_db) (e : bytes) : res hits :=
  let! (start, end_) := parse_size_range e in
  let (start, end_) := order_ends start end_ in
  each_msg r (fun i => let! size := ui data (r_size r + i) in
    Ok (match start with Some a => u32_of_int a <? size | None => true end &&
        match end_ with Some b => size <? u32_of_int b | None => true end)).
(* search.c 472-501 find_date_matches_in_table.  scan_date_string is the parameter sd: None is a
   nonzero status.  time_t is a 64-bit signed integer. *)
Definition find_date_matches (sd : bytes -> option (option Z * option Z)) (data : bytes) (r : read_db) (e : bytes)
  : res hits :=
  match sd e with
  | None => Err (E_exit 2)
  | Some (start, end_) =>
    let (start, end_) := order_ends start end_ in
    each_msg r (fun i => let! date := ui data (r_date r + i) in
      Ok (match start with Some a => (a <? Z.of_N date)%Z | None => true end &&
          match end_ with Some b => (Z.of_N date <? b)%Z | None => true end))
  end.
(* search.c 513-543: which of the six conditions are asked for. *)
Record flag_cond := { pos_s : bool; neg_s : bool; pos_r : bool; neg_r : bool; pos_f : bool; neg_f : bool }.
Definition no_cond := {| pos_s := false; neg_s := false; pos_r := false; neg_r := false; pos_f := false; neg_f := false |}.
Fixpoint parse_flags (negate : bool) (fc : flag_cond) (e : bytes) : flag_cond :=
  match e with
  | [] => fc
  | c :: e' =>
    if c =? 45 then parse_flags true fc e'
    else if (c =? 115) || (c =? 83) then
      parse_flags false {| pos_s := pos_s fc || negb negate; neg_s := neg_s fc || negate; pos_r := pos_r fc;
                           neg_r := neg_r fc; pos_f := pos_f fc; neg_f := neg_f fc |} e'
    else if (c =? 114) || (c =? 82) then
      parse_flags false {| pos_s := pos_s fc; neg_s := neg_s fc; pos_r := pos_r fc || negb negate;
                           neg_r := neg_r fc || negate; pos_f := pos_f fc; neg_f := neg_f fc |} e'
    else if (c =? 102) || (c =? 70) then
      parse_flags false {| pos_s := pos_s fc; neg_s := neg_s fc; pos_r := pos_r fc; neg_r := neg_r fc;
                           pos_f := pos_f fc || negb negate; neg_f := neg_f fc || negate |} e'
    else parse_flags negate fc e'
  end.
(* search.c 502-556 find_flag_matches_in_table; FLAG_SEEN 8, FLAG_REPLIED 16, FLAG_FLAGGED 32. *)
Definition find_flag_matches (data : bytes) (r : read_db) (e : bytes) : res hits :=
  let fc := parse_flags false no_cond e in
  each_msg r (fun i => let! b := type_and_flags data r i in
    let s := negb (N.land b 8 =? 0) in let rp := negb (N.land b 16 =? 0) in let f := negb (N.land b 32 =? 0) in
    Ok ((negb (pos_s fc) || s) && (negb (neg_s fc) || negb s) &&
        (negb (pos_r fc) || rp) && (negb (neg_r fc) || negb rp) &&
        (negb (pos_f fc) || f) && (negb (neg_f fc) || negb f))).

(* ---- one argument ---- *)

(* do_to, do_cc, do_from, do_subject, do_body, do_att_name as positions in r_tabs, and the rest. *)
Record keys := { k_to : bool; k_cc : bool; k_from : bool; k_subject : bool; k_body : bool; k_att : bool;
  k_date : bool; k_size : bool; k_path : bool; k_msgid : bool; k_flags : bool }.
Definition has (c : N) (key : bytes) : bool := existsb (N.eqb c) key.
(* search.c 869-893: every letter sets its variables, in any order; unknown letters only warn. *)
Definition parse_key (key : bytes) : keys :=
  {| k_to := has 116 key || has 114 key || has 97 key;
     k_cc := has 99 key || has 114 key || has 97 key;
     k_from := has 102 key || has 97 key;
     k_subject := has 115 key; k_body := has 98 key; k_att := has 110 key;
     k_date := has 100 key; k_size := has 122 key; k_path := has 112 key;
     k_msgid := has 109 key; k_flags := has 70 key |}.
(* search.c 894-897: no colon. *)
Definition default_keys : keys :=
  {| k_to := true; k_cc := true; k_from := true; k_subject := true; k_body := true; k_att := false;
     k_date := false; k_size := false; k_path := false; k_msgid := false; k_flags := false |}.
Definition table_keys (k : keys) : list bool := [k_to k; k_cc k; k_from k; k_subject k; k_body k; k_att k].

(* search.c 937-966: cut the next word off.  White space is removed from a word that a separator
   ends, not from the last one.  Result: the word, what is left, whether it ended with '/'. *)
Definition strip (w : bytes) : bytes := filter (fun c => negb (isspace c)) w.
Definition next_word (s : bytes) : bytes * bytes * bool :=
  match split_at 44 s, split_at 47 s with
  | Some (a, ra), Some (b, rb) => if (length a <? length b)%nat then (strip a, ra, false) else (strip b, rb, true)
  | Some (a, ra), None => (strip a, ra, false)
  | None, Some (b, rb) => (strip b, rb, true)
  | None, None => (s, [], false)
  end.
(* search.c 970-992 *)
Record term := { neg : bool; anc : bool; txt : bytes; errs : option Z }.
Definition take_char (x : N) (w : bytes) : bool * bytes :=
  match w with c :: w' => if c =? x then (true, w') else (false, w) | [] => (false, []) end.
Definition parse_term (w : bytes) : res term :=
  let (ng, w) := take_char 126 w in
  let (an, w) := take_char 94 w in
  match split_at 61 w with
  | Some (v, rest) =>
    match rest with
    | [] => Ok {| neg := ng; anc := an; txt := v; errs := Some 0%Z |}   (* atoi("") *)
    | c :: _ =>
      if isdigit c then
        let! o := scan_int rest in
        Ok {| neg := ng; anc := an; txt := v;
              errs := Some match o with Some (e, _) => e | None => 0%Z end |}
      else Ok {| neg := ng; anc := an; txt := w; errs := None |}
    end
  | None => Ok {| neg := ng; anc := an; txt := w; errs := None |}
  end.
(* search.c 995-1017: run f over the tables whose key is set. *)
Fixpoint over_tables (f : toktable_db -> hits -> res hits) (ks : list bool) (ts : list toktable_db) (h : hits)
  : res hits :=
  match ks, ts with
  | k :: ks', t :: ts' => let! h' := if k : bool then f t h else Ok h in over_tables f ks' ts' h'
  | _, _ => Ok h
  end.
Definition zeros (r : read_db) : hits := repeat false (N.to_nat (r_n r)).
Definition ones (r : read_db) : hits := repeat true (N.to_nat (r_n r)).
Definition term_hits (data : bytes) (r : read_db) (ks : keys) (t : term) : res hits :=
  let n := int_of_u32 (r_n r) in
  let lower := map tolower (txt t) in
  match errs t with
  | Some e =>
    let e := Z.to_nat e in
    let! h := over_tables (fun tb h => match_substring_in_table data n tb lower e (anc t) h)
                (table_keys ks) (r_tabs r) (zeros r) in
    if k_path ks then match_substring_in_paths data r (txt t) e (anc t) else Ok h
  | None =>
    let! h := over_tables (fun tb h => match_string_in_table data n tb lower h)
                (table_keys ks) (r_tabs r) (zeros r) in
    if k_path ks then match_substring_in_paths data r (txt t) 0 (anc t) else Ok h
  end.
Fixpoint zip_with (f : bool -> bool -> bool) (a b : hits) : hits :=
  match a, b with x :: a', y :: b' => f x y :: zip_with f a' b' | _, _ => [] end.
(* search.c 926-1040: the do-while loop over the words; the result is hit1 and hit2. *)
Fixpoint words_loop (fuel : nat) (data : bytes) (r : read_db) (ks : keys) (s : bytes) (hit1 hit2 : hits)
  : res (hits * hits) :=
  match fuel with
  | O => Err E_fuel
  | S f =>
    let '(w, rest, orsep) := next_word s in
    let! t := parse_term w in
    let! hit0 := term_hits data r ks t in
    let hit1 := zip_with (fun a b => a && (if neg t then negb b else b)) hit1 hit0 in
    let (hit1, hit2) := if orsep : bool then (ones r, zip_with orb hit2 hit1) else (hit1, hit2) in
    match rest with
    | [] => Ok (hit1, hit2)
    | _ => words_loop f data r ks rest hit1 hit2
    end
  end.
(* search.c 848-1047: the value of hit2 when one argument has been processed. *)
Definition arg_hits (sd : bytes -> option (option Z * option Z)) (data : bytes) (r : read_db) (key : bytes)
  : res hits :=
  let! (ks, s) := match split_at 58 key with
                  | Some (k, rest) =>
                    let ks := parse_key k in
                    if k_msgid ks && (1 <? length k)%nat then Err (E_exit 2) else Ok (ks, rest)
                  | None => Ok (default_keys, key)
                  end in
  let! (hit1, hit2) :=
    if k_date ks then let! h := find_date_matches sd data r s in Ok (zip_with andb (ones r) h, zeros r)
    else if k_size ks then let! h := find_size_matches data r s in Ok (zip_with andb (ones r) h, zeros r)
    else if k_flags ks then let! h := find_flag_matches data r s in Ok (zip_with andb (ones r) h, zeros r)
    else if k_msgid ks then
      let! h := match_string_in_table2 data (int_of_u32 (r_n r)) (r_ids r) (map tolower s) (zeros r) in
      Ok (zip_with andb (ones r) h, zeros r)
    else words_loop (S (length s)) data r ks s (ones r) (zeros r) in
  Ok (zip_with orb hit2 hit1).
Fixpoint args_hits (sd : bytes -> option (option Z * option Z)) (data : bytes) (r : read_db) (args : list bytes)
    (hit3 : hits) : res hits :=
  match args with
  | [] => Ok hit3
  | a :: args' => let! h := arg_hits sd data r a in args_hits sd data r args' (zip_with andb hit3 h)
  end.

(* search.c 1055-1071: whole threads.  tids[] has n_msgs entries. *)
Fixpoint mark_threads (data : bytes) (r : read_db) (i : N) (hit3 : hits) (tids : hits) : res hits :=
  match hit3 with
  | [] => Ok tids
  | true :: hit3' =>
    let! t := ui data (r_tid r + i) in
    if (N.to_nat t <? length tids)%nat then mark_threads data r (i + 1) hit3' (set_nth tids (N.to_nat t) true)
    else Err E_oob
  | false :: hit3' => mark_threads data r (i + 1) hit3' tids
  end.
Definition add_threads (data : bytes) (r : read_db) (hit3 : hits) : res hits :=
  let! tids := mark_threads data r 0 hit3 (zeros r) in
  let! hs := each_msg r (fun i => let! t := ui data (r_tid r + i) in fetch (nth_error tids (N.to_nat t))) in
  Ok (zip_with orb hit3 hs).

(* search.c 1073-1077: results[] *)
Definition live_hits (data : bytes) (r : read_db) (hit3 : hits) : res (list N) :=
  let! l := each_msg r (fun i => let! ty := rd_msg_type data r i in
    Ok (if nth (N.to_nat i) hit3 false && negb (ty =? 0) then [i] else [])) in
  Ok (concat l).
(* do_search up to the results; n_msgs is an int, a negative array size is undefined. *)
Definition search (sd : bytes -> option (option Z * option Z)) (data : bytes) (r : read_db) (threads : bool)
    (args : list bytes) : res (list N) :=
  if 2 ^ 31 <=? r_n r then Err E_ub else
  let! hit3 := args_hits sd data r args (ones r) in
  let! hit3 := if threads then add_threads data r hit3 else Ok hit3 in
  live_hits data r hit3.
(* search.c 1350: the value returned, which is the exit status: 1 when nothing was found. *)
Definition status (results : list N) : N := if (length results =? 0)%nat then 1 else 0.

(* search.c 789-796 db_date_cmp: the difference of two unsigned ints, returned as an int. *)
Definition date_cmp (dates : N -> N) (a b : N) : Z := int_of_u32 ((dates a + (2 ^ 32 - dates b)) mod 2 ^ 32).
