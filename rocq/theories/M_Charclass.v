(* Model of dfasyn/charclass.c, of the grammar's actions for character classes (dfasyn/parse.y 182-217) and of
   expand_charclass_transitions (dfasyn/states.c 269-300).  dfasyn is the program that makes the scanners
   fromcheck, nvp and datescan from their .nfa files.  A long has 64 bits here (LP64). *)
From Verif Require Import Base.
Local Open Scope N_scope.

(* dfasyn.h 99-104: eight longs, 32 bits of each are used *)
Definition bitmap := list N.
Definition ULONGS_PER_CC : nat := 8.
(* charclass.c 41-44, 50-53, 59-62: an int, 1<<31 is INT_MIN; made a long it has its sign in the upper half *)
Definition mask (j : nat) : N := if (j =? 31)%nat then 2 ^ 64 - 2 ^ 31 else 2 ^ N.of_nat j.
Definition word_at (x : bitmap) (entry : nat) : N := nth (entry / 32) x 0.
(* charclass.c 39-46; entries are below 256 *)
Definition set_bit (x : bitmap) (entry : nat) : bitmap := set_nth x (entry / 32) (N.lor (word_at x entry) (mask (entry mod 32))).
(* 48-55 *)
Definition clear_bit (x : bitmap) (entry : nat) : bitmap := set_nth x (entry / 32) (N.ldiff (word_at x entry) (mask (entry mod 32))).
(* 57-64 *)
Definition cc_test_bit (x : bitmap) (entry : nat) : bool := negb (N.land (word_at x entry) (mask (entry mod 32)) =? 0).
(* 66-73, 198-202 *)
Definition clear_all : bitmap := repeat 0 ULONGS_PER_CC.
(* 192-196 *)
Definition set_all : bitmap := repeat (2 ^ 32 - 1) ULONGS_PER_CC.
Fixpoint words (f : N -> N -> N) (x y : bitmap) : bitmap :=
  match x, y with
  | a :: x', b :: y' => f a b :: words f x' y'
  | _, _ => []
  end.
(* 186-190 *)
Definition combine (into with_ : bitmap) : bitmap := words N.lor into with_.
(* 89-94 *)
Definition add_singleton_to_charclass (x : bitmap) (c : nat) : bitmap := set_bit x c.
(* 96-107 *)
Definition add_range_to_charclass (x : bitmap) (start last : nat) : bitmap :=
  let (sx, ex) := if (last <? start)%nat then (last, start) else (start, last) in
  fold_left set_bit (seq sx (S ex - sx)) x.
(* 109-115 *)
Definition invert_charclass (x : bitmap) : bitmap := map (fun w => N.lxor w (2 ^ 32 - 1)) x.
(* 117-124 *)
Definition diff_charclasses (x y : bitmap) : bitmap := words N.ldiff x y.

(* parse.y 182-217: the text of a class *)
Inductive cc_item := Cc_char (c : nat) | Cc_range (c d : nat).
Record simple_class := { caret : bool; body : list cc_item }.
Inductive char_class := Cc_simple (s : simple_class) | Cc_negated (s : simple_class) | Cc_diff (s t : simple_class).
Definition make_simple (s : simple_class) : bitmap :=
  let x := fold_left (fun x i => match i with Cc_char c => add_singleton_to_charclass x c | Cc_range c d => add_range_to_charclass x c d end) (body s) clear_all in
  if caret s then invert_charclass x else x.
Definition make_class (k : char_class) : bitmap :=
  match k with
  | Cc_simple s => make_simple s
  | Cc_negated s => invert_charclass (make_simple s)
  | Cc_diff s t => diff_charclasses (make_simple s) (make_simple t)
  end.

(* charclass.c 208-215: within a word *)
Definition lowest_in (val : N) : nat :=
  let step := fun m n (pv : nat * N) => if N.land (snd pv) m =? 0 then ((fst pv + n)%nat, N.shiftr (snd pv) (N.of_nat n)) else pv in
  let pv := step 3 2%nat (step 15 4%nat (step 255 8%nat (step 65535 16%nat (O, val)))) in
  if N.land (snd pv) 1 =? 0 then (fst pv + 1)%nat else fst pv.
Fixpoint find_lowest (i : nat) (x : bitmap) : option nat :=
  match x with
  | [] => None
  | w :: x' => if w =? 0 then find_lowest (S i) x' else Some (i * 32 + lowest_in w)%nat
  end.
(* 204-220; -1 is None *)
Definition find_lowest_bit_set (x : bitmap) : option nat := find_lowest 0 x.

(* 289-302: pos and neg for the first character *)
Definition group_of (cc_list : list bitmap) (first : nat) : bitmap :=
  let pn := fold_left (fun (pn : bitmap * bitmap) x => if cc_test_bit x first then (words N.land (fst pn) x, snd pn) else (fst pn, combine (snd pn) x)) cc_list (set_all, clear_all) in
  words N.ldiff (fst pn) (snd pn).
(* 306-311 *)
Definition assign_group (pos : bitmap) (n : nat) (mu : list Z * bitmap) : list Z * bitmap :=
  fold_left (fun (mu : list Z * bitmap) i => if cc_test_bit pos i then (set_nth (fst mu) i (Z.of_nat n), clear_bit (snd mu) i) else mu) (seq 0 256) mu.
(* 285-321: one round makes one group.  In the first round there may be no character at all: then the lowest
   bit is -1 and cc_test_bit reads before the bitmap.  strings[256] holds a text for each group. *)
Fixpoint split_loop (fuel : nat) (cc_list : list bitmap) (cc_union : bitmap) (mapping : list Z) (n_charclasses : nat) : res (list Z * nat) :=
  match fuel with
  | O => Err E_fuel
  | S f =>
    match find_lowest_bit_set cc_union with
    | None => Err E_oob
    | Some first_char =>
      if (256 <=? n_charclasses)%nat then Err E_oob else
      let '(mapping', cc_union') := assign_group (group_of cc_list first_char) n_charclasses (mapping, cc_union) in
      if existsb (fun w => negb (w =? 0)) cc_union' then split_loop f cc_list cc_union' mapping' (S n_charclasses) else Ok (mapping', S n_charclasses)
    end
  end.
(* 260-321 after 268; without classes nothing is written and the table of characters is not used: all -1 *)
Definition split_charclasses (cc_list : list bitmap) : res (list Z * nat) :=
  match cc_list with
  | [] => Ok (repeat (-1)%Z 256, O)
  | _ => split_loop 300 cc_list (fold_left combine cc_list clear_all) (repeat (-1)%Z 256) 0
  end.
(* 323-330; mapping[i] is not negative for a character of a class *)
Definition group_bitmap (mapping : list Z) (x : bitmap) : bitmap :=
  fold_left (fun g i => if cc_test_bit x i then set_bit g (Z.to_nat (nth i mapping (-1)%Z)) else g) (seq 0 256) clear_all.

(* dfasyn.h 124-171: a state has transitions to states of its block, by number, and tags.  A transition by a
   character class refers to the class, by its number in the list of classes. *)
Inductive trans_type := TT_EPSILON | TT_TOKEN (t : nat) | TT_CHARCLASS (k : nat).
Record state := State { transitions : list (trans_type * nat); tags : list bytes }.
Definition block := list state.
(* charclass.c 223-240 *)
Definition mark_used (b : block) (k : nat) : bool :=
  existsb (fun s => existsb (fun t => match fst t with TT_CHARCLASS k' => (k' =? k)%nat | _ => false end) (transitions s)) b.
(* 75-83, 242-258: classes are put in at the front of cc_list, and reduce_list reverses it: they are in the order of
   the file *)
Definition reduce_list (b : block) (classes : list bitmap) : list bitmap :=
  map snd (filter (fun kx => mark_used b (fst kx)) (List.combine (seq 0 (length classes)) classes)).
(* dfasyn/states.c 269-300: the first group takes the place of the transition, each of the others is put in after
   it.  A class without characters stays as it is. *)
Definition expand_transition (ntokens : nat) (classes : list bitmap) (mapping : list Z) (t : trans_type * nat) : list (trans_type * nat) :=
  match fst t with
  | TT_CHARCLASS k =>
    match filter (cc_test_bit (group_bitmap mapping (nth k classes clear_all))) (seq 0 256) with
    | [] => [t]
    | i :: is_ => (TT_TOKEN (ntokens + i), snd t) :: rev (map (fun i => (TT_TOKEN (ntokens + i), snd t)) is_)
    end
  | _ => [t]
  end.
Definition expand_charclass_transitions (ntokens : nat) (classes : list bitmap) (mapping : list Z) (b : block) : block :=
  map (fun s => State (flat_map (expand_transition ntokens classes mapping) (transitions s)) (tags s)) b.
(* charclass.c 337-358: char2tok *)
Definition char2tok (ntokens : nat) (mapping : list Z) : list Z := map (fun m => if (0 <=? m)%Z then (m + Z.of_nat ntokens)%Z else m) mapping.
