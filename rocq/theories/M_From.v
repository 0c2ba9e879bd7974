(* Model of fromcheck.nfa and of looks_like_from_separator (mbox.c 202-241): does a line that starts with
   "From " start a message?  As in M_Nvp, the tables that dfasyn generates are modelled by the automaton
   they are generated from: a state of the DFA is the set of NFA states that apply in it, a missing
   transition (-1) is the empty set, and the attribute is FROMCHECK_PASS if one of the NFA states has it. *)
From Verif Require Import Base.
Local Open Scope N_scope.

(* fromcheck.nfa 40-62: classes of characters *)
Definition range (lo hi c : N) : bool := (lo <=? c) && (c <=? hi).
Definition one_of (s : string) (c : N) : bool := existsb (N.eqb c) (bs s).
Definition LF (c : N) : bool := c =? 10.
Definition CR (c : N) : bool := c =? 13.
Definition DIGIT : N -> bool := range 48 57.
Definition PERIOD : N -> bool := one_of ".".
Definition COMMA : N -> bool := one_of ",".
Definition AT : N -> bool := one_of "@".
Definition LOWER : N -> bool := range 97 122.
Definition UPPER : N -> bool := range 65 90.
Definition COLON : N -> bool := one_of ":".
Definition WHITE (c : N) : bool := (c =? 32) || (c =? 9).
Definition PLUSMINUS : N -> bool := one_of "+-".
Definition OTHER_EMAIL : N -> bool := one_of ".!#$%&'*/=?^_`{|}~".
Definition LT (c : N) : bool := c =? 60.
Definition GT (c : N) : bool := c =? 62.
Definition EMAIL (c : N) : bool := LOWER c || UPPER c || DIGIT c || PLUSMINUS c || OTHER_EMAIL c.
Definition OTHER_DOMAIN : N -> bool := one_of "-_.".
Definition DOMAIN (c : N) : bool := LOWER c || UPPER c || DIGIT c || OTHER_DOMAIN c.
Definition DQUOTE (c : N) : bool := c =? 34.
Definition OTHER_QUOTED : N -> bool := one_of "@:<>".
Definition LEFTSQUARE (c : N) : bool := c =? 91.
Definition RIGHTSQUARE (c : N) : bool := c =? 93.
Definition either (p q : N -> bool) (c : N) : bool := p c || q c.

Inductive block := email | angled_email | zone | date | date_old | remote | main.
(* A stimulus: a character of a class, or an instance of a block, entered at in and left at out. *)
Inductive stim := Cl (p : N -> bool) | Inst (b : block).
Definition trans : Type := list stim * list string.
Definition UPPER_ := Cl UPPER.
Definition LOWER_ := Cl LOWER.
Definition DIGIT_ := Cl DIGIT.
Definition WHITE_ := Cl WHITE.
Definition COLON_ := Cl COLON.
(* 63-68: R, E, M, O, T, F *)
Definition letter (s : string) : stim := Cl (one_of s).
(* 70-283, block by block.  Where a transition gives the attribute FROMCHECK_PASS instead of a state, it
   leads to the state "pass". *)
Definition states_of (b : block) : list (string * list trans) :=
  match b with
  | email => [
    ("in", [([Cl EMAIL], ["in"; "before_at"]); ([Cl DQUOTE], ["quoted_before_at"]); ([Cl AT], ["domain_route"])]);
    ("domain_route", [([Cl DOMAIN], ["domain_route"]); ([COLON_], ["in"])]);
    ("quoted_before_at", [([Cl (either EMAIL (either WHITE OTHER_QUOTED))], ["quoted_before_at"]); ([Cl DQUOTE], ["before_at"])]);
    ("before_at", [([Cl EMAIL], ["before_at"]); ([Cl DQUOTE], ["quoted_before_at"]); ([], ["out"]); ([Cl AT], ["start_of_domain"])]);
    ("start_of_domain", [([Cl LEFTSQUARE], ["dotted_quad"]); ([Cl DOMAIN], ["after_at"])]);
    ("dotted_quad", [([Cl (either DIGIT PERIOD)], ["dotted_quad"]); ([Cl RIGHTSQUARE], ["out"])]);
    ("after_at", [([Cl DOMAIN], ["after_at"; "out"])])]
  | angled_email => [
    ("in", [([Cl LT], ["in_angles"])]);
    ("in_angles", [([Inst email], ["before_gt"])]);
    ("before_gt", [([Cl GT], ["out"])])]
  | zone => [
    ("in", [([UPPER_], ["zone2"]); ([UPPER_], ["out"]); ([Cl PLUSMINUS], ["zone2"])]);
    ("zone2", [([Cl (either UPPER LOWER)], ["zone2"; "out"]); ([DIGIT_], ["zone2"; "out"])])]
  | date => [
    ("in", [([WHITE_], ["in"; "before_weekday"])]);
    ("before_weekday", [([UPPER_; LOWER_; LOWER_; WHITE_], ["after_weekday"])]);
    ("after_weekday", [([WHITE_], ["after_weekday"]); ([UPPER_; LOWER_; LOWER_; WHITE_], ["after_month"])]);
    ("after_month", [([WHITE_], ["after_month"]); ([DIGIT_; WHITE_], ["after_day"]); ([DIGIT_; DIGIT_; WHITE_], ["after_day"])]);
    ("after_day", [([WHITE_], ["after_day"]);
      ([DIGIT_; DIGIT_; COLON_; DIGIT_; DIGIT_; COLON_; DIGIT_; DIGIT_; WHITE_], ["after_time"]);
      ([DIGIT_; DIGIT_; COLON_; DIGIT_; DIGIT_; WHITE_], ["after_time"])]);
    ("after_time", [([WHITE_], ["after_time"]); ([], ["after_timezone"]); ([Inst zone; WHITE_], ["after_timezone"]); ([Inst zone; WHITE_], ["after_timezone_1"]);
      ([DIGIT_; DIGIT_; DIGIT_; DIGIT_], ["after_year_before_zone"])]);
    ("after_year_before_zone", [([WHITE_], ["after_year_before_zone"]); ([Inst zone], ["after_timezone_after_year"]);
      ([Inst zone; WHITE_], ["after_timezone_after_year_1"])]);
    ("after_timezone_after_year_1", [([WHITE_], ["after_timezone_after_year_1"]); ([Inst zone], ["after_timezone_after_year"])]);
    ("after_timezone_after_year", [([WHITE_], ["after_timezone_after_year"]); ([], ["out"])]);
    ("after_timezone_1", [([WHITE_], ["after_timezone_1"]); ([Inst zone; WHITE_], ["after_timezone"])]);
    ("after_timezone", [([WHITE_], ["after_timezone"]); ([DIGIT_; DIGIT_; DIGIT_; DIGIT_], ["after_year"])]);
    ("after_year", [([WHITE_], ["after_year"]); ([], ["out"])])]
  | date_old => [
    ("in", [([WHITE_], ["in"; "before_weekday"])]);
    ("before_weekday", [([UPPER_; LOWER_; LOWER_; Cl COMMA; WHITE_], ["after_weekday"])]);
    ("after_weekday", [([WHITE_], ["after_weekday"]); ([DIGIT_; WHITE_], ["after_day"]); ([DIGIT_; DIGIT_; WHITE_], ["after_day"])]);
    ("after_day", [([WHITE_], ["after_day"]); ([UPPER_; LOWER_; LOWER_; WHITE_], ["after_month"])]);
    ("after_month", [([DIGIT_; DIGIT_; DIGIT_; DIGIT_], ["after_year"]); ([DIGIT_; DIGIT_], ["after_year"])]);
    ("after_year", [([WHITE_], ["after_year"]);
      ([DIGIT_; DIGIT_; COLON_; DIGIT_; DIGIT_; COLON_; DIGIT_; DIGIT_; WHITE_], ["after_time"]);
      ([DIGIT_; DIGIT_; COLON_; DIGIT_; DIGIT_; WHITE_], ["after_time"])]);
    ("after_time", [([WHITE_], ["after_time"]); ([], ["after_timezone"]); ([Inst zone], ["after_timezone"]); ([Inst zone; WHITE_], ["after_timezone_1"])]);
    ("after_timezone_1", [([WHITE_], ["after_timezone_1"]); ([Inst zone], ["after_timezone"])]);
    ("after_timezone", [([WHITE_], ["after_timezone"]); ([], ["out"])])]
  | remote => [
    ("in", [([WHITE_], ["in"; "before_remote"])]);
    ("before_remote", [([letter "r"; letter "e"; letter "m"; letter "o"; letter "t"; letter "e"; WHITE_; letter "f"; letter "r"; letter "o"; letter "m"; WHITE_], ["host"])]);
    ("host", [([Cl DOMAIN], ["host"]); ([], ["out"])])]
  | main => [
    ("in", [([WHITE_], ["in"]); ([Inst email], ["before_date"]); ([Inst angled_email], ["before_date"]); ([Cl PLUSMINUS], ["before_date"]); ([], ["before_date"])]);
    ("before_date", [([Inst date], ["opt_remote"]); ([Inst date; Cl CR; Cl LF], ["pass"]); ([Inst date_old], ["opt_remote"])]);
    ("opt_remote", [([Inst remote; Cl LF], ["pass"]); ([], ["pass"])])]
  end%string.

(* An NFA state: where in a block, and for each enclosing instance where in its block it returns to.
   A place is a state of the block (None), or within transition t of it after i stimuli. *)
Definition place : Type := block * string * option (nat * nat).
Definition nstate : Type := list place.
Scheme Equality for block.
Definition place_eqb (x y : place) : bool :=
  let '(b, l, o) := x in let '(b', l', o') := y in
  block_beq b b' && String.eqb l l' &&
  match o, o' with None, None => true | Some (t, i), Some (t', i') => (t =? t')%nat && (i =? i')%nat | _, _ => false end.
Fixpoint nstate_eqb (x y : nstate) : bool :=
  match x, y with
  | [], [] => true
  | p :: x', q :: y' => place_eqb p q && nstate_eqb x' y'
  | _, _ => false
  end.
Definition trans_of (b : block) (l : string) : list trans :=
  match find (fun s => String.eqb (fst s) l) (states_of b) with Some s => snd s | None => [] end.
Definition nth_trans (b : block) (l : string) (t : nat) : trans := nth t (trans_of b l) ([], []).
(* Where an epsilon leads, and where a character leads. *)
Definition epsilons (s : nstate) : list nstate :=
  match s with
  | [] => []
  | (b, l, None) :: r =>
    map (fun t => (b, l, Some (t, O)) :: r) (seq 0 (length (trans_of b l))) ++
    (if String.eqb l "out" then match r with [] => [] | _ => [r] end else [])
  | (b, l, Some (t, i)) :: r =>
    let '(ss, targets) := nth_trans b l t in
    match nth_error ss i with
    | None => map (fun l' => (b, l', None) :: r) targets
    | Some (Inst b') => [(b', "in"%string, None) :: (b, l, Some (t, S i)) :: r]
    | Some (Cl _) => []
    end
  end.
Definition moves (c : N) (s : nstate) : list nstate :=
  match s with
  | (b, l, Some (t, i)) :: r =>
    match nth_error (fst (nth_trans b l t)) i with
    | Some (Cl p) => if p c then [(b, l, Some (t, S i)) :: r] else []
    | _ => []
    end
  | _ => []
  end.
Definition passes (s : nstate) : bool := match s with [(main, l, None)] => String.eqb l "pass" | _ => false end.
(* What epsilons lead to; no path of them is longer than the fuel (L_From). *)
Fixpoint close (fuel : nat) (s : nstate) : list nstate :=
  match fuel with
  | O => []
  | S f => s :: concat (map (close f) (epsilons s))
  end.
(* each state once *)
Fixpoint once (ss done : list nstate) : list nstate :=
  match ss with
  | [] => done
  | s :: ss' => once ss' (if existsb (nstate_eqb s) done then done else s :: done)
  end.
Definition closure (ss : list nstate) : list nstate := once (concat (map (close 30) ss)) [].
(* State 0 is the entry state: the last one mentioned in the last block. *)
Definition fromcheck_entry : list nstate := closure [[(main, "in"%string, None)]].
Definition fromcheck_next_state (d : list nstate) (c : N) : list nstate := closure (concat (map (moves c) d)).
Definition fromcheck_attr (d : list nstate) : bool := existsb passes d.
(* mbox.c 216-233 *)
Fixpoint separator_loop (d : list nstate) (text : bytes) : bool :=
  match text with
  | [] => false
  | p :: text' =>
    match fromcheck_next_state d p with
    | [] => false
    | d' => if fromcheck_attr d' then true else separator_loop d' text'
    end
  end.
(* text is what follows "From " in the file *)
Definition looks_like_from_separator (text : bytes) : bool := separator_loop fromcheck_entry text.
