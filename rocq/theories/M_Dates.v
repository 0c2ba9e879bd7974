(* Model of dates.c and datescan.nfa: the argument of d:. *)
From Verif Require Import Base.
Local Open Scope N_scope.

(* struct tm of <time.h>: the fields dates.c reads or writes.  tm_year counts from 1900, tm_mon from 0. *)
Record tm := { tm_year : Z; tm_mon : Z; tm_mday : Z; tm_hour : Z; tm_min : Z; tm_sec : Z; tm_isdst : Z }.
Definition set_date (x : tm) (y m d : Z) : tm :=
  {| tm_year := y; tm_mon := m; tm_mday := d; tm_hour := tm_hour x; tm_min := tm_min x; tm_sec := tm_sec x;
     tm_isdst := tm_isdst x |}.
Definition set_time (x : tm) (h mi s dst : Z) : tm :=
  {| tm_year := tm_year x; tm_mon := tm_mon x; tm_mday := tm_mday x; tm_hour := h; tm_min := mi; tm_sec := s;
     tm_isdst := dst |}.

(* dates.h 29-42 enum DATESCAN_TYPE; DS_FAILURE is None. *)
Inductive ds := DS_D | DS_Y | DS_YYMMDD | DS_SCALED | DS_M | DS_DM | DS_MD | DS_YM | DS_MY | DS_YMD | DS_DMY.

(* datescan.nfa 29-60: character classes and the blocks, each a list of alternatives, each alternative a
   sequence of classes. *)
Definition cls := N -> bool.
Definition rng (a b : N) : cls := fun c => (a <=? c) && (c <=? b).
Definition any_digit : cls := rng 48 57.
Definition digit19 : cls := rng 49 57.
Definition letter : cls := fun c => rng 97 122 c || rng 65 90 c.
Definition blk_day : list (list cls) := [[rng 49 50; any_digit]; [rng 51 51; rng 48 49]].
Definition blk_year : list (list cls) := [[(fun c => rng 48 48 c || rng 52 57 c); any_digit]; [rng 51 51; rng 50 57]].
Definition blk_month : list (list cls) := [[letter; letter; letter]].
Definition blk_ccyy : list (list cls) := [[digit19; any_digit; any_digit; any_digit]].
Definition blk_one : list (list cls) := [[digit19]].
Definition blk_digits (n : nat) : list (list cls) := [repeat any_digit n].
Definition seq (a b : list (list cls)) : list (list cls) := flat_map (fun x => map (fun y => x ++ y) b) a.
(* datescan.nfa 62-91: the block main, apart from line 71. *)
Definition rules : list (list (list cls) * ds) :=
  [(blk_one, DS_D); (blk_day, DS_D); (blk_year, DS_Y); (blk_ccyy, DS_Y); (blk_digits 6, DS_YYMMDD); (blk_digits 8, DS_YYMMDD);
   (blk_month, DS_M); (seq blk_one blk_month, DS_DM); (seq blk_day blk_month, DS_DM);
   (seq blk_month blk_one, DS_MD); (seq blk_month blk_day, DS_MD);
   (seq blk_year blk_month, DS_YM); (seq blk_month blk_year, DS_MY);
   (seq blk_ccyy blk_month, DS_YM); (seq blk_month blk_ccyy, DS_MY);
   (seq (seq blk_year blk_month) blk_one, DS_YMD); (seq (seq blk_year blk_month) blk_day, DS_YMD);
   (seq (seq blk_one blk_month) blk_year, DS_DMY); (seq (seq blk_day blk_month) blk_year, DS_DMY);
   (seq (seq blk_ccyy blk_month) blk_one, DS_YMD); (seq (seq blk_ccyy blk_month) blk_day, DS_YMD);
   (seq (seq blk_one blk_month) blk_ccyy, DS_DMY); (seq (seq blk_day blk_month) blk_ccyy, DS_DMY)].
Fixpoint fits (l : list cls) (s : bytes) : bool :=
  match l, s with
  | [], [] => true
  | p :: l', c :: s' => p c && fits l' s'
  | _, _ => false
  end.
(* datescan.nfa 49-55, 71: the block scaled. *)
Fixpoint scaled (s : bytes) : bool :=
  match s with
  | c :: s' => any_digit c && (match s' with [a] => letter a | _ => false end || scaled s')
  | [] => false
  end.
(* dates.c 32-50 discover_type.  The tables that dfasyn generates from datescan.nfa are modelled by the
   paths of the automaton itself; at most one rule accepts a given string (L_Dates). *)
Definition discover_type (s : bytes) : option ds :=
  if scaled s then Some DS_SCALED
  else option_map snd (find (fun r => existsb (fun l => fits l s) (fst r)) rules).

(* dates.c 52-68 match_month; strncasecmp in the C locale.  The three characters are letters whenever
   discover_type has accepted the string, so the model looks no further than the expression. *)
Definition month_names : list bytes := map bs
  ["jan"; "feb"; "mar"; "apr"; "may"; "jun"; "jul"; "aug"; "sep"; "oct"; "nov"; "dec"]%string.
Fixpoint index_of (n : Z) (w : bytes) (l : list bytes) : Z :=
  match l with
  | [] => 0
  | x :: l' => if bytes_eqb w x then n else index_of (n + 1) w l'
  end.
Definition match_month (p : bytes) : Z := index_of 1 (map tolower (firstn 3 p)) month_names.

Local Open Scope Z_scope.
(* dates.c 69-81 *)
Definition year_fix (y : Z) : Z := if 100 <? y then y - 1900 else if y <? 70 then y + 100 else y.
(* dates.c 82-97 *)
Definition days : list Z := [31; 28; 31; 30; 31; 30; 31; 31; 30; 31; 30; 31].
Definition last_day (mon y : Z) : Z :=
  if negb (mon =? 1) then nth (Z.to_nat mon) days 0 else if Z.rem y 4 =? 0 then 29 else 28.
(* dates.c 99-111 *)
Definition set_day (x : tm) (d : Z) : tm :=
  if tm_mday x <? d then
    if tm_mon x =? 0 then set_date x (tm_year x - 1) 11 d else set_date x (tm_year x) (tm_mon x - 1) d
  else set_date x (tm_year x) (tm_mon x) d.
(* dates.c 113-117 *)
Definition is_later_dm (x : tm) (m d : Z) : bool :=
  (tm_mon x <? m - 1) || ((tm_mon x =? m - 1) && (tm_mday x <? d)).

(* dates.c 133-137, 166-170, 179-182: a run of digits.  v is an int: overflow is undefined. *)
Fixpoint digits_val (v : Z) (s : bytes) : res (Z * bytes) :=
  match s with
  | c :: s' =>
    if isdigit c then
      let v' := v * 10 + (Z.of_N c - 48) in
      if 2 ^ 31 <=? v' then Err E_ub else digits_val v' s'
    else Ok (v, s)
  | [] => Ok (v, s)
  end.
(* dates.c 138-146: the multiplication is of ints. *)
Definition scale (v : Z) (c : N) : res (option Z) :=
  let mul k := if 2 ^ 31 <=? v * k then Err E_ub else Ok (Some (v * k)) in
  if (c =? 100)%N then mul 86400
  else if (c =? 119)%N then mul (7 * 86400)
  else if (c =? 109)%N then mul (30 * 86400)
  else if (c =? 121)%N then mul (365 * 86400)
  else Ok None.

(* dates.c 185-315: one of the twin switches, the one that fills *start (first = true) or *end. *)
Definition apply_type (first : bool) (t : ds) (v1 m2 v3 : Z) (x : tm) : tm :=
  let month (y : Z) := set_date x y (m2 - 1) (if first then 1 else last_day (m2 - 1) y) in
  match t with
  | DS_D => set_day x v1
  | DS_Y => if first then set_date x (year_fix v1) 0 1 else set_date x (year_fix v1) 11 31
  | DS_YYMMDD => set_date x (year_fix (Z.quot v1 10000)) (Z.rem (Z.quot v1 100) 100 - 1) (Z.rem v1 100)
  | DS_M => month (if tm_mon x <? m2 - 1 then tm_year x - 1 else tm_year x)
  | DS_DM => set_date x (if is_later_dm x m2 v1 then tm_year x - 1 else tm_year x) (m2 - 1) v1
  | DS_MD => set_date x (if is_later_dm x m2 v3 then tm_year x - 1 else tm_year x) (m2 - 1) v3
  | DS_DMY => set_date x (year_fix v3) (m2 - 1) v1
  | DS_YMD => set_date x (year_fix v1) (m2 - 1) v3
  | DS_MY => month (year_fix v3)
  | DS_YM => month (year_fix v1)
  | DS_SCALED => x
  end.

(* dates.c 119-318 scan_date_expr for one of the two ends.  None is the return value -1.  The code
   fills *start and *end, when they are not NULL, by the same computation on the same text; the model
   asks for them one at a time.  localtime never returns NULL, and the clock does not tick during the
   call: now is the time of every call of time(). *)
Definition scan_date_expr (localtime : Z -> tm) (now : Z) (first : bool) (s : bytes) (x : tm) : res (option tm) :=
  match discover_type s with
  | None => Ok None
  | Some DS_SCALED =>
    let! (v, rest) := digits_val 0 s in
    match rest with
    | [] => Err E_oob
    | c :: _ =>
      let! w := scale v c in
      Ok (match w with None => None | Some w => Some (localtime (now - w)) end)
    end
  | Some t =>
    let! (v1, rest) := digits_val 0 s in
    let m2 := match rest with [] => 0 | _ => match_month rest end in
    match rest, m2 with
    | _ :: _, 0 => Ok None
    | _, _ =>
      let! (v3, rest) := digits_val 0 (skipn 3 rest) in
      match rest with
      | [] => Ok (Some (apply_type first t v1 m2 v3 x))
      | _ => Err E_assert
      end
    end
  end.

(* strchr(in, '-') and the text on either side *)
Fixpoint split_hyphen (s : bytes) : option (bytes * bytes) :=
  match s with
  | [] => None
  | c :: s' => if (c =? 45)%N then Some ([], s')
               else match split_hyphen s' with Some (a, b) => Some (c :: a, b) | None => None end
  end.

(* dates.c 321-370 scan_date_string.  mktime gives the time and what it leaves in *tm.  None is a
   nonzero status; otherwise the two ends, None when has_start or has_end is 0. *)
Definition scan_date_string (localtime : Z -> tm) (mktime : tm -> tm * Z) (now : Z) (s : bytes)
  : res (option (option Z * option Z)) :=
  let start_tm := set_time (localtime now) 0 0 0 (-1) in
  let end_tm := set_time (localtime now) 23 59 59 (-1) in
  match split_hyphen s with
  | None =>
    let! a := scan_date_expr localtime now true s start_tm in
    let! b := scan_date_expr localtime now false s end_tm in
    Ok (match a, b with
        | Some a, Some b => Some (Some (snd (mktime a)), Some (snd (mktime b)))
        | _, _ => None
        end)
  | Some (before, after) =>
    let! e := match after with
              | [] => Ok (Some (None, start_tm))
              | _ =>
                let! b := scan_date_expr localtime now false after end_tm in
                Ok (match b with None => None | Some b => Some (Some (snd (mktime b)), fst (mktime b)) end)
              end in
    match e with
    | None => Ok None
    | Some (e, start_tm) =>
      match before with
      | [] => Ok (Some (None, e))
      | _ =>
        let! a := scan_date_expr localtime now true before start_tm in
        Ok (match a with None => None | Some a => Some (Some (snd (mktime a)), e) end)
      end
    end
  end.

(* search.c 479: the scanner as the search uses it.  A run that is undefined counts as a refusal;
   the theorems that use this definition exclude it. *)
Definition dates (localtime : Z -> tm) (mktime : tm -> tm * Z) (now : Z) (s : bytes) : option (option Z * option Z) :=
  match scan_date_string localtime mktime now s with Ok r => r | Err _ => None end.
