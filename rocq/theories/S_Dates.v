(* What the manual page says a date expression means (mairix.1, "Date specification").  Independent of
   the code: dates are calendar dates, and the most recent date of a kind is defined by what it is. *)
From Verif Require Import Base.
Local Open Scope Z_scope.

(* The Gregorian calendar. *)
Record date := { year : Z; month : Z; day : Z }.
Definition leap (y : Z) : bool := ((y mod 4 =? 0) && negb (y mod 100 =? 0)) || (y mod 400 =? 0).
Definition month_len (y m : Z) : Z :=
  if m =? 2 then if leap y then 29 else 28
  else if (m =? 4) || (m =? 6) || (m =? 9) || (m =? 11) then 30 else 31.
Definition real (d : date) : Prop := 1 <= month d <= 12 /\ 1 <= day d <= month_len (year d) (month d).
Definition mk (y m d : Z) : date := {| year := y; month := m; day := d |}.
Definition upto (a b : date) : Prop :=
  year a < year b \/ year a = year b /\ (month a < month b \/ month a = month b /\ day a <= day b).
(* D is the most recent date with the property P, seen from the date ref. *)
Definition latest (P : date -> Prop) (ref D : date) : Prop :=
  real D /\ P D /\ upto D ref /\ forall D', real D' -> P D' -> upto D' ref -> upto D' D.

(* Date expressions and how they are written. *)
Inductive unit_ := Days | Weeks | Months | Years.
Inductive dexpr :=
| X_day (d : Z) | X_year (y : Z) | X_date (y m d : Z) | X_month (m : Z) | X_month_day (m d : Z)
| X_month_year (m y : Z) | X_ago (n : Z) (u : unit_).
Definition dig (n : Z) : N := Z.to_N (48 + n).
Definition two (n : Z) : bytes := [dig (n / 10); dig (n mod 10)].
Definition four (n : Z) : bytes := two (n / 100) ++ two (n mod 100).
Definition century (yy : Z) : Z := if yy <? 70 then 2000 + yy else 1900 + yy.
(* "2 digits are a day of the month if possible, otherwise a year" *)
Inductive day_word : Z -> bytes -> Prop :=
| day1 : forall d, 1 <= d <= 9 -> day_word d [dig d]
| day2 : forall d, 10 <= d <= 31 -> day_word d (two d).
Inductive year_word : Z -> bytes -> Prop :=
| year2 : forall yy, 0 <= yy <= 9 \/ 32 <= yy <= 99 -> year_word (century yy) (two yy)
| year4 : forall y, 1000 <= y <= 9999 -> year_word y (four y).
Definition months : list bytes := map bs
  ["jan"; "feb"; "mar"; "apr"; "may"; "jun"; "jul"; "aug"; "sep"; "oct"; "nov"; "dec"]%string.
Definition month_word (m : Z) (w : bytes) : Prop :=
  1 <= m /\ nth_error months (Z.to_nat (m - 1)) = Some (map tolower w).
(* The number a string of digits stands for. *)
Definition number (s : bytes) : Z := fold_left (fun v c => v * 10 + (Z.of_N c - 48)) s 0.
Definition unit_letter (u : unit_) : N :=
  match u with Days => ch "d" | Weeks => ch "w" | Months => ch "m" | Years => ch "y" end.
Definition unit_seconds (u : unit_) : Z :=
  match u with Days => 86400 | Weeks => 7 * 86400 | Months => 30 * 86400 | Years => 365 * 86400 end.
Inductive spells : dexpr -> bytes -> Prop :=
| sp_day : forall d w, day_word d w -> spells (X_day d) w
| sp_year : forall y w, year_word y w -> spells (X_year y) w
| sp_date6 : forall yy m d, 0 <= yy <= 99 -> 0 <= m <= 99 -> 0 <= d <= 99 ->
    spells (X_date (century yy) m d) (two yy ++ two m ++ two d)
| sp_date8 : forall y m d, 0 <= y <= 9999 -> 0 <= m <= 99 -> 0 <= d <= 99 ->
    spells (X_date y m d) (four y ++ two m ++ two d)
| sp_dmy : forall y m d wy wm wd, year_word y wy -> month_word m wm -> day_word d wd ->
    spells (X_date y m d) (wd ++ wm ++ wy)
| sp_ymd : forall y m d wy wm wd, year_word y wy -> month_word m wm -> day_word d wd ->
    spells (X_date y m d) (wy ++ wm ++ wd)
| sp_month : forall m w, month_word m w -> spells (X_month m) w
| sp_dm : forall m d wm wd, month_word m wm -> day_word d wd -> spells (X_month_day m d) (wd ++ wm)
| sp_md : forall m d wm wd, month_word m wm -> day_word d wd -> spells (X_month_day m d) (wm ++ wd)
| sp_my : forall m y wm wy, month_word m wm -> year_word y wy -> spells (X_month_year m y) (wm ++ wy)
| sp_ym : forall m y wm wy, month_word m wm -> year_word y wy -> spells (X_month_year m y) (wy ++ wm)
| sp_ago : forall u w, w <> [] -> Forall (fun c => (48 <= c <= 57)%N) w ->
    spells (X_ago (number w) u) (w ++ [unit_letter u]).

(* "The earliest day in the period is taken when the start date is defined, and the last day in the
   period if the end of the range is being defined"; a part left out means the most recent one. *)
Inductive first_day : dexpr -> date -> date -> Prop :=
| fd_day : forall d ref D, latest (fun D => day D = d) ref D -> first_day (X_day d) ref D
| fd_year : forall y ref, first_day (X_year y) ref (mk y 1 1)
| fd_date : forall y m d ref, real (mk y m d) -> first_day (X_date y m d) ref (mk y m d)
| fd_month : forall m ref D, latest (fun D => month D = m /\ day D = 1) ref D -> first_day (X_month m) ref D
| fd_month_day : forall m d ref D, latest (fun D => month D = m /\ day D = d) ref D ->
    first_day (X_month_day m d) ref D
| fd_month_year : forall m y ref, first_day (X_month_year m y) ref (mk y m 1).
Inductive last_day_of : dexpr -> date -> date -> Prop :=
| ld_year : forall y ref, last_day_of (X_year y) ref (mk y 12 31)
| ld_month : forall m ref D, first_day (X_month m) ref D ->
    last_day_of (X_month m) ref (mk (year D) m (month_len (year D) m))
| ld_month_year : forall m y ref, last_day_of (X_month_year m y) ref (mk y m (month_len y m))
| ld_single : forall e ref D, first_day e ref D ->
    match e with X_day _ | X_date _ _ _ | X_month_day _ _ => True | _ => False end -> last_day_of e ref D.

(* The cases in which the code follows the manual page: the day exists in the month it is looked for in
   (in every year, when the year is left out; year 1 is not a leap year), the end of February is not that
   of a year that is a multiple of 100, and a year written with four digits is after 0100. *)
Definition month_before (ref : date) : Z * Z :=
  if month ref =? 1 then (year ref - 1, 12) else (year ref, month ref - 1).
Definition plain (e : dexpr) (ref : date) : Prop :=
  match e with
  | X_day d => day ref < d -> d <= month_len (fst (month_before ref)) (snd (month_before ref))
  | X_year _ => True
  | X_date y m d => real (mk y m d) /\ 100 < y
  | X_month m => m = 2 -> 1901 < year ref < 2100
  | X_month_day m d => d <= month_len 1 m
  | X_month_year m y => m = 2 -> 1900 < y < 2100
  | X_ago _ _ => False
  end.

(* A relative date is within the reach of a C int of seconds. *)
Definition in_range (e : dexpr) : Prop := match e with X_ago n u => n * unit_seconds u < 2 ^ 31 | _ => True end.
(* The four formats of the argument of d:, and the hyphen alone; the expressions in it satisfy ok. *)
Inductive drange (ok : dexpr -> Prop) : bytes -> Prop :=
| r_period : forall e w, spells e w -> ok e -> drange ok w
| r_both : forall e1 w1 e2 w2, spells e1 w1 -> spells e2 w2 -> ok e1 -> ok e2 -> drange ok (w1 ++ ch "-" :: w2)
| r_from : forall e w, spells e w -> ok e -> drange ok (w ++ [ch "-"])
| r_until : forall e w, spells e w -> ok e -> drange ok (ch "-" :: w)
| r_all : drange ok [ch "-"].
