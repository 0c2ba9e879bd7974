(* Date expressions: C47, C73. *)
From Verif Require Import Base M_DbFile S_DbFile S_Search M_Search L_DbFile7 L_Search6 M_Dates S_Dates S_Zone L_Dates5 L_Dates6 L_Dates7 L_Dates8 L_Zone L_DbFile5.
Local Open Scope Z_scope.

(* C47.  Full statement: the argument of d: denotes the interval the manual describes.  Proved for the
   expressions for which the code follows it (plain), one theorem for each of the four formats.  Today
   is the local date of now. *)
(* d:period.  From the first second of its first day to the last second of its last day. *)
Theorem C47_period_partial : forall localtime mktime now, zone_ok localtime mktime ->
  forall e w, spells e w -> plain e (date_of localtime now) ->
  exists A B a b, first_day e (date_of localtime now) A /\ last_day_of e (date_of localtime now) B /\
    first_second localtime A a /\ last_second localtime B b /\
    scan_date_string localtime mktime now w = Ok (Some (Some a, Some b)).
Proof. exact period_main. Qed.
Print Assumptions C47_period_partial.
(* d:start- *)
Theorem C47_from_partial : forall localtime mktime now, zone_ok localtime mktime ->
  forall e w, spells e w -> plain e (date_of localtime now) ->
  exists A a, first_day e (date_of localtime now) A /\ first_second localtime A a /\
    scan_date_string localtime mktime now (w ++ [ch "-"]) = Ok (Some (Some a, None)).
Proof. exact from_main. Qed.
Print Assumptions C47_from_partial.
(* d:-end *)
Theorem C47_until_partial : forall localtime mktime now, zone_ok localtime mktime ->
  forall e w, spells e w -> plain e (date_of localtime now) \/ (exists n u, e = X_ago n u) /\ in_range e ->
  exists b, ends localtime now e b /\ scan_date_string localtime mktime now (ch "-" :: w) = Ok (Some (None, Some b)).
Proof. exact until_main. Qed.
Print Assumptions C47_until_partial.
(* d:start-end.  The start is found looking back from the end, but its time of day is that of the end
   (the last second of the day, unless the end is relative). *)
Theorem C47_both_partial : forall localtime mktime now, zone_ok localtime mktime ->
  forall e1 w1 e2 w2, steady localtime mktime -> spells e1 w1 -> spells e2 w2 ->
  plain e2 (date_of localtime now) \/ (exists n u, e2 = X_ago n u) /\ in_range e2 ->
  exists b, ends localtime now e2 b /\
    (plain e1 (date_of localtime b) -> exists A a dst, first_day e1 (date_of localtime b) A /\ localtime a = same_time localtime b A dst /\
       scan_date_string localtime mktime now (w1 ++ ch "-" :: w2) = Ok (Some (Some a, Some b))) /\
    (forall n u, e1 = X_ago n u -> in_range e1 ->
       scan_date_string localtime mktime now (w1 ++ ch "-" :: w2) = Ok (Some (Some (now - n * unit_seconds u), Some b))).
Proof. exact both_main. Qed.
Print Assumptions C47_both_partial.
(* A relative date is a number of seconds back from now, as a start as well. *)
Theorem C47_relative_partial : forall localtime mktime now, zone_ok localtime mktime ->
  forall n u w, spells (X_ago n u) w -> in_range (X_ago n u) ->
  scan_date_string localtime mktime now (w ++ [ch "-"]) = Ok (Some (Some (now - n * unit_seconds u), None)).
Proof. exact ago_from. Qed.
Print Assumptions C47_relative_partial.
(* The search: d:period finds the messages dated on its days, except in the very first and last second. *)
Theorem C47_search_partial : forall localtime mktime now hashf db old F r e w, zone_ok localtime mktime ->
  db_ok hashf db -> write_database db old = Ok F -> open_db F = Ok r ->
  spells e w -> plain e (date_of localtime now) ->
  exists A B a b l, first_day e (date_of localtime now) A /\ last_day_of e (date_of localtime now) B /\
    first_second localtime A a /\ last_second localtime B b /\
    search (dates localtime mktime now) F r false [bs "d:" ++ w] = Ok l /\
    forall i, In i l <-> live db i /\ exists m, message db i = Some m /\ let t := Z.of_N (M_DbFile.date m) in
      upto A (date_of localtime t) /\ upto (date_of localtime t) B /\ t <> a /\ t <> b.
Proof. exact search_days. Qed.
Print Assumptions C47_search_partial.

(* Where the code does not follow the manual; all of them in UTC.
   A message dated at the first second of a day is not found by the date of that day. *)
Theorem C47_midnight_refuted : exists db F r w m, db_ok ex_h db /\ write_database db [] = Ok F /\ open_db F = Ok r /\
  spells (X_month_day 3 1) w /\ live db 0 /\ message db 0 = Some m /\ date_of utc_time (Z.of_N (M_DbFile.date m)) = mk 2003 3 1 /\
  search (dates utc_time utc_mk then_) F r false [bs "d:" ++ w] = Ok [].
Proof. exact midnight. Qed.
Print Assumptions C47_midnight_refuted.
(* With a start and an end the range begins at the end of the day of its start. *)
Theorem C47_start_refuted : exists a b, scan_date_string utc_time utc_mk then_ (bs "mar1-Apr25") = Ok (Some (Some a, Some b)) /\
  last_second utc_time (mk 2003 3 1) a /\ last_second utc_time (mk 2003 4 25) b.
Proof. exact start_late. Qed.
Print Assumptions C47_start_refuted.
(* A day that the previous month does not have: on 18 March, the most recent 31st is taken to be 3 March. *)
Theorem C47_day_refuted : exists now a b, date_of utc_time now = mk 2003 3 18 /\ spells (X_day 31) (bs "31") /\
  scan_date_string utc_time utc_mk now (bs "31") = Ok (Some (Some a, Some b)) /\ date_of utc_time a = mk 2003 3 3.
Proof. exact day_31. Qed.
Print Assumptions C47_day_refuted.
(* 29 February of the current year, whether or not there is one. *)
Theorem C47_leap_refuted : exists a b, spells (X_month_day 2 29) (bs "29feb") /\
  scan_date_string utc_time utc_mk then_ (bs "29feb") = Ok (Some (Some a, Some b)) /\ date_of utc_time a = mk 2003 3 1.
Proof. exact leap_29. Qed.
Print Assumptions C47_leap_refuted.
(* February 2100 ends on 1 March. *)
Theorem C47_century_refuted : exists a b, spells (X_month_year 2 2100) (bs "feb2100") /\
  scan_date_string utc_time utc_mk then_ (bs "feb2100") = Ok (Some (Some a, Some b)) /\ date_of utc_time b = mk 2100 3 1.
Proof. exact feb_2100. Qed.
Print Assumptions C47_century_refuted.
(* "The start date is always taken to be on or before the end date", and "The end date is always taken to
   be on or before the current date": neither holds. *)
Theorem C47_order_refuted : exists a b, scan_date_string utc_time utc_mk then_ (bs "2004-2002") = Ok (Some (Some a, Some b)) /\
  date_of utc_time a = mk 2004 1 1 /\ date_of utc_time b = mk 2002 12 31.
Proof. exact reversed. Qed.
Print Assumptions C47_order_refuted.
Theorem C47_future_refuted : exists a b, scan_date_string utc_time utc_mk then_ (bs "2004") = Ok (Some (Some a, Some b)) /\
  then_ < a /\ a < b.
Proof. exact future. Qed.
Print Assumptions C47_future_refuted.
(* A relative date by itself denotes no time at all: no moment is strictly between its ends. *)
Theorem C47_relative_refuted : forall localtime mktime now, zone_ok localtime mktime ->
  forall n u w, spells (X_ago n u) w -> in_range (X_ago n u) ->
  exists a b, scan_date_string localtime mktime now w = Ok (Some (Some a, Some b)) /\ forall t, ~ between (Some a) (Some b) t.
Proof. exact ago_nothing. Qed.
Print Assumptions C47_relative_refuted.

(* C73.  The arguments accepted are exactly those in the documented formats, as long as the number of
   seconds of a relative date fits in an int. *)
Theorem C73_accepted : forall localtime mktime now s,
  (exists r, scan_date_string localtime mktime now s = Ok (Some r)) <-> drange in_range s.
Proof. exact accepted. Qed.
Print Assumptions C73_accepted.
(* Anything else is refused, or is undefined because of the overflow; what is in the documented format is
   never refused. *)
Theorem C73_refused : forall localtime mktime now s, ~ drange in_range s ->
  scan_date_string localtime mktime now s = Ok None /\ ~ drange (fun _ => True) s \/ scan_date_string localtime mktime now s = Err E_ub.
Proof. exact refused. Qed.
Print Assumptions C73_refused.
(* The overflow happens: "69 years ago" has no defined result. *)
Theorem C73_overflow_refuted : exists w, spells (X_ago 69 Years) w /\ forall localtime mktime now, scan_date_string localtime mktime now w = Err E_ub.
Proof. exact overflow. Qed.
Print Assumptions C73_overflow_refuted.

Example C47_hypotheses : zone_ok utc_time utc_mk /\ steady utc_time utc_mk /\ date_of utc_time then_ = mk 2003 5 18 /\
  spells (X_month 10) (bs "oct") /\ plain (X_month 10) (date_of utc_time then_) /\
  spells (X_month_day 4 25) (bs "Apr25") /\ plain (X_month_day 4 25) (date_of utc_time then_) /\
  spells (X_ago 6 Weeks) (bs "6w") /\ in_range (X_ago 6 Weeks).
Proof. exact date_hypotheses. Qed.
(* The manual's table, but for the row d:21apr-2y, which contradicts the rest. *)
Example C47_table :
  map (fun s => utc_range then_ (bs s)) ["20030301-20030425"; "030301-030425"; "mar1-apr25"; "Mar1-Apr25"; "MAR1-APR25"; "1mar-25apr"]%string =
    repeat (Some (Some (mk 2003 3 1), Some (mk 2003 4 25))) 6 /\
  map (fun s => utc_range then_ (bs s)) ["2002"; "mar"; "oct"; "21oct-mar"; "21apr-mar"; "21apr-"; "-21apr"; "6w-2w"; "21apr-1w";
    "99-11"; "99oct-1oct"; "99oct-01oct"; "oct99-oct1"; "oct99-oct01"]%string =
  [Some (Some (mk 2002 1 1), Some (mk 2002 12 31)); Some (Some (mk 2003 3 1), Some (mk 2003 3 31)); Some (Some (mk 2002 10 1), Some (mk 2002 10 31));
   Some (Some (mk 2002 10 21), Some (mk 2003 3 31)); Some (Some (mk 2002 4 21), Some (mk 2003 3 31)); Some (Some (mk 2003 4 21), None);
   Some (None, Some (mk 2003 4 21)); Some (Some (mk 2003 4 6), Some (mk 2003 5 4)); Some (Some (mk 2003 4 21), Some (mk 2003 5 11));
   Some (Some (mk 1999 1 1), Some (mk 2003 5 11)); Some (Some (mk 1999 10 1), Some (mk 2002 10 1)); Some (Some (mk 1999 10 1), Some (mk 2001 10 31));
   Some (Some (mk 1999 10 1), Some (mk 2002 10 1)); Some (Some (mk 1999 10 1), Some (mk 2001 10 31))].
Proof. split; vm_compute; reflexivity. Qed.
Example C73_examples : map (fun s => utc_range then_ (bs s)) ["10-11-12"; "marc"; "5x"; "0apr"; "may0"; ""]%string = repeat None 6.
Proof. vm_compute. reflexivity. Qed.
