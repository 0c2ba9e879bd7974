(* What is taken from the header of a message, apart from the code. *)
From Verif Require Import Base M_Tokens S_Words.
Local Open Scope N_scope.

(* A header line up to its first colon and behind it; the name of a field may be in either case. *)
Fixpoint cut_colon (line : bytes) : option (bytes * bytes) :=
  match line with
  | [] => None
  | c :: line' => if c =? 58 then Some ([], line') else match cut_colon line' with Some (n, v) => Some (c :: n, v) | None => None end
  end.
Definition value_of (name : string) (line : bytes) : list bytes :=
  match cut_colon line with
  | Some (n, v) => if bytes_eqb (map tolower n) (bs name) then [v] else []
  | None => []
  end.
(* the values of all fields of a name, in order *)
Definition values (name : string) (lines : list bytes) : list bytes := concat (map (value_of name) lines).
(* A value with its encoded words replaced by what they mean.  Nothing is said about values with broken words. *)
Definition shown (v r : bytes) : Prop := forall r', reads v r' -> ~ In 0 r' -> r = r'.
(* of several fields the first one counts, *)
Definition first_value (vs : list bytes) (o : option bytes) : Prop :=
  match vs with
  | [] => o = None
  | v :: _ => exists r, o = Some r /\ shown v r
  end.
(* or all of them do, with a comma between them *)
Fixpoint commas (rs : list bytes) : bytes :=
  match rs with
  | [] => []
  | [r] => r
  | r :: rs' => r ++ bs ", " ++ commas rs'
  end.
Definition all_values (vs : list bytes) (o : option bytes) : Prop :=
  match vs with
  | [] => o = None
  | _ => exists rs, o = Some (commas rs) /\ Forall2 shown vs rs
  end.
Definition headers_of (lines : list bytes) (h : headers) : Prop :=
  all_values (values "to" lines) (h_to h) /\ all_values (values "cc" lines) (h_cc h) /\
  first_value (values "from" lines) (h_from h) /\ first_value (values "subject" lines) (h_subject h) /\
  first_value (values "message-id" lines) (h_message_id h) /\ first_value (values "in-reply-to" lines) (h_in_reply_to h) /\
  first_value (values "references" lines) (h_references h) /\
  let marks := concat (values "status" lines ++ values "x-status" lines) in
  (h_seen h = true <-> In 82 marks) /\ (h_replied h = true <-> In 65 marks) /\ (h_flagged h = true <-> In 70 marks).

(* A date: perhaps a day of the week and a comma, the day, the month, the year, and more. *)
Definition month_abbreviations : list bytes := [bs "jan"; bs "feb"; bs "mar"; bs "apr"; bs "may"; bs "jun"; bs "jul"; bs "aug"; bs "sep"; bs "oct"; bs "nov"; bs "dec"].
Definition number (ds : bytes) : Z := fold_left (fun a c => (a * 10 + (Z.of_N c - 48))%Z) ds 0%Z.
Definition digits (ds : bytes) : Prop := ds <> [] /\ Forall (fun c => 48 <= c <= 57) ds.
(* two digits stand for 1970 to 2069, three for the years since 1900 *)
Definition full_year (y : Z) : Z := if (y <? 70)%Z then (2000 + y)%Z else if (y <? 1900)%Z then (1900 + y)%Z else y.
Inductive dated (isspc : N -> bool) : bytes -> Z -> Z -> Z -> Prop :=
| dated_intro pre sp1 dd sp2 mon i more sp3 yy sp4 rest :
    (pre = [] /\ ~ In 44 (sp1 ++ dd ++ sp2 ++ mon ++ more ++ sp3 ++ yy ++ sp4 ++ rest)) \/ (exists w, pre = w ++ [44] /\ ~ In 44 w) ->
    Forall (fun c => isspc c = true) (sp1 ++ sp2 ++ sp3 ++ sp4) -> digits dd -> (number dd <= 31)%Z ->
    nth_error month_abbreviations i = Some (map tolower mon) -> Forall (fun c => isspc c = false) more -> sp3 <> [] ->
    digits yy -> (number yy < 2 ^ 31)%Z -> sp4 <> [] -> (exists c r, rest = c :: r /\ isspc c = false) ->
    dated isspc (pre ++ sp1 ++ dd ++ sp2 ++ mon ++ more ++ sp3 ++ yy ++ sp4 ++ rest) (full_year (number yy)) (Z.of_nat i) (number dd).
