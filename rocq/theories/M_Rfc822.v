(* Model of the rest of rfc822.c: from the bytes of a message to struct rfc822.
   isspc is isspace() in the current locale; mktime gives the time of a day, as year - 1900, month from 0 and
   day of the month.  mem is what can be read from a pointer on, and a length says how much of it is meant.
   Messages on stderr and the freeing of memory are left out. *)
From Verif Require Import Base M_Tokens M_Decode M_Header M_Words M_Nvp.
Local Open Scope N_scope.

(* mairix.h 337-343; DTR8_BAD_ATTACHMENT is never set *)
Inductive dtr8 := DTR8_OK | DTR8_MISSING_END | DTR8_MULTIPART_SANS_BOUNDARY | DTR8_BAD_HEADERS.

(* 367-375 copy_header_value *)
Fixpoint after_colon (s : bytes) : option bytes :=
  match s with
  | [] => None
  | c :: s' => if c =? 58 then Some s' else after_colon s'
  end.
Definition copy_header_value (text : bytes) : res (option bytes) :=
  match after_colon text with
  | None => Ok None
  | Some p => let! m := decode_header_value (p ++ [0]) in Ok (Some (cstr m))
  end.
(* 377-388 copy_or_concat_header_value; a NULL p would be dereferenced *)
Definition copy_or_concat_header_value (previous : option bytes) (text : bytes) : res (option bytes) :=
  let! p := copy_header_value text in
  match previous, p with
  | Some a, Some b => Ok (Some (a ++ bs ", " ++ b))
  | Some _, None => Err E_ub
  | None, p => Ok p
  end.

(* 421-436 parse_content_type *)
Record content_type_header := { ct_major : option bytes; ct_minor : option bytes; ct_boundary : option bytes }.
Definition parse_content_type (ct : list nvp_entry) : content_type_header :=
  match nvp_major ct with
  | Some m => {| ct_major := Some m; ct_minor := nvp_minor ct; ct_boundary := nvp_lookupcase ct (bs "boundary") |}
  | None => {| ct_major := nvp_first ct; ct_minor := None; ct_boundary := nvp_lookupcase ct (bs "boundary") |}
  end.
(* x && !strcasecmp(x, name) *)
Definition is (x : option bytes) (nm : bytes) : bool := match x with Some x => case_eqb x nm | None => false end.

(* 864-901: the next boundary.  input is what is between input and be, a NUL follows it. *)
Inductive bfound := B_missing | B_oops | B_at (b1 : nat) (looking_at_end_boundary : bool).
(* 872-878; s is the input from bx on *)
Fixpoint scan_for (boundary s : bytes) (bx : nat) : option nat :=
  match s with
  | [] => None
  | _ :: s' => if (length boundary + 2 <? length s)%nat && prefix (bs "--" ++ boundary) s then Some bx else scan_for boundary s' (S bx)
  end.
Definition char_at (input : bytes) (i : nat) (c : N) : bool := match nth_error input i with Some x => x =? c | None => false end.
(* 885-896: looking_at_end_boundary and boundary_ok *)
Definition end_boundary (boundary input : bytes) (b1 : nat) : bool :=
  (b1 + length boundary + 3 <? length input)%nat && char_at input (b1 + length boundary + 2) 45 && char_at input (b1 + length boundary + 3) 45.
Definition boundary_ok (boundary input : bytes) (b1 : nat) : bool :=
  negb ((0 <? b1)%nat && negb (char_at input (b1 - 1) 10)) &&
  negb (negb (end_boundary boundary input b1) && (b1 + length boundary + 3 <? length input)%nat &&
    negb (char_at input (b1 + length boundary + 2) 10 ||
          char_at input (b1 + length boundary + 2) 13 && char_at input (b1 + length boundary + 3) 10)).
Fixpoint next_boundary (fuel : nat) (boundary input : bytes) (from : nat) : res bfound :=
  match fuel with
  | O => Err E_fuel
  | S f =>
    match scan_for boundary (skipn from input) from with
    | None => Ok B_missing
    | Some b1 =>
      if boundary_ok boundary input b1 then Ok (B_at b1 (end_boundary boundary input b1))
      else
        let! eol := strchr 10 (skipn b1 (input ++ [0])) in
        match eol with
        | None => Ok B_oops
        | Some k => next_boundary f boundary input (b1 + k + 1)
        end
    end
  end.
(* 913-918: the line after the boundary at b0 *)
Definition line_after (input : bytes) (b0 : nat) : res nat :=
  let! eol := strchr 10 (skipn b0 (input ++ [0])) in
  match eol with
  | None => Ok (b0 + length (cstr (skipn b0 input)))%nat
  | Some k => Ok (b0 + k + 1)%nat
  end.
(* 862-920: where the parts start and end; b0 tells whether there was a boundary before line_after_b0.
   Simplification: do_attachment is applied to the parts afterwards; it has no influence on the splitting. *)
Fixpoint slices (fuel : nat) (boundary input : bytes) (b0 : bool) (line_after_b0 : nat) : res (list (nat * nat) * dtr8) :=
  match fuel with
  | O => Err E_fuel
  | S f =>
    let! b := next_boundary (S (length input)) boundary input line_after_b0 in
    match b with
    | B_missing => Ok ([], DTR8_MISSING_END)
    | B_oops => Ok ([], DTR8_OK)
    | B_at b1 last =>
      let here := if b0 then [(line_after_b0, b1)] else [] in
      let! l := line_after input b1 in
      if negb last then let! (ps, e) := slices f boundary input true l in Ok (here ++ ps, e) else Ok (here, DTR8_OK)
    end
  end.

Section Parse.
Variable isspc : N -> bool.
Variable mktime : Z -> Z -> Z -> Z.

Definition att : Type := option bytes * body.
Definition hdr : Type := option (list nvp_entry).
(* What do_body does to atts, and to *error: None where error is NULL or left alone. *)
Definition body_fn : Type := bytes -> nat -> hdr -> hdr -> hdr -> res (list att * option dtr8).

(* 925-987 parse_rfc822_date.  isspace and isdigit are called with a char, which may be negative; it is
   taken to be the byte.  A number too large for atoi is undefined behaviour. *)
Fixpoint skip_while (p : N -> bool) (s : bytes) : bytes := match s with c :: s' => if p c then skip_while p s' else s | [] => [] end.
Fixpoint digits_value (s : bytes) (acc : Z) : Z := match s with c :: s' => if isdigit c then digits_value s' (acc * 10 + (Z.of_N c - 48)) else acc | [] => acc end.
Definition atoi (s : bytes) : res Z := let v := digits_value s 0 in if (v <? 2147483648)%Z then Ok v else Err E_ub.
Fixpoint month_number (names : list bytes) (s : bytes) (i : Z) : option Z :=
  match names with
  | [] => None
  | n :: names' => if match_string n s then Some i else month_number names' s (i + 1)%Z
  end.
Definition month_names : list bytes := [bs "jan"; bs "feb"; bs "mar"; bs "apr"; bs "may"; bs "jun"; bs "jul"; bs "aug"; bs "sep"; bs "oct"; bs "nov"; bs "dec"].
Fixpoint after_comma (s : bytes) : option bytes := match s with [] => None | c :: s' => if c =? 44 then Some s' else after_comma s' end.
Definition parse_rfc822_date (date : bytes) : res Z :=
  let s := match after_comma date with Some s => s | None => date end in
  let s := skip_while isspc s in
  match s with
  | [] => Ok (-1)%Z
  | c :: _ =>
    if negb (isdigit c) then Ok (-1)%Z else
    let! mday := atoi s in
    if (31 <? mday)%Z then Ok (-1)%Z else
    let s := skip_while isspc (skip_while isdigit s) in
    match month_number month_names s 0 with
    | None => Ok (-1)%Z
    | Some mon =>
      let s := skip_while isspc (skip_while (fun c => negb (isspc c)) s) in
      match s with
      | [] => Ok (-1)%Z
      | c :: _ =>
        if negb (isdigit c) then Ok (-1)%Z else
        let! y := atoi s in
        let year := if (y <? 70)%Z then (y + 100)%Z else if (1900 <=? y)%Z then (y - 1900)%Z else y in
        match skip_while isspc (skip_while isdigit s) with
        | [] => Ok (-1)%Z
        | _ => Ok (mktime year mon mday)
        end
      end
    end
  end.
(* 989-1001 scan_status_flags *)
Definition scan_status_flags (s : bytes) (h : headers) : headers :=
  fold_left (fun h c =>
    {| h_to := h_to h; h_cc := h_cc h; h_from := h_from h; h_subject := h_subject h; h_message_id := h_message_id h; h_in_reply_to := h_in_reply_to h; h_references := h_references h;
       h_seen := h_seen h || (c =? 82); h_replied := h_replied h || (c =? 65); h_flagged := h_flagged h || (c =? 70); h_date := h_date h |}) s h.
(* 98-113 init_headers *)
Definition init_headers : headers :=
  {| h_to := None; h_cc := None; h_from := None; h_subject := None; h_message_id := None; h_in_reply_to := None; h_references := None;
     h_seen := false; h_replied := false; h_flagged := false; h_date := 0%Z |}.
Record hstate := { hs : headers; hs_ct : hdr; hs_cte : hdr; hs_cd : hdr }.
Definition with_to x h := {| h_to := x; h_cc := h_cc h; h_from := h_from h; h_subject := h_subject h; h_message_id := h_message_id h; h_in_reply_to := h_in_reply_to h; h_references := h_references h; h_seen := h_seen h; h_replied := h_replied h; h_flagged := h_flagged h; h_date := h_date h |}.
Definition with_cc x h := {| h_to := h_to h; h_cc := x; h_from := h_from h; h_subject := h_subject h; h_message_id := h_message_id h; h_in_reply_to := h_in_reply_to h; h_references := h_references h; h_seen := h_seen h; h_replied := h_replied h; h_flagged := h_flagged h; h_date := h_date h |}.
Definition with_from x h := {| h_to := h_to h; h_cc := h_cc h; h_from := x; h_subject := h_subject h; h_message_id := h_message_id h; h_in_reply_to := h_in_reply_to h; h_references := h_references h; h_seen := h_seen h; h_replied := h_replied h; h_flagged := h_flagged h; h_date := h_date h |}.
Definition with_subject x h := {| h_to := h_to h; h_cc := h_cc h; h_from := h_from h; h_subject := x; h_message_id := h_message_id h; h_in_reply_to := h_in_reply_to h; h_references := h_references h; h_seen := h_seen h; h_replied := h_replied h; h_flagged := h_flagged h; h_date := h_date h |}.
Definition with_message_id x h := {| h_to := h_to h; h_cc := h_cc h; h_from := h_from h; h_subject := h_subject h; h_message_id := x; h_in_reply_to := h_in_reply_to h; h_references := h_references h; h_seen := h_seen h; h_replied := h_replied h; h_flagged := h_flagged h; h_date := h_date h |}.
Definition with_in_reply_to x h := {| h_to := h_to h; h_cc := h_cc h; h_from := h_from h; h_subject := h_subject h; h_message_id := h_message_id h; h_in_reply_to := x; h_references := h_references h; h_seen := h_seen h; h_replied := h_replied h; h_flagged := h_flagged h; h_date := h_date h |}.
Definition with_references x h := {| h_to := h_to h; h_cc := h_cc h; h_from := h_from h; h_subject := h_subject h; h_message_id := h_message_id h; h_in_reply_to := h_in_reply_to h; h_references := x; h_seen := h_seen h; h_replied := h_replied h; h_flagged := h_flagged h; h_date := h_date h |}.
Definition with_date x h := {| h_to := h_to h; h_cc := h_cc h; h_from := h_from h; h_subject := h_subject h; h_message_id := h_message_id h; h_in_reply_to := h_in_reply_to h; h_references := h_references h; h_seen := h_seen h; h_replied := h_replied h; h_flagged := h_flagged h; h_date := x |}.
Definition with_hs (st : hstate) (h : headers) : hstate := {| hs := h; hs_ct := hs_ct st; hs_cte := hs_cte st; hs_cd := hs_cd st |}.
Definition unset {A : Type} (o : option A) : bool := match o with None => true | Some _ => false end.
(* nvp = make_nvp(...), if the slot is still empty *)
Definition try_nvp (slot : hdr) (x pfx : bytes) : res hdr := if unset slot then make_nvp isspc x pfx else Ok None.
(* 1033-1063: one header line *)
Definition header_entry (st : hstate) (x : bytes) : res hstate :=
  let h := hs st in
  if match_string (bs "to:") x then let! v := copy_or_concat_header_value (h_to h) x in Ok (with_hs st (with_to v h))
  else if match_string (bs "cc:") x then let! v := copy_or_concat_header_value (h_cc h) x in Ok (with_hs st (with_cc v h))
  else if unset (h_from h) && match_string (bs "from:") x then let! v := copy_header_value x in Ok (with_hs st (with_from v h))
  else if unset (h_subject h) && match_string (bs "subject:") x then let! v := copy_header_value x in Ok (with_hs st (with_subject v h))
  else
    let! ct := try_nvp (hs_ct st) x (bs "content-type:") in
    match ct with Some _ => Ok {| hs := h; hs_ct := ct; hs_cte := hs_cte st; hs_cd := hs_cd st |} | None =>
    let! cte := try_nvp (hs_cte st) x (bs "content-transfer-encoding:") in
    match cte with Some _ => Ok {| hs := h; hs_ct := hs_ct st; hs_cte := cte; hs_cd := hs_cd st |} | None =>
    let! cd := try_nvp (hs_cd st) x (bs "content-disposition:") in
    match cd with Some _ => Ok {| hs := h; hs_ct := hs_ct st; hs_cte := hs_cte st; hs_cd := cd |} | None =>
    if (h_date h =? 0)%Z && match_string (bs "date:") x then
      let! v := copy_header_value x in
      match v with None => Err E_ub | Some v => let! d := parse_rfc822_date v in Ok (with_hs st (with_date d h)) end
    else if unset (h_message_id h) && match_string (bs "message-id:") x then let! v := copy_header_value x in Ok (with_hs st (with_message_id v h))
    else if unset (h_in_reply_to h) && match_string (bs "in-reply-to:") x then let! v := copy_header_value x in Ok (with_hs st (with_in_reply_to v h))
    else if unset (h_references h) && match_string (bs "references:") x then let! v := copy_header_value x in Ok (with_hs st (with_references v h))
    else if match_string (bs "status:") x then Ok (with_hs st (scan_status_flags (skipn 7 x) h))
    else if match_string (bs "x-status:") x then Ok (with_hs st (scan_status_flags (skipn 9 x) h))
    else Ok st
    end end end.
Fixpoint header_entries (st : hstate) (lines : list bytes) : res hstate :=
  match lines with
  | [] => Ok st
  | x :: lines' => let! st := header_entry st x in header_entries st lines'
  end.
(* 1004-1083 data_to_rfc822, do_body being given *)
Definition data_to_rfc822_by (do_body : body_fn) (mem : bytes) (length : nat) : res (option rfc822 * dtr8) :=
  let! r := split_and_splice_header isspc (firstn length mem) in
  match r with
  | None => Ok (None, DTR8_BAD_HEADERS)
  | Some (lines, rest) =>
    let! st := header_entries {| hs := init_headers; hs_ct := None; hs_cte := None; hs_cd := None |} lines in
    let body_start := (length - List.length rest)%nat in
    let! (atts, e) := do_body (skipn body_start mem) (length - body_start)%nat (hs_ct st) (hs_cte st) (hs_cd st) in
    Ok (Some (Rfc822 (hs st) atts), match e with Some e => e | None => DTR8_OK end)
  end.
(* 789-801: the last header of each kind counts *)
Fixpoint part_headers (lines : list bytes) (ct cte cd : hdr) : res (hdr * hdr * hdr) :=
  match lines with
  | [] => Ok (ct, cte, cd)
  | x :: lines' =>
    let! a := make_nvp isspc x (bs "content-type:") in
    match a with Some _ => part_headers lines' a cte cd | None =>
    let! b := make_nvp isspc x (bs "content-transfer-encoding:") in
    match b with Some _ => part_headers lines' ct b cd | None =>
    let! c := make_nvp isspc x (bs "content-disposition:") in
    match c with Some _ => part_headers lines' ct cte c | None => part_headers lines' ct cte cd end end end
  end.
(* 775-843 do_attachment; body_start > after_end (819) cannot happen.  error is NULL for do_body. *)
Definition do_attachment_by (do_body : body_fn) (mem : bytes) (len : nat) : res (list att) :=
  let! r := split_and_splice_header isspc (firstn len mem) in
  match r with
  | None => Ok []
  | Some (lines, rest) =>
    let! (ct, cte, cd) := part_headers lines None None None in
    let body_start := (len - length rest)%nat in
    let! (atts, _) := do_body (skipn body_start mem) (len - body_start)%nat ct cte cd in
    Ok atts
  end.
Fixpoint do_parts (do_body : body_fn) (input : bytes) (ps : list (nat * nat)) : res (list att) :=
  match ps with
  | [] => Ok []
  | (a, b) :: ps' =>
    let! x := do_attachment_by do_body (skipn a (input ++ [0])) (b - a)%nat in
    let! y := do_parts do_body input ps' in
    Ok (x ++ y)
  end.
(* 845-923 do_multipart *)
Definition do_multipart_by (do_body : body_fn) (input : bytes) (boundary : option bytes) : res (list att * option dtr8) :=
  match boundary with
  | None => Ok ([], Some DTR8_MULTIPART_SANS_BOUNDARY)
  | Some b =>
    let! (ps, e) := slices (S (length input)) b input false 0 in
    let! atts := do_parts do_body input ps in
    Ok (atts, match e with DTR8_OK => None | _ => Some e end)
  end.
(* 718-734: the file name of an attachment *)
Definition file_name (ct : list nvp_entry) (cd : hdr) : option bytes :=
  match cd with
  | None => None
  | Some cd =>
    if is (nvp_first cd) (bs "attachment") then
      match nvp_lookupcase cd (bs "filename") with
      | Some f => Some f
      | None => nvp_lookup ct (bs "name")
      end
    else None
  end.
(* 680-773 do_body *)
Fixpoint do_body (fuel : nat) (mem : bytes) (len : nat) (ct cte cd : hdr) : res (list att * option dtr8) :=
  match fuel with
  | O => Err E_fuel
  | S f =>
    let body enc :=
      let! decoded := unencode_data isspc mem len enc in
      match ct with
      | None => Ok ([(None, B_plain decoded)], None)
      | Some ct =>
        let t := parse_content_type ct in
        if is (ct_major t) (bs "multipart") then do_multipart_by (do_body f) decoded (ct_boundary t)
        else
          let name := file_name ct cd in
          if is (ct_major t) (bs "text") then
            Ok ([(name, if is (ct_minor t) (bs "plain") then B_plain decoded else if is (ct_minor t) (bs "html") then B_html decoded else B_other decoded)], None)
          else if is (ct_major t) (bs "message") && is (ct_minor t) (bs "rfc822") then
            let! (m, e) := data_to_rfc822_by (do_body f) (decoded ++ [0]) (length decoded) in
            Ok ([(name, B_message m)], Some e)
          else Ok ([(name, B_other decoded)], None)
      end in
    match cte with
    | None => body None
    | Some cte => match nvp_first cte with None => Ok ([], None) | Some e => body (Some e) end
    end
  end.
Definition data_to_rfc822 (mem : bytes) (length : nat) : res (option rfc822 * dtr8) := data_to_rfc822_by (do_body (S (S length))) mem length.
End Parse.
