(* search.c 1212-1282: the results of a search printed as excerpts (mformat=excerpt).
   Simplified: the parser is given the text of a mailbox message without the bytes of the mailbox after it;
   gmtime and strftime are the parameter [day], and GET_IMAP with make_rfc822_from_imap the parameter [from_imap]. *)
From Verif Require Import Base M_DbFile M_Search M_Tokens M_Rfc822 M_Output.
Local Open Scope N_scope.

Section Excerpt.
Context (csum : bytes -> bytes) (expand : bytes -> bytes -> option bytes) (isspc : N -> bool) (mktime : Z -> Z -> Z -> Z).
Context (from_imap : bytes -> res (option rfc822)) (day : Z -> bytes).

(* search.c 1220, 1229, 1246 *)
Definition rule : bytes := repeat 45 33 ++ bs_nl.
(* rfc822.c 1462-1486 make_rfc822 *)
Definition parsed_file (d : disc) (p : bytes) : res (option rfc822) :=
  let! m := map_file expand d p in
  match m with
  | None => Ok None
  | Some t => let! (x, _) := data_to_rfc822 isspc mktime t (length t) in Ok x
  end.
(* search.c 1263-1279: the fields that are there, and the date *)
Definition field_line (label : string) (o : option bytes) : bytes := match o with Some v => bs label ++ v ++ bs_nl | None => [] end.
Definition fields (x : option rfc822) : bytes :=
  match x with
  | None => []
  | Some (Rfc822 h _) =>
      field_line "  To:         " (h_to h) ++ field_line "  Cc:         " (h_cc h) ++ field_line "  From:       " (h_from h) ++
      field_line "  Subject:    " (h_subject h) ++ field_line "  Message-ID: " (h_message_id h) ++ field_line "  In-Reply-To:" (h_in_reply_to h) ++
      bs "  Date:        " ++ day (h_date h) ++ bs_nl
  end.
(* search.c 1213-1281, one result: what is printed, and had_failed_checksum *)
Definition to_excerpt (F : bytes) (r : read_db) (d : disc) (i : N) : res (bytes * bool) :=
  let! ty := rd_msg_type F r i in
  if ty =? 1 then
    let! p := path_at F r i in
    let! x := parsed_file d p in
    Ok (rule ++ p ++ bs_nl ++ fields x, false)
  else if ty =? 3 then
    let! p := path_at F r i in
    let! x := from_imap p in
    Ok (rule ++ p ++ bs_nl ++ fields x, false)
  else if ty =? 2 then
    let! line := to_raw F r i in
    let! v := get_validated_mbox_msg csum expand d F r i in
    match v with
    | V_good _ t => let! (x, _) := data_to_rfc822 isspc mktime t (length t) in Ok (rule ++ line ++ fields x, false)
    | V_bad => Ok (rule ++ line, true)
    | V_unmapped => Ok (rule ++ line, false)
    end
  else Ok (fields None, false).
Definition output_excerpt (F : bytes) (r : read_db) (d : disc) (results : list N) : res outcome :=
  let! (b, w) := each_text (to_excerpt F r d) results in
  Ok {| o_disc := d; o_stdout := b; o_warned := w |}.
End Excerpt.
