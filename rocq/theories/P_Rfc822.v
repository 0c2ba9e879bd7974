From Verif Require Import Base M_Tokens M_Rfc822 S_Header S_Words S_Rfc822 L_Rfc822d.
Local Open Scope N_scope.

(* C79.  Whatever the body is, the fields of a parsed message are those of its header: To and Cc are all the
   fields of the name, From, Subject, Message-ID, In-Reply-To and References the first one, encoded words
   are decoded, and the flags are those that the Status and X-Status fields name. *)
Theorem C79_headers : forall isspc mktime, (forall c, c < 128 -> isspc c = isspace c) ->
  forall fs e body after h atts err, header_ok isspc fs -> ends isspc e body -> let data := concat (map folded fs) ++ e in
  Forall (fun c => c < 256) data -> data_to_rfc822 isspc mktime (data ++ after) (length data) = Ok (Some (Rfc822 h atts), err) ->
  headers_of (map unfolded fs) h.
Proof. exact headers_main. Qed.
Print Assumptions C79_headers.

(* C80.  The date of a message is the date in its first Date field: day, month and year of it, whatever time follows... *)
Theorem C80_date : forall isspc mktime, (forall c, c < 128 -> isspc c = isspace c) ->
  forall fs e body after h atts err, header_ok isspc fs -> ends isspc e body -> let data := concat (map folded fs) ++ e in
  Forall (fun c => c < 256) data -> data_to_rfc822 isspc mktime (data ++ after) (length data) = Ok (Some (Rfc822 h atts), err) ->
  match values "date" (map unfolded fs) with
  | [] => h_date h = 0%Z
  | v :: _ => forall r y m d, reads v r -> ~ In 0 r -> dated isspc r y m d -> (mktime (y - 1900) m d)%Z <> 0%Z -> h_date h = (mktime (y - 1900) m d)%Z
  end.
Proof. exact message_date. Qed.
Print Assumptions C80_date.

(* C81.  ... but a comma in a comment behind the date makes it unreadable... *)
Theorem C81_comment_refuted : forall mktime, exists v y m d comment, dated isspace v y m d /\ comment = bs " (a, b)" /\
  parse_rfc822_date isspace mktime v = Ok (mktime (y - 1900) m d)%Z /\ parse_rfc822_date isspace mktime (v ++ comment) = Ok (-1)%Z.
Proof. exact comment_main. Qed.
Print Assumptions C81_comment_refuted.
(* ... and a day of the month too large for an int is undefined behaviour. *)
Theorem C81_overflow_refuted : forall mktime, exists data, Forall (fun c => 0 < c < 256) data /\ data_to_rfc822 isspace mktime data (length data) = Err E_ub.
Proof. exact overflow_main. Qed.
Print Assumptions C81_overflow_refuted.

Example C79_example : header_ok isspace ex_fields /\ ends isspace ([10] ++ bs "body") (bs "body") /\ Forall (fun c => c < 256) ex_data.
Proof. exact ex_fields_ok. Qed.
Example C79_example_values : values "to" (map unfolded ex_fields) = [bs " a@b"; bs " c@d"] /\ values "subject" (map unfolded ex_fields) = [bs " one =?utf-8?Q?two?="; bs " late"].
Proof. exact ex_fields_values. Qed.
Example C79_example_parsed : data_to_rfc822 isspace ex_mktime ex_data (length ex_data) = Ok (Some (Rfc822
  {| h_to := Some (bs " a@b,  c@d"); h_cc := None; h_from := None; h_subject := Some (bs " one two"); h_message_id := None; h_in_reply_to := None; h_references := None;
     h_seen := true; h_replied := true; h_flagged := false; h_date := ex_mktime 126 10 16 |} [(None, B_plain (bs "body"))]), DTR8_OK).
Proof. exact ex_data_parsed. Qed.
Example C80_example : dated isspace ex_date 2026 10 16.
Proof. exact ex_dated. Qed.
