(* C49: the parts of a multipart body. *)
From Verif Require Import Base M_Tokens M_Rfc822 S_Multipart S_Mime L_Multipart L_Multipart2 L_Rfc822d L_Mime5 L_Mime6.
Local Open Scope N_scope.

(* A body made of parts, boundaries between them and a last boundary is split into exactly these parts. *)
Theorem C49_parts : forall b parts body, boundary_string b -> multipart b parts body ->
  exists ps, slices (S (length body)) b body false 0 = Ok (ps, DTR8_OK) /\ map (piece body) ps = parts.
Proof. exact parts_main. Qed.
Print Assumptions C49_parts.
(* Any body at all is split into disjoint pieces, in order; each goes from the line after a boundary at the
   start of a line up to the next such boundary. *)
Theorem C49_order : forall b input, exists ps e, slices (S (length input)) b input false 0 = Ok (ps, e) /\
  (forall p, In p ps -> (fst p <= snd p < length input)%nat /\ boundary_at b input (snd p) /\ exists i, boundary_at b input i /\ next_line input i (fst p)) /\
  (forall i p q, nth_error ps i = Some p -> nth_error ps (S i) = Some q -> next_line input (snd p) (fst q)) /\
  (forall i j p q, (i < j)%nat -> nth_error ps i = Some p -> nth_error ps j = Some q -> (snd p < fst q)%nat).
Proof. exact order_main. Qed.
Print Assumptions C49_order.
(* If no line of a body of whole lines is a last boundary, that is reported. *)
Theorem C49_reported : forall b input, whole_lines input -> ~ In 0 input ->
  (forall x y, input = x ++ mark b ++ y -> whole_lines x -> ~ closing y) ->
  exists ps, slices (S (length input)) b input false 0 = Ok (ps, DTR8_MISSING_END).
Proof. exact reported_main. Qed.
Print Assumptions C49_reported.
(* A reader of a message in parts without a last boundary gets the message and is told. *)
Theorem C49_told : forall isspc mktime, (forall c, c < 128 -> isspc c = isspace c) ->
  forall data after m e, open_ended isspc data -> Forall (fun c => c < 256) data ->
  data_to_rfc822 isspc mktime (data ++ after) (length data) = Ok (m, e) -> m <> None /\ e = DTR8_MISSING_END.
Proof. exact told_main. Qed.
Print Assumptions C49_told.
Example C49_told_example : open_ended isspace ex_cut /\ Forall (fun c => c < 256) ex_cut /\
  exists m, data_to_rfc822 isspace ex_mktime ex_cut (length ex_cut) = Ok (m, DTR8_MISSING_END).
Proof. exact ex_cut_ok. Qed.
Example C49_example : (boundary_string (bs "bb") /\ multipart (bs "bb") ex_parts ex_body) /\
  exists ps, slices (S (length ex_body)) (bs "bb") ex_body false 0 = Ok (ps, DTR8_OK) /\ map (piece ex_body) ps = ex_parts.
Proof. exact (conj ex_multipart ex_split). Qed.
Example C49_missing_example : whole_lines ex_open /\ ~ In 0 ex_open /\ (forall x y, ex_open = x ++ mark (bs "b") ++ y -> whole_lines x -> ~ closing y) /\
  exists ps, slices (S (length ex_open)) (bs "b") ex_open false 0 = Ok (ps, DTR8_MISSING_END).
Proof. exact ex_missing. Qed.

(* Not so: a part ends at a boundary that is not a whole line: one with a text behind the two dashes, *)
Theorem C49_closing_refuted : exists b body ps e p y, slices (S (length body)) b body false 0 = Ok (ps, e) /\ In p ps /\
  skipn (snd p) body = mark b ++ y /\ closing y /\ ~ whole_line y.
Proof. exact closing_refuted_main. Qed.
Print Assumptions C49_closing_refuted.
(* or one with any character behind it at the end of the body. *)
Theorem C49_ending_refuted : exists b body ps e p y, slices (S (length body)) b body false 0 = Ok (ps, e) /\ In p ps /\
  skipn (snd p) body = mark b ++ y /\ ~ closing y /\ ~ whole_line y.
Proof. exact ending_refuted_main. Qed.
Print Assumptions C49_ending_refuted.
(* A missing last boundary is not reported if the boundary occurs within the last line and no newline ends it. *)
Theorem C49_unreported_refuted : exists b p, ~ In 0 p /\ (forall x y, p = x ++ mark b ++ y -> whole_lines x -> ~ closing y) /\
  slices (S (length (mark b ++ [10] ++ p))) b (mark b ++ [10] ++ p) false 0 = Ok ([], DTR8_OK).
Proof. exact unreported_main. Qed.
Print Assumptions C49_unreported_refuted.
(* A part is lost, without a report, if there are blanks behind the boundary, as RFC 2046 allows. *)
Theorem C49_padding_refuted : exists b p, no_boundary b p /\ p <> [] /\
  slices (S (length (mark b ++ [32; 10] ++ p ++ mark b ++ bs "--"))) b (mark b ++ [32; 10] ++ p ++ mark b ++ bs "--") false 0 = Ok ([], DTR8_OK).
Proof. exact padding_main. Qed.
Print Assumptions C49_padding_refuted.
