From Verif Require Import Base M_Tokens M_Rfc822 S_Header S_Nvp S_Rfc822 S_Mime L_Multipart2 L_Mime3 L_Mime4 L_Mime5.
Local Open Scope N_scope.

(* C82.  A MIME message is read as the tree that it is: every text, every attachment with its name, every
   message inside the message with its own header and attachments, decoded, in order, and nothing else. *)
Theorem C82_tree : forall isspc mktime, (forall c, c < 128 -> isspc c = isspace c) ->
  forall data lines ns after, message isspc data lines ns -> Forall (fun c => c < 256) data ->
  exists h atts, data_to_rfc822 isspc mktime (data ++ after) (length data) = Ok (Some (Rfc822 h atts), DTR8_OK) /\ headers_of lines h /\ depict ns atts.
Proof. exact mime_main. Qed.
Print Assumptions C82_tree.
(* But the name of an attachment is missed if it is given as "Name" rather than "name" in the type. *)
Theorem C82_name_refuted : forall mktime, exists ct f h, listed ct (bs " text/plain; Name=a.txt") /\ param ct (bs "name") (Some f) /\
  ex_named = bs "Content-Type: text/plain; Name=a.txt" ++ [10] ++ bs "Content-Disposition: attachment" ++ [10; 10] ++ bs "x" ++ [10] /\
  data_to_rfc822 isspace mktime ex_named (length ex_named) = Ok (Some (Rfc822 h [(None, B_plain (nl "x"))]), DTR8_OK).
Proof. exact name_refuted. Qed.
Print Assumptions C82_name_refuted.

(* C83.  Parsing ends for any data whatever, however deep messages and parts are nested in it or in what is
   encoded in it: it succeeds, or else it has read outside the data or met a date that is undefined behaviour. *)
Theorem C83_ends : forall isspc mktime, (forall c, c < 128 -> isspc c = isspace c) ->
  forall mem len, Forall (fun c => c < 256) mem -> (len <= length mem)%nat ->
  (exists m e, data_to_rfc822 isspc mktime mem len = Ok (m, e)) \/ data_to_rfc822 isspc mktime mem len = Err E_oob \/ data_to_rfc822 isspc mktime mem len = Err E_ub.
Proof. exact ends_main. Qed.
Print Assumptions C83_ends.

Example C82_example : message isspace ex_mime (map unfolded ex_fs) ex_nodes.
Proof. exact ex_mime_ok. Qed.
Example C82_example_bytes : Forall (fun c => c < 256) ex_mime.
Proof. exact ex_mime_small. Qed.
