(* A message for the examples of P_Tokens. *)
From Verif Require Import Base M_Tokens S_Tokens.
Local Open Scope N_scope.
Definition no_headers : headers := {| h_to := None; h_cc := None; h_from := None; h_subject := None;
  h_message_id := None; h_in_reply_to := None; h_references := None;
  h_seen := false; h_replied := false; h_flagged := false; h_date := 0 |}.
Definition ex_message : rfc822 :=
  Rfc822 {| h_to := Some (bs "<joe.b@x.org>, Ann"); h_cc := None; h_from := None; h_subject := Some (bs "Re: snake_case");
            h_message_id := Some (bs " <1@x>"); h_in_reply_to := Some (bs "<0@y> of Monday <oops"); h_references := None;
            h_seen := false; h_replied := false; h_flagged := false; h_date := 0 |}
    [(None, B_plain (bs "one two" ++ 0 :: bs "three")); (Some (bs "a.htm"), B_html (bs "x<b>y</b"));
     (None, B_message (Some (Rfc822 no_headers [(None, B_plain (bs "deep"))])))].
