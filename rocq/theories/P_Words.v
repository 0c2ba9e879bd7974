(* Property theorems about encoded words in header values. *)
From Verif Require Import Base M_Words S_Words L_Words3.
Local Open Scope N_scope.

(* C41.  Any header value is decoded within its own place: nothing behind the NUL that ends it is changed, and
   the result, the NUL included, fits. *)
Theorem C41_safe : forall T after, c_string T ->
  exists r junk, decode_header_value (T ++ 0 :: after) = Ok (r ++ 0 :: junk ++ after) /\ (length r + length junk = length T)%nat.
Proof. exact safe_main. Qed.
Print Assumptions C41_safe.
(* The words in it are replaced by what they mean, everything else stays: no text is lost because it was
   overwritten before it was read. *)
Theorem C41_reads : forall T r after, c_string T -> reads T r ->
  exists junk, decode_header_value (T ++ 0 :: after) = Ok (r ++ 0 :: junk ++ after) /\ (length r + length junk = length T)%nat.
Proof. exact reads_main. Qed.
Print Assumptions C41_reads.
(* A value without encoded words is not changed. *)
Theorem C41_unchanged : forall T after, c_string T -> (forall pre cs enc text post, T <> pre ++ word cs enc text ++ post) ->
  decode_header_value (T ++ 0 :: after) = Ok (T ++ 0 :: after).
Proof. exact unchanged_main. Qed.
Print Assumptions C41_unchanged.

(* C76.  Text that was split over two encoded words does not come back in one piece: the space between
   the words, which RFC 2047 says is to be ignored, is kept. *)
Theorem C76_adjacent_refuted : exists cs a m b n r junk, means (bs "Q") a m /\ means (bs "Q") b n /\
  decode_header_value (word cs (bs "Q") a ++ bs " " ++ word cs (bs "Q") b ++ [0]) = Ok (r ++ 0 :: junk) /\ ~ In 0 r /\ r <> m ++ n.
Proof. exact adjacent_main. Qed.
Print Assumptions C76_adjacent_refuted.

Example C41_example : c_string ex_value /\ reads ex_value ex_value_read /\
  exists junk, decode_header_value (ex_value ++ 0 :: bs "next") = Ok (ex_value_read ++ 0 :: junk ++ bs "next") /\ (length ex_value_read + length junk = length ex_value)%nat.
Proof. exact (conj ex_value_ok (conj ex_value_reads (reads_main _ _ _ ex_value_ok ex_value_reads))). Qed.
