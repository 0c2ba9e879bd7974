(* Properties C13-C15: substring patterns against one word. *)
From Verif Require Import Base M_WuManber S_Match L_WuManber.
Local Open Scope N_scope.

(* C13.  "s=" matches a word exactly when s occurs in it, for every pattern of 1 to 31 bytes. *)
Theorem C13_substring_exact : forall s w, all_bytes s -> (1 <= length s <= 31)%nat -> all_bytes w ->
  (exists b, match_word false 0 s w = Ok b) /\ (match_word false 0 s w = Ok true <-> part_of s w).
Proof. exact exact_substring. Qed.
Print Assumptions C13_substring_exact.
(* Other lengths are refused with exit status 2. *)
Theorem C13_bad_length : forall s, ~ (1 <= length s <= 31)%nat -> build_match_vector s = Err (E_exit 2).
Proof. exact build_bad. Qed.
Print Assumptions C13_bad_length.

(* C14.  "s=N" matches a word exactly when some part of the word is within N edits of s. *)
Theorem C14_approximate : forall n s w, all_bytes s -> (1 <= length s <= 31)%nat -> all_bytes w -> w <> [] ->
  (exists b, match_word false n s w = Ok b) /\
  (match_word false n s w = Ok true <-> exists part, part_of part w /\ within n s part).
Proof. exact approx_exact. Qed.
Print Assumptions C14_approximate.
(* The hand-specialised matchers for 0 to 3 errors compute the same as the general one, anchored or not. *)
Theorem C14_specialised_agree : forall s la n w a hit, all_bytes s -> build_match_vector s = Ok (a, hit) ->
  substring_match a hit la n w = substring_match_general a hit la w n.
Proof. exact specialised_equal. Qed.
Print Assumptions C14_specialised_agree.

(* C15.  Full statement: "^s=N" matches exactly the words that have a prefix within N edits of s.
   It holds for N = 0. *)
Theorem C15_anchored_partial : forall s w, all_bytes s -> (1 <= length s <= 31)%nat -> all_bytes w ->
  (exists b, match_word true 0 s w = Ok b) /\ (match_word true 0 s w = Ok true <-> prefix_of s w).
Proof. exact anchored_exact. Qed.
Print Assumptions C15_anchored_partial.
(* It fails for N = 1. *)
Theorem C15_anchored_refuted : exists s w, (1 <= length s <= 31)%nat /\ all_bytes s /\ all_bytes w /\
  match_word true 1 s w = Ok true /\ ~ exists p, prefix_of p w /\ within 1 s p.
Proof. exact anchored_refuted. Qed.
Print Assumptions C15_anchored_refuted.
(* What N >= 1 does match: the documented words, and every word some part of which is within N-1
   edits of s without its first letter. *)
Theorem C15_anchored_extent : forall n s w, all_bytes s -> (1 <= length s <= 31)%nat -> all_bytes w -> w <> [] ->
  match_word true (S n) s w = Ok true <->
  (exists p, prefix_of p w /\ within (S n) s p) \/ (exists p, part_of p w /\ within n (tl s) p).
Proof. exact anchored_errors. Qed.
Print Assumptions C15_anchored_extent.

Example C13_case : match_word false 0 (bs "lin") (bs "gremlins") = Ok true /\ match_word false 0 (bs "nil") (bs "gremlins") = Ok false.
Proof. split; now vm_compute. Qed.
Example C13_part : part_of (bs "lin") (bs "gremlins").
Proof. exists (bs "grem"), (bs "s"). now vm_compute. Qed.
Example C14_cases : map (fun n => match_word false n (bs "gromlims") (bs "thegremlins")) [0; 1; 2; 3; 4; 5]%nat =
  [Ok false; Ok false; Ok true; Ok true; Ok true; Ok true].
Proof. now vm_compute. Qed.
Example C15_cases : match_word true 0 (bs "gre") (bs "gremlin") = Ok true /\ match_word true 0 (bs "rem") (bs "gremlin") = Ok false /\
  match_word true 1 (bs "abc") (bs "xxxxbc") = Ok true.
Proof. split; [|split]; now vm_compute. Qed.
