(* Splitting a mailbox file into messages and recognising unchanged ones: C26, C27. *)
From Verif Require Import Base M_DbFile M_Mbox S_Mbox L_Mbox L_Mbox2 L_Mbox3 L_Mbox4.
Local Open Scope N_scope.

(* C26.  Ordinary mailboxes, for any recogniser of separator lines and any starting point: the
   messages found are exactly the pieces between separator lines, they are in file order, do not
   overlap and lie inside the file, and nothing after the first separator line is left out. *)
Theorem C26_mbox : forall from_ok va after, is_mmdf va = false ->
  exists ms, build_new_message_list from_ok after va = Ok ms
  /\ (forall m, In m ms <-> is_message from_ok va (scan_start after) m)
  /\ in_file_order ms
  /\ (forall m, In m ms -> fst m + snd m <= N.of_nat (length va))
  /\ (forall p x, separator from_ok va (scan_start after) p -> p <= x < N.of_nat (length va) ->
        in_message ms x \/ on_separator from_ok va (scan_start after) x).
Proof. exact split_mbox. Qed.
Print Assumptions C26_mbox.
Example C26_mbox_example : is_mmdf ex_text = false /\ build_new_message_list ex_from_ok None ex_text = Ok [(14, 17); (40, 0); (49, 3)]
  /\ build_new_message_list ex_from_ok (Some (14, 17)) ex_text = Ok [(40, 0); (49, 3)].
Proof. repeat split; vm_compute; reflexivity. Qed.

(* C26 for MMDF mailboxes. *)
Theorem C26_mmdf : forall from_ok va after, is_mmdf va = true ->
  exists ms, build_new_message_list from_ok after va = Ok ms
  /\ (let b := match after with None => 0 | Some _ => scan_start after + 5 end in
      (no_sep (from va b) /\ ms = []) \/
      exists a c, first_sep (from va b) a c /\ mmdf_messages (b + N.of_nat (length a)) (mmdf_sep ++ c) ms)
  /\ in_file_order ms
  /\ (forall m, In m ms -> fst m + snd m <= N.of_nat (length va)).
Proof. exact split_mmdf. Qed.
Print Assumptions C26_mmdf.
Example C26_mmdf_example : is_mmdf ex_mmdf = true /\ build_new_message_list ex_from_ok None ex_mmdf = Ok [(5, 4); (19, 7)]
  /\ build_new_message_list ex_from_ok (Some (5, 4)) ex_mmdf = Ok [(19, 7)].
Proof. repeat split; vm_compute; reflexivity. Qed.

(* C27.  When damage to a message implies damage to all later ones, the number of messages kept is
   the length of the longest unchanged prefix. *)
Theorem C27_prefix : forall csum mb va, places_known mb ->
  (forall i j, i < j -> intact csum mb va j -> intact csum mb va i) ->
  exists k, find_number_intact csum mb va = Ok k /\ longest_intact_prefix csum mb va k.
Proof. exact number_prefix. Qed.
Print Assumptions C27_prefix.
(* Without that assumption the last message kept is still unchanged, and the next one is not. *)
Theorem C27_boundary : forall csum mb va, places_known mb ->
  exists k, find_number_intact csum mb va = Ok k /\ k <= mb_n mb
  /\ (0 < k -> intact csum mb va (k - 1)) /\ (k < mb_n mb -> ~ intact csum mb va k).
Proof. exact number_intact. Qed.
Print Assumptions C27_boundary.
Example C27_example : places_known ex_box
  /\ (forall i j, i < j -> intact (fun s => s) ex_box (bs "abcdXXXX") j -> intact (fun s => s) ex_box (bs "abcdXXXX") i)
  /\ find_number_intact (fun s => s) ex_box (bs "abcdXXXX") = Ok 2.
Proof. split; [exact ex_box_known|]. split; [exact ex_box_damage|]. vm_compute. reflexivity. Qed.
