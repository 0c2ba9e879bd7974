(* Descriptions of scanners: properties C103 and C104. *)
From Verif Require Import Base M_Charclass M_Dfasyn M_Compdfa M_Scan M_Parse M_Blocks S_Dfasyn S_Blocks L_Blocks6 L_Blocks7 L_Blocks8.
Local Open Scope nat_scope.

(* C103: every scanner of the automaton sees the tags that the description says, after any input: blocks within blocks, choices
   and abbreviations mean what is written. *)
Theorem C103_meaning : forall stack ds F, plain ds -> compile stack ds = Ok F -> forall j e, nth_error (f_entries F) j = Some e ->
  exists before b p, starts ds j before b p /\ forall w tag, tagged F e w tag <-> sees before b p w tag.
Proof. exact meaning_of_description. Qed.
Print Assumptions C103_meaning.
(* There is a scanner for every start in the description. *)
Theorem C103_scanners : forall stack ds F, plain ds -> compile stack ds = Ok F -> forall j before b p, starts ds j before b p ->
  exists e, nth_error (f_entries F) j = Some e /\ forall w tag, tagged F e w tag <-> sees before b p w tag.
Proof. exact scanner_for_each. Qed.
Print Assumptions C103_scanners.
(* The automaton has no dangling references, and no other tokens and classes than the description. *)
Theorem C103_references : forall stack ds F, plain ds -> compile stack ds = Ok F ->
  references_ok F /\ f_ntokens F = length (tokens_in ds) /\ forall k, In k (f_classes F) -> class_in ds k.
Proof. exact references_of_description. Qed.
Print Assumptions C103_references.
Example C103_example : read_description numbers_text = Ok numbers /\ plain numbers /\ compile 10 numbers = Ok numbers_nfa /\ f_entries numbers_nfa <> [] /\
  starts numbers 0 (numbers_before ++ [D_block number_block]) main_block (bs "in") /\
  sees (numbers_before ++ [D_block number_block]) main_block (bs "in") [Chr 49; Chr 50; Tok 0] (bs "NUMBER").
Proof. split; [apply numbers_read|]. split; [apply numbers_read|]. split; [apply numbers_compiled|]. split; [apply numbers_compiled|]. split; [exact numbers_start|exact numbers_sees]. Qed.
(* Names with # may be those of internal states: then the scanner sees something else. *)
Theorem C103_hash_refuted : exists text ds F before b p, read_description text = Ok ds /\ compile 10 ds = Ok F /\ starts ds 0 before b p /\
  exists e w tag, nth_error (f_entries F) 0 = Some e /\ tagged F e w tag /\ ~ sees before b p w tag.
Proof.
  exists hash_text, hash_decls, hash_nfa, [], hash_block, (bs "#1"). split; [exact hash_read|]. destruct hash_clash as (A & B & e & C & D & E). split; [exact A|]. split; [exact B|].
  exists e, [Chr 98], (bs "T"). auto.
Qed.
Print Assumptions C103_hash_refuted.
(* Not every plain description is read: with more than 32 abbreviations the program follows a pointer to freed memory. *)
Theorem C103_abbreviations_refuted : exists ds b, plain (ds ++ [D_block b]) /\ sees ds b (bs "in") [Chr 97] (bs "T") /\ forall stack, compile stack (ds ++ [D_block b]) = Err E_ub.
Proof. exists many_abbrevs, abbrev_block. exact abbrevs_lost. Qed.
Print Assumptions C103_abbreviations_refuted.
(* And a block within itself is not refused: no automaton is ever made. *)
Theorem C103_self_refuted : exists ds, plain ds /\ forall stack F, compile stack ds <> Ok F.
Proof. exists [D_block self_block]. exact self_overruns. Qed.
Print Assumptions C103_self_refuted.

(* C104: each group of attributes has exactly the values, expressions and the default written in it, in order. *)
Theorem C104_attributes : forall stack ds F, compile stack ds = Ok F ->
  exists groups, f_rules F = Rules (map (attribute ds) (map Some groups ++ [None])) (tag_lines ds) stack /\ NoDup groups /\ forall n, In n groups <-> exists l, In (D_group n l) ds.
Proof. exact rules_of_description. Qed.
Print Assumptions C104_attributes.
Example C104_example : read_description groups_text = Ok groups_decls /\ compile 10 groups_decls = Ok groups_nfa /\
  attribute groups_decls (Some (bs "g")) = Evaluator [(bs "X", E_AND (E_TAG (bs "T")) (E_TAG (bs "U")), false); (bs "T", E_TAG (bs "T"), true)] (Some (bs "nothing")) /\
  attribute groups_decls None = Evaluator [(bs "T", E_TAG (bs "T"), false); (bs "W", E_TAG (bs "W"), false); (bs "Y", E_TAG (bs "V"), false)] (Some (bs "other")) /\
  tag_lines groups_decls = [(bs "V", E_NOT (E_TAG (bs "T")))].
Proof. split; [exact groups_read|exact groups_ok]. Qed.
