(* Wildcards and colon lists: C28, C29, C30, C50. *)
From Verif Require Import Base M_Glob S_Glob L_Glob2.
Local Open Scope N_scope.

(* C28.  Full statement: a written pattern with at most 30 single-character items compiles, and
   matches exactly the names that split accordingly.  Proved for patterns whose ranges are between
   ASCII characters; for others it is false, as the next theorem shows. *)
Theorem C28_globs_partial : forall p s, pattern_ok p -> (atoms p <= 30)%nat -> all_bytes s ->
  exists g, make_globber (show_pattern p) = Ok g /\ (is_glob_match g s = true <-> gmatch p s).
Proof. exact glob_exact. Qed.
Print Assumptions C28_globs_partial.
Theorem C28_high_range_refuted : exists g, make_globber (show_pattern [Gclass [CR 224 233]]) = Ok g /\
  gmatch [Gclass [CR 224 233]] [225] /\ is_glob_match g [225] = false.
Proof. exact high_range. Qed.
Print Assumptions C28_high_range_refuted.
(* The source says that a '-' right after a range is an ordinary '-'.  It starts another range. *)
Theorem C28_dash_after_range_refuted : exists g, make_globber (bs "[a-e-z]") = Ok g /\
  is_glob_match g (bs "k") = true /\ is_glob_match g (bs "-") = false.
Proof. exact dash_after_range. Qed.
Print Assumptions C28_dash_after_range_refuted.
Example C28_example : pattern_ok ex_pattern /\ (atoms ex_pattern <= 30)%nat /\ show_pattern ex_pattern = bs "lists/[]a-c-]?*.**" /\
  match make_globber (show_pattern ex_pattern) with
  | Ok g => map (is_glob_match g) [bs "lists/b1.x/y"; bs "lists/bxx/y.z"; bs "lists/]q.."; bs "lists/dq."] = [true; false; true; false]
  | Err _ => False
  end.
Proof. split; [|split; [vm_compute; repeat constructor|split; vm_compute; reflexivity]]. vm_compute. repeat split; auto; try discriminate. Qed.

(* C29.  Full statement: forall s, exists g, make_globber s = Ok g.  An unterminated '[' reads past
   the end of the pattern, and the 32nd state needs an undefined shift. *)
Theorem C29_glob_defined_refuted : make_globber (bs "inbox[0-9") = Err E_oob /\ make_globber (bs "a-folder-with-31-letters-in-it-") = Err E_ub.
Proof. exact glob_ub_examples. Qed.
Print Assumptions C29_glob_defined_refuted.
Theorem C29_glob_defined_partial : forall s, ~ In (ch "[") s -> (length s <= 30)%nat -> exists g, make_globber s = Ok g.
Proof. exact no_class_ok. Qed.
Print Assumptions C29_glob_defined_partial.
Example C29_example : ~ In (ch "[") (bs "mail/**/2005-*") /\ (length (bs "mail/**/2005-*") <= 30)%nat.
Proof. split; [vm_compute; intuition discriminate|vm_compute; repeat constructor]. Qed.

(* C30.  Names written with ':' between them and every ':' inside a name escaped are read back
   exactly.  Only the last name may end in a backslash, and it may be empty only if it is alone. *)
Theorem C30_colon_lists : forall names, names <> [] -> (forall x, In x (removelast names) -> last x 0 <> ch "\") ->
  (length names = 1%nat \/ last names [] <> []) -> split_on_colons (colon_list names) = Ok names.
Proof. exact split_colons. Qed.
Print Assumptions C30_colon_lists.
Example C30_example : colon_list [bs "a:b"; []; bs "c\:d"; bs "e\"] = bs "a\:b::c\\:d:e\" /\
  (forall x, In x (removelast [bs "a:b"; []; bs "c\:d"; bs "e\"]) -> last x 0 <> ch "\") /\ last [bs "a:b"; []; bs "c\:d"; bs "e\"] [] <> [].
Proof. vm_compute. intuition (subst; discriminate). Qed.
(* The exception is needed: an empty last name is lost. *)
Example C30_empty_last : split_on_colons (colon_list [bs "a"; []]) = Ok [bs "a"].
Proof. exact split_drops_last. Qed.

(* C50.  Several directives, each with a list of names, have the effect of one directive with all the
   names, and splitting it gives them back in order. *)
Theorem C50_directives : forall lists, Forall (fun l => l <> []) lists -> lists <> [] ->
  (forall x, In x (concat lists) -> last x 0 <> ch "\" /\ x <> []) ->
  exists c, fold_left add_folders (map colon_list lists) None = Some c /\ c = colon_list (concat lists) /\
    split_on_colons c = Ok (concat lists).
Proof. exact accumulate_split. Qed.
Print Assumptions C50_directives.
Example C50_example : fold_left add_folders (map colon_list [[bs "inbox"; bs "a:b"]; [bs "lists..."]; [bs "x*"; bs "y"]]) None = Some (bs "inbox:a\:b:lists...:x*:y").
Proof. vm_compute. reflexivity. Qed.
