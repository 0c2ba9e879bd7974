(* Scanning and parsing put together. *)
From Verif Require Import Base M_Scan M_Parse S_Flex S_Grammar L_Flex5 L_Grammar L_Grammar2 L_Grammar3.

Theorem read_iff text ds : read_description text = Ok ds <-> exists ts, scans INITIAL true text (Ok ts) /\ description ds ts.
Proof.
  unfold read_description. split.
  - intros H. destruct (tokens_of text) as [ts|e] eqn:E; [|discriminate]. cbn [bind] in H. exists ts. split; [now apply scan_iff|now apply parse_sound].
  - intros (ts & S & D). apply scan_iff in S. rewrite S. cbn [bind]. now apply parse_complete.
Qed.
Theorem read_no text : (forall ts ds, scans INITIAL true text (Ok ts) -> description ds ts -> False) -> read_description text = Err (E_exit 1).
Proof.
  intros H. unfold read_description. destruct (scan_total text) as [(ts & E)|E]; rewrite E; cbn [bind]; [|reflexivity]. apply parse_no. intros ds D. apply (H ts ds); [now apply scan_iff|exact D].
Qed.
Definition ex_source : bytes := bs "Block b { State s [a-z] ; T -> s = DONE } Tag t = ~x & (y | z) ? w : v".
Definition ex_read : list decl :=
  [D_block (Bdecl (bs "b") [] [Sdecl (bs "s") None [Line [[X_class (M_Charclass.Cc_simple {| M_Charclass.caret := false; M_Charclass.body := [M_Charclass.Cc_range 97 122] |})]; [X_name (bs "T")]] (To [bs "s"]); Line [[X_empty]] (Marked [bs "DONE"])]]);
   D_tag (bs "t") (M_Dfasyn.E_COND (M_Dfasyn.E_AND (M_Dfasyn.E_NOT (M_Dfasyn.E_TAG (bs "x"))) (M_Dfasyn.E_OR (M_Dfasyn.E_TAG (bs "y")) (M_Dfasyn.E_TAG (bs "z")))) (M_Dfasyn.E_TAG (bs "w")) (M_Dfasyn.E_TAG (bs "v")))].
Lemma ex_source_read : exists ts, scans INITIAL true ex_source (Ok ts) /\ description ex_read ts.
Proof. apply read_iff. vm_compute. reflexivity. Qed.
Lemma ex_source_refused : forall ts ds, scans INITIAL true (bs "Tag t = a ? b") (Ok ts) -> description ds ts -> False.
Proof. intros ts ds A B. assert (X : read_description (bs "Tag t = a ? b") = Ok ds) by (apply read_iff; eauto). vm_compute in X. discriminate. Qed.
