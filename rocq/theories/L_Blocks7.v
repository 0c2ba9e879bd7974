(* Descriptions of scanners: how to check that one is plain, examples, and what goes wrong. *)
From Verif Require Import Base M_Charclass M_Dfasyn M_Compdfa M_Scan M_Parse M_Blocks S_Dfasyn S_Blocks.
From Verif Require L_Blocks.
Local Open Scope nat_scope.

Definition no_hashb (s : bytes) : bool := forallb (fun c => negb (N.eqb 35 c)) s.
Lemma no_hashb_ok : forall s, no_hashb s = true -> no_hash s.
Proof. intros s H J. unfold no_hashb in H. rewrite forallb_forall in H. specialize (H _ J). discriminate. Qed.
Definition plain_stimulusb (x : stimulus) : bool := match x with X_inline t i o => no_hashb t && no_hashb i && no_hashb o | _ => true end.
Lemma plain_stimulusb_ok : forall x, plain_stimulusb x = true -> plain_stimulus x.
Proof. intros [s|t i o|k|] H; cbn; auto. cbn in H. rewrite !andb_true_iff in H. destruct H as [[A B] C]. auto using no_hashb_ok. Qed.
Definition plain_lineb (l : line) : bool := forallb (forallb plain_stimulusb) (l_stims l) && match l_target l with To [] => false | To ds => forallb no_hashb ds | Marked _ => true end.
Lemma forallb_Forall : forall (A : Type) (f : A -> bool) (P : A -> Prop), (forall x, f x = true -> P x) -> forall l, forallb f l = true -> Forall P l.
Proof. intros A f P H l F. rewrite forallb_forall in F. apply Forall_forall. auto. Qed.
Lemma plain_lineb_ok : forall l, plain_lineb l = true -> plain_line l.
Proof.
  intros [ss t] H. unfold plain_lineb in H. cbn [l_stims l_target] in H. apply andb_true_iff in H as [A B]. split; cbn [l_stims l_target].
  - revert A. apply forallb_Forall. intros x. apply forallb_Forall. exact plain_stimulusb_ok.
  - destruct t as [[|d ds]|]; [discriminate| |exact Logic.I]. split; [discriminate|]. revert B. apply forallb_Forall. exact no_hashb_ok.
Qed.
Definition plain_declb (d : decl) : bool :=
  match d with
  | D_block b => match b_instances b with [] => true | _ => false end && forallb (fun s => no_hashb (s_name s) && forallb plain_lineb (s_lines s)) (b_states b)
  | D_abbrev _ alts => forallb plain_stimulusb alts
  | _ => true
  end.
Definition plainb (ds : list decl) : bool := forallb plain_declb ds.
Lemma plainb_ok : forall ds, plainb ds = true -> plain ds.
Proof.
  apply forallb_Forall. intros [b|l|n alts|a|n l|n e|n|s v] H; cbn in *; auto.
  - apply andb_true_iff in H as [A B]. split; [now destruct (b_instances b)|]. revert B. apply forallb_Forall. intros s H. apply andb_true_iff in H as [B C]. split; [now apply no_hashb_ok|].
    revert C. apply forallb_Forall. exact plain_lineb_ok.
  - revert H. apply forallb_Forall. exact plain_stimulusb_ok.
Qed.

(* Numbers, closed by a token. *)
Definition numbers_text : bytes := bs "Tokens EOS
Abbrev D = [0-9]
Block number {
  State in
    D -> in, out
}
Block main {
  State in
    <number:in->out> ; EOS = NUMBER
}
ATTR NUMBER
DEFATTR OTHER
".
Definition digits : char_class := Cc_simple {| caret := false; body := [Cc_range 48 57] |}.
Definition number_block : block_decl := Bdecl (bs "number") [] [Sdecl (bs "in") None [Line [[X_name (bs "D")]] (To [bs "in"; bs "out"])]].
Definition main_block : block_decl := Bdecl (bs "main") [] [Sdecl (bs "in") None [Line [[X_inline (bs "number") (bs "in") (bs "out")]; [X_name (bs "EOS")]] (Marked [bs "NUMBER"])]].
Definition numbers_before : list decl := [D_tokens [bs "EOS"]; D_abbrev (bs "D") [X_class digits]].
Definition numbers : list decl := numbers_before ++ [D_block number_block; D_block main_block; D_attr (A_attrs false [bs "NUMBER"]); D_attr (A_default (bs "OTHER"))].
Lemma numbers_read : read_description numbers_text = Ok numbers /\ plain numbers.
Proof. split; [vm_compute; reflexivity|]. apply plainb_ok. vm_compute. reflexivity. Qed.
Definition numbers_nfa : nfa_file := Eval vm_compute in match compile 10 numbers with Ok F => F | Err _ => Nfa 0 [] [] [] (Rules [] [] 0) end.
Lemma numbers_compiled : compile 10 numbers = Ok numbers_nfa /\ f_entries numbers_nfa <> [].
Proof. split; [vm_compute; reflexivity|discriminate]. Qed.
Lemma numbers_start : starts numbers 0 (numbers_before ++ [D_block number_block]) main_block (bs "in").
Proof.
  unfold starts. change (entries_from [] numbers) with (@nil (list decl * block_decl * bytes)). cbv iota. split; [reflexivity|].
  exists [D_attr (A_attrs false [bs "NUMBER"]); D_attr (A_default (bs "OTHER"))], [], (Sdecl (bs "in") None [Line [[X_inline (bs "number") (bs "in") (bs "out")]; [X_name (bs "EOS")]] (Marked [bs "NUMBER"])]).
  split; [reflexivity|]. split; [|split; reflexivity]. intros c [H|[H|[]]]; discriminate.
Qed.
Lemma digit_goes : forall c d, 48 <= c <= 57 -> In d [bs "in"; bs "out"] -> forall v q, goes numbers_before number_block d v q -> goes numbers_before number_block (bs "in") (Chr c :: v) q.
Proof.
  intros c d Hc Hd v q G. change (Chr c :: v) with ([Chr c] ++ v). eapply goes_on with (l := Line [[X_name (bs "D")]] (To [bs "in"; bs "out"])); [|reflexivity|exact Hd| |exact G].
  - eexists. split; [now left|]. split; [reflexivity|now left].
  - change [Chr c] with ([Chr c] ++ []). eapply ra_cons; [now left| | |constructor].
    + eapply (sf_abbrev _ _ [D_tokens [bs "EOS"]]); [exists []; split; [reflexivity|intros ? []]|now left|constructor].
    + constructor. unfold in_class, digits, in_simple, listed. cbn [caret body existsb].
      replace (Nat.min 48 57 <=? c) with true by (symmetry; apply Nat.leb_le; lia). replace (c <=? Nat.max 48 57) with true by (symmetry; apply Nat.leb_le; lia). reflexivity.
Qed.
Lemma numbers_sees : sees (numbers_before ++ [D_block number_block]) main_block (bs "in") [Chr 49; Chr 50; Tok 0] (bs "NUMBER").
Proof.
  change [Chr 49; Chr 50; Tok 0] with ([] ++ [Chr 49; Chr 50; Tok 0]). eapply sees_here with (l := Line [[X_inline (bs "number") (bs "in") (bs "out")]; [X_name (bs "EOS")]] (Marked [bs "NUMBER"])); [constructor| |reflexivity|now left|].
  - eexists. split; [now left|]. split; [reflexivity|now left].
  - change [Chr 49; Chr 50; Tok 0] with ([Chr 49; Chr 50] ++ [Tok 0] ++ []). eapply ra_cons; [now left|constructor| |].
    + eapply (r_block _ _ _ _ numbers_before number_block); [exists []; split; reflexivity|].
      apply digit_goes with (bs "in"); [lia|now left|]. apply digit_goes with (bs "out"); [lia|right; now left|]. constructor.
    + eapply ra_cons; [now left| | |constructor]; [|apply r_token]. apply sf_token; [|reflexivity]. intros alts [H|[H|[H|[]]]]; discriminate.
Qed.

(* More than 32 abbreviations: the table is moved, and what refers to one of the first is lost. *)
Definition letter_a : char_class := Cc_simple {| caret := false; body := [Cc_char 97] |}.
Definition many_abbrevs : list decl :=
  D_abbrev (bs "X") [X_class letter_a] :: D_abbrev (bs "Y") [X_name (bs "X")] :: map (fun n => D_abbrev (bs "A" ++ decimal n) [X_class letter_a]) (seq 0 31).
Definition abbrev_block : block_decl := Bdecl (bs "main") [] [Sdecl (bs "in") None [Line [[X_name (bs "Y")]] (Marked [bs "T"])]].
Lemma abbrevs_lost : plain (many_abbrevs ++ [D_block abbrev_block]) /\ sees many_abbrevs abbrev_block (bs "in") [Chr 97] (bs "T") /\ forall stack, compile stack (many_abbrevs ++ [D_block abbrev_block]) = Err E_ub.
Proof.
  split; [apply plainb_ok; vm_compute; reflexivity|]. split.
  - change [Chr 97] with ([] ++ [Chr 97]). eapply sees_here with (l := Line [[X_name (bs "Y")]] (Marked [bs "T"])); [constructor| |reflexivity|now left|].
    + eexists. split; [now left|]. split; [reflexivity|now left].
    + change [Chr 97] with ([Chr 97] ++ []). eapply ra_cons with (a := O_char letter_a); [now left| |constructor; reflexivity|constructor].
      eapply (sf_abbrev _ _ [D_abbrev (bs "X") [X_class letter_a]] [X_name (bs "X")]); [|now left|].
      * eexists. split; [reflexivity|]. intros alts J. apply in_map_iff in J as (n & E & _). discriminate.
      * eapply (sf_abbrev _ _ [] [X_class letter_a]); [|now left|constructor]. exists []. split; [reflexivity|intros ? []].
  - intros stack. assert (X : add_decls empty_env (many_abbrevs ++ [D_block abbrev_block]) = Err E_ub) by (vm_compute; reflexivity). unfold compile. rewrite X. reflexivity.
Qed.
(* A name with # is the name of an internal state. *)
Definition hash_text : bytes := bs "Block main {
  State in
    [a] ; [b] = T
  State ""#1""
    [c] = U
}
DEFATTR none
".
Definition hash_block : block_decl :=
  Bdecl (bs "main") [] [Sdecl (bs "in") None [Line [[X_class letter_a]; [X_class (Cc_simple {| caret := false; body := [Cc_char 98] |})]] (Marked [bs "T"])];
                        Sdecl (bs "#1") None [Line [[X_class (Cc_simple {| caret := false; body := [Cc_char 99] |})]] (Marked [bs "U"])]].
Definition hash_decls : list decl := [D_block hash_block; D_attr (A_default (bs "none"))].
Lemma hash_read : read_description hash_text = Ok hash_decls.
Proof. vm_compute. reflexivity. Qed.
Definition hash_nfa : nfa_file := Eval vm_compute in match compile 10 hash_decls with Ok F => F | Err _ => Nfa 0 [] [] [] (Rules [] [] 0) end.
Lemma hash_sees : ~ sees [] hash_block (bs "#1") [Chr 98] (bs "T").
Proof.
  assert (G : forall l, has_line hash_block (bs "#1") l -> l = Line [[X_class (Cc_simple {| caret := false; body := [Cc_char 99] |})]] (Marked [bs "U"])).
  { intros l (s & [<-|[<-|[]]] & Ns & J); [discriminate|]. destruct J as [<-|[]]. reflexivity. }
  assert (T : forall ds b p w q, goes ds b p w q -> b = hash_block -> p = bs "#1" -> q = bs "#1").
  { intros ds b p w q H. destruct H as [|ds b p l dests d u v q Hl Ht _ _ _]; intros -> ->; [reflexivity|]. apply G in Hl as ->. discriminate. }
  intros H. inversion H as [ds b p u q l tags tag v Go Hl Ht J _|ds b p u q l pre alts post v x t i o before c y tag Go Hl Hs _ Jx Sx _ _]; subst.
  - apply T in Go as ->; auto. apply G in Hl as ->. injection Ht as <-. destruct J as [J|[]]. discriminate.
  - apply T in Go as ->; auto. apply G in Hl as ->. cbn [l_stims] in Hs. destruct pre as [|? [|? ?]]; [|discriminate|discriminate]. injection Hs as <- _. destruct Jx as [<-|[]]. inversion Sx.
Qed.
Lemma hash_clash : compile 10 hash_decls = Ok hash_nfa /\ starts hash_decls 0 [] hash_block (bs "#1") /\
  exists e, nth_error (f_entries hash_nfa) 0 = Some e /\ tagged hash_nfa e [Chr 98] (bs "T") /\ ~ sees [] hash_block (bs "#1") [Chr 98] (bs "T").
Proof.
  split; [vm_compute; reflexivity|]. split.
  - unfold starts. change (entries_from [] hash_decls) with (@nil (list decl * block_decl * bytes)). cbv iota. split; [reflexivity|].
    eexists _, [_], _. split; [reflexivity|]. split; [|split; reflexivity]. intros c [H|[]]; discriminate.
  - exists 1. split; [reflexivity|]. split; [|exact hash_sees]. exists 2. eexists. split; [|split; [reflexivity|now left]].
    eapply (path_read _ _ (TT_CHARCLASS 1)); [| |apply path_end]; [eexists; split; [reflexivity|right; now left]|eexists; split; reflexivity].
Qed.
(* A block within itself: it is copied while it grows, until a name is too long for its buffer. *)
Definition self_block : block_decl := Bdecl (bs "b") [] [Sdecl (bs "in") None [Line [[X_inline (bs "b") (bs "in") (bs "out")]; [X_class letter_a]] (To [bs "out"]); Line [[X_class letter_a]] (To [bs "out"])]].
Lemma self_inline : forall E b cur i o dest b', find (fun m => bytes_eqb (k_name m) (k_name b)) (n_blocks E) = None -> bytes_eqb (k_name b) (k_name b) = true -> NoDup (map c_name (k_states b)) -> k_states b <> [] ->
  add_inline_block_transition E b cur (k_name b) i o dest <> Ok b'.
Proof.
  intros E b cur i o dest b' Nf Eq Nd Ne H. unfold add_inline_block_transition in H. destruct (instantiate_block _ _ _ _) as [b1|] eqn:X; [|discriminate]. clear H.
  unfold instantiate_block in X. rewrite Nf in X. cbn [k_name] in X. rewrite Eq in X. apply L_Blocks.copy_self in X; [exact X|exact Nd|intros j s J; lia|exact Ne].
Qed.
Definition self_env : env := Env [] [] [] [letter_a] [] (Some (0, 0)) [(None, Evaluator [] None)] [].
Definition self_start : cblock := Cblock (bs "b") [Cstate (bs "in") [] []; Cstate (HASH :: decimal 1) [] []] 2 1.
Lemma compile_inv : forall stack d ds F, compile stack (D_block d :: ds) = Ok F -> exists E1, add_block empty_env d = Ok E1.
Proof. intros stack d ds F H. unfold compile in H. cbn [add_decls add_decl] in H. destruct (add_block empty_env d) as [E1|]; [eauto|discriminate]. Qed.
Lemma add_block_inv : forall E d E', b_instances d = [] -> add_block E d = Ok E' ->
  exists r, add_states (Env (n_blocks E) (n_tokens E) (n_abbrevs E) (n_classes E) (n_entries E) None (n_evs E) (n_defs E)) (Cblock (b_name d) [] 1 1) (b_states d) = Ok r.
Proof. intros E d E' N H. unfold add_block in H. rewrite N in H. destruct (existsb _ _); [discriminate|]. cbn [add_instances bind] in H. destruct (add_states _ _ _) as [r|]; [eauto|discriminate]. Qed.
Lemma add_states_inv : forall E b s ss r, add_states E b (s :: ss) = Ok r -> exists r1, add_lines (set_cur E (snd (lookup_state b (s_name s))) (s_entry s)) (fst (lookup_state b (s_name s))) (snd (lookup_state b (s_name s))) (s_lines s) = Ok r1.
Proof. intros E b s ss r H. cbn [add_states] in H. destruct (lookup_state b (s_name s)) as [b1 i]. cbn [fst snd]. destruct (add_lines _ _ _ _) as [r1|]; [eauto|discriminate]. Qed.
Lemma add_lines_inv : forall E b cur l ls r ss E1, all_stimuli_of E (l_stims l) = Ok (ss, E1) -> add_lines E b cur (l :: ls) = Ok r -> exists b1, add_line E1 b cur ss (l_target l) = Ok b1.
Proof. intros E b cur l ls r ss E1 A H. cbn [add_lines] in H. rewrite A in H. cbn [bind] in H. destruct (add_line _ _ _ _ _) as [b1|]; [eauto|discriminate]. Qed.
Lemma add_line_inv : forall E b cur s s2 ss t r, add_line E b cur (s :: s2 :: ss) t = Ok r -> exists r1, add_transitions_to_internal E b cur s = Ok r1.
Proof. intros E b cur s s2 ss t r H. cbn [add_line] in H. destruct (add_transitions_to_internal _ _ _ _) as [r1|]; [eauto|discriminate]. Qed.
Lemma to_internal_inv : forall E b cur t i o r b1 j, lookup_state (Cblock (k_name b) (k_states b) (Datatypes.S (k_subcount b)) (k_subblocks b)) (HASH :: decimal (k_subcount b)) = (b1, j) ->
  add_transitions_to_internal E b cur [S_INLINE t i o] = Ok r -> exists b2, add_inline_block_transition E b1 cur t i o (HASH :: decimal (k_subcount b)) = Ok b2.
Proof.
  intros E b cur t i o r b1 j L H. unfold add_transitions_to_internal in H. rewrite L in H. destruct (add_transitions _ _ _ _ _) as [b3|] eqn:A; [|discriminate]. clear H.
  unfold add_transitions in A. cbn [fold_left bind add_transition] in A. eauto.
Qed.
Lemma self_step1 : forall b', add_inline_block_transition self_env self_start 0 (bs "b") (bs "in") (bs "out") (HASH :: decimal 1) <> Ok b'.
Proof. intros b'. exact (self_inline self_env self_start 0 (bs "in") (bs "out") (HASH :: decimal 1) b' eq_refl eq_refl ltac:(repeat constructor; cbn; intuition discriminate) ltac:(discriminate)). Qed.
Lemma self_step2 : forall r, add_transitions_to_internal self_env (Cblock (bs "b") [Cstate (bs "in") [] []] 1 1) 0 [S_INLINE (bs "b") (bs "in") (bs "out")] <> Ok r.
Proof. intros r H. apply (to_internal_inv _ _ _ _ _ _ _ self_start 1) in H as (b2 & H); [|reflexivity]. exact (self_step1 b2 H). Qed.
Definition self_cur : env := Env [] [] [] [] [] (Some (0, 0)) [(None, Evaluator [] None)] [].
Lemma self_step3 : forall l r, add_lines self_cur (Cblock (bs "b") [Cstate (bs "in") [] []] 1 1) 0 (Line [[X_inline (bs "b") (bs "in") (bs "out")]; [X_class letter_a]] (To [bs "out"]) :: l) <> Ok r.
Proof.
  intros l r H. apply (add_lines_inv _ _ _ _ _ _ [[S_INLINE (bs "b") (bs "in") (bs "out")]; [S_CLASS 0]] self_env) in H as (b1 & H); [|reflexivity].
  apply add_line_inv in H as (r2 & H). exact (self_step2 r2 H).
Qed.
Definition self_line : line := Line [[X_class letter_a]] (To [bs "out"]).
Lemma self_step4 : forall r, add_states (Env [] [] [] [] [] None [(None, Evaluator [] None)] []) (Cblock (bs "b") [] 1 1) [Sdecl (bs "in") None [Line [[X_inline (bs "b") (bs "in") (bs "out")]; [X_class letter_a]] (To [bs "out"]); self_line]] <> Ok r.
Proof. intros r H. apply add_states_inv in H as (r1 & H). exact (self_step3 [self_line] r1 H). Qed.
Lemma self_overruns : plain [D_block self_block] /\ forall stack F, compile stack [D_block self_block] <> Ok F.
Proof.
  split; [apply plainb_ok; vm_compute; reflexivity|]. intros stack F H. apply compile_inv in H as (E1 & H).
  apply add_block_inv in H as (r & H); [|reflexivity]. exact (self_step4 r H).
Qed.
(* groups *)
Definition groups_text : bytes := bs "Block main { State in [a] = T, U }
Group g { ATTR X : T & U  DEFATTR none }
TAG V = ~T
ATTR T, W
ATTR Y : V
Group g { EARLY ATTR T  DEFATTR nothing }
DEFATTR other
".
Definition groups_decls : list decl := Eval vm_compute in match read_description groups_text with Ok ds => ds | Err _ => [] end.
Lemma groups_read : read_description groups_text = Ok groups_decls.
Proof. vm_compute. reflexivity. Qed.
Definition groups_nfa : nfa_file := Eval vm_compute in match compile 10 groups_decls with Ok F => F | Err _ => Nfa 0 [] [] [] (Rules [] [] 0) end.
Lemma groups_ok : compile 10 groups_decls = Ok groups_nfa /\
  attribute groups_decls (Some (bs "g")) = Evaluator [(bs "X", E_AND (E_TAG (bs "T")) (E_TAG (bs "U")), false); (bs "T", E_TAG (bs "T"), true)] (Some (bs "nothing")) /\
  attribute groups_decls None = Evaluator [(bs "T", E_TAG (bs "T"), false); (bs "W", E_TAG (bs "W"), false); (bs "Y", E_TAG (bs "V"), false)] (Some (bs "other")) /\
  tag_lines groups_decls = [(bs "V", E_NOT (E_TAG (bs "T")))].
Proof. repeat split; vm_compute; reflexivity. Qed.
