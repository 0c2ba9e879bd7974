(* The model of the scanner reads what the rules of scan.l make of the text. *)
From Verif Require Import Base M_Scan S_Flex L_Mbox L_Flex L_Flex2 L_Flex3 L_Flex4.
Local Open Scope N_scope.

Lemma class_nonempty : forallb (fun r => negb (same_start (where_ r) CHARCLASS) || nonempty (pat r)) rules = true.
Proof. vm_compute. reflexivity. Qed.
Lemma step_class f b b' c s : claim f -> (length s <= f)%nat -> scans CHARCLASS b (c :: s) (lex (S f) CHARCLASS b' (c :: s)).
Proof.
  intros IH L. cbn [lex].
  destruct (c =? 93) eqn:C1.
  { apply N.eqb_eq in C1. subst c. rewrite given. eapply (take_short CHARCLASS b 93 s 49 [93] s); try reflexivity; try discriminate; [now left|]. apply IH; [exact L|tauto]. }
  destruct (c =? 45) eqn:C2.
  { apply N.eqb_eq in C2. subst c. rewrite given. eapply (take_short CHARCLASS b 45 s 50 [45] s); try reflexivity; try discriminate; [now left|]. apply IH; [exact L|tauto]. }
  destruct (c =? 10) eqn:C3.
  { apply N.eqb_eq in C3. subst c. apply sc_echo; [|apply IH; [exact L|tauto]]. intros r y R A. destruct (In_nth_error _ _ R) as (j & H). destruct A as (W & _ & M & z & Z & _). destruct y as [|c y].
    - pose proof class_nonempty as NE. rewrite forallb_forall in NE. specialize (NE _ R). rewrite W in NE. cbn [same_start negb orb] in NE. exact (nonempty_ok _ _ NE M eq_refl).
    - cbn [app] in Z. inv Z. pose proof (possible_in CHARCLASS 10 j r H W) as P. apply starts_ok in M. specialize (P M). vm_compute in P. exact P. }
  assert (D : dot c = true) by (unfold dot; now rewrite C3).
  destruct (N.eq_dec c 92) as [-> |N1]; [now apply step_backslash|].
  destruct (N.eq_dec c 94) as [-> |N2].
  - assert (PL : (forall d z, s = d :: z -> between 64 90 d = true -> False) -> scans CHARCLASS b (94 :: s) (let! ts := lex f CHARCLASS false s in Ok (CHAR 94 :: ts))).
    { intros NO. apply plain_char; [exact IH|exact L|reflexivity|]. intros j r' y' J H M (z & Z). assert (J' : In j [59; 62]%nat) by exact J. destruct J' as [<-|[<-|[]]]; [|reflexivity]. exfalso. cbn in H. inv H.
      destruct M as (u & v & -> & [<-|[]] & (d & -> & DD)). cbn [app] in Z. inv Z. exact (NO _ _ eq_refl DD). }
    destruct s as [|d s]; [apply PL; discriminate|]. cbn [class_char]. change (range 64 90 d) with (between 64 90 d). destruct (between 64 90 d) eqn:B.
    + rewrite given. eapply (take_short CHARCLASS b 94 (d :: s) 59 [94; d] s (Rule CHARCLASS false (Then (AnyOf [bs "^"]) (One (between 64 90))) false (give_char (fun y => nth 1 y 0 - 64)))); try reflexivity; try discriminate.
      * exists [94], [d]. split; [reflexivity|]. split; [now left|now exists d].
      * apply IH; [cbn [length] in L; lia|tauto].
    + apply PL. intros d' z Q. inv Q. congruence.
  - assert (CC : class_char (c :: s) = Some (c, s)).
    { assert (X : Some (c, s) = Some (c, s)) by reflexivity. destruct c as [|p]; [exact X|]. do 7 (try (destruct p as [p|p|]; try exact X)); exfalso; (apply N1; reflexivity) || (apply N2; reflexivity). }
    rewrite CC. apply plain_char; [exact IH|exact L|exact D|].
    assert (P : forallb (Nat.eqb 62) (possible CHARCLASS c) = true).
    { apply (check_all (forallb (Nat.eqb 62)) (fun c => negb (one_of [93; 45; 10; 92; 94] c))); [intros d DD; now rewrite !one_of_big by (exact DD || reflexivity)|vm_compute; reflexivity|].
      unfold one_of. cbn [existsb]. rewrite C1, C2, C3. replace (c =? 92) with false by (symmetry; now apply N.eqb_neq). replace (c =? 94) with false by (symmetry; now apply N.eqb_neq). reflexivity. }
    intros j r' y' J H M Z. rewrite forallb_forall in P. specialize (P _ J). apply Nat.eqb_eq in P. now symmetry.
Qed.

Definition mark_rule (m : N * token) : rule := Rule INITIAL false (AnyOf [[fst m]]) false (give (snd m)).
Lemma marks_rules : Forall (fun m => exists i, nth_error rules i = Some (mark_rule m) /\ forallb (short 1 i) (possible INITIAL (fst m)) = true) marks.
Proof.
  repeat apply Forall_cons; [exists 21%nat|exists 22%nat|exists 23%nat|exists 24%nat|exists 25%nat|exists 26%nat|exists 27%nat|exists 28%nat|exists 29%nat|exists 30%nat|exists 31%nat|exists 32%nat|exists 33%nat|exists 34%nat|exists 35%nat|exists 38%nat|apply Forall_nil];
    (split; [reflexivity|vm_compute; reflexivity]).
Qed.
Definition known (c : N) : bool := name_char c || space c || one_of [10; 35; 45; 91; 34; 37] c || existsb (fun m => fst m =? c) marks.
Lemma known_big c : 127 < c -> known c = false.
Proof.
  intros C. unfold known, space. rewrite name_char_big, !one_of_big by (exact C || reflexivity). cbn [orb].
  assert (G : forallb (fun m : N * token => fst m <=? 127) marks = true) by reflexivity. induction marks as [|m l IH]; [reflexivity|]. cbn [forallb existsb] in *. apply andb_true_iff in G. destruct G as (G1 & G2). rewrite (IH G2). apply N.leb_le in G1.
  replace (fst m =? c) with false by (symmetry; apply N.eqb_neq; lia). reflexivity.
Qed.
Lemma unknown_possible c : known c = false -> forallb (Nat.eqb 43) (possible INITIAL c) = true.
Proof.
  intros K. apply (check_all (forallb (Nat.eqb 43)) (fun c => negb (known c))); [intros d D; now rewrite !known_big|vm_compute; reflexivity|now rewrite K].
Qed.
Lemma step_initial f b c s : claim f -> (length s <= f)%nat -> scans INITIAL b (c :: s) (lex (S f) INITIAL b (c :: s)).
Proof.
  intros IH L. cbn [lex]. rewrite word_name. destruct (name_char c) eqn:NC.
  { rewrite (tw_ext _ _ (c :: s) word_name). destruct (take_while name_char (c :: s)) as (w, r) eqn:T. pose proof (word_chosen b c s w r NC T) as CH. destruct (tw_spec _ _ _ _ T) as (E & F & R).
    assert (Y : w <> []) by (intros ->; cbn [app] in E; subst r; congruence).
    assert (G : scans INITIAL (last w 0 =? 10) r (lex f INITIAL false r)).
    { rewrite (last_not name_char w F eq_refl Y). apply IH; [|tauto]. apply (f_equal (@length N)) in E. rewrite app_length in E. cbn [length] in E. destruct w; [congruence|]. cbn [length] in E. lia. }
    rewrite word_token_kind, given. destruct (word_kind w) as [k|].
    - eapply (take INITIAL b _ w r (word_rule k)); [exact E|discriminate|exact CH|reflexivity|exact G|reflexivity].
    - eapply (take INITIAL b _ w r name_rule); [exact E|discriminate|exact CH|reflexivity|exact G|reflexivity]. }
  destruct (c =? 10) eqn:C1.
  { apply N.eqb_eq in C1. subst c. eapply (take_short INITIAL b 10 s 39 [10] s); try reflexivity; try discriminate; [now left|]. apply IH; [exact L|tauto]. }
  assert (D : dot c = true) by (unfold dot; now rewrite C1).
  rewrite blank_space. destruct (space c) eqn:SP.
  { rewrite (tw_ext _ _ (c :: s) blank_space). destruct (take_while space (c :: s)) as (w, r) eqn:T. cbn [snd]. destruct (tw_spec _ _ _ _ T) as (E & F & R).
    assert (Y : w <> []) by (intros ->; cbn [app] in E; subst r; congruence).
    assert (P : forallb (fun j => Nat.eqb 40 j || Nat.eqb 43 j) (possible INITIAL c) = true).
    { apply (check_all (forallb (fun j => Nat.eqb 40 j || Nat.eqb 43 j)) space); [intros d DD; unfold space; now rewrite !one_of_big by (exact DD || reflexivity)|vm_compute; reflexivity|exact SP]. }
    eapply (take INITIAL b _ w r (Rule INITIAL false (Then (One space) (Many space)) false (Do None None))); [exact E|discriminate| |reflexivity| |reflexivity].
    - apply (other _ _ _ _ 40); [reflexivity| |exact Y|].
      + split; [reflexivity|]. split; [discriminate|]. split; [now apply some_matches|]. exists r. split; [exact E|discriminate].
      + intros j r' c' y' J H W B M (z & Z & _). rewrite forallb_forall in P. specialize (P _ J). apply orb_true_iff in P. destruct P as [P|P]; apply Nat.eqb_eq in P; subst j; cbn in H; inv H.
        * apply matches_some in M. rewrite E in Z. destruct (prefix_max space w r _ z Z R M) as (LE & _). unfold weight. cbn [eol]. lia.
        * destruct M as (d & M & _). rewrite M. unfold weight. cbn [eol length]. destruct w; [congruence|]. cbn [length]. lia.
    - rewrite (last_not space w F eq_refl Y). apply IH; [|tauto]. apply (f_equal (@length N)) in E. rewrite app_length in E. cbn [length] in E. destruct w; [congruence|]. cbn [length] in E. lia. }
  destruct (c =? 35) eqn:C2.
  { apply N.eqb_eq in C2. subst c. destruct (take_while not_newline s) as (w, r) eqn:T. cbn [snd]. destruct (tw_spec _ _ _ _ T) as (E & F & R). destruct r as [|d r].
    - apply quit; [reflexivity|]. intros j r' c' y' J H W B M (z & Z & EO). assert (J' : In j [19; 43]%nat) by exact J. destruct J' as [<-|[<-|[]]]; [|reflexivity]. exfalso. cbn in H. inv H.
      destruct (EO eq_refl) as (z' & ->). cbn [app] in Z. inversion Z as [[Z1 Z2]]. rewrite app_nil_r in Z2. change not_newline with dot in F. rewrite Z2, forallb_app in F. cbn [forallb] in F. rewrite andb_comm in F. discriminate.
    - unfold not_newline in R. apply negb_false_iff, N.eqb_eq in R. subst d.
      eapply (take INITIAL b _ (35 :: w) (10 :: r) (Rule INITIAL false (Then (AnyOf [bs "#"]) (Many dot)) true (Do None None))); [now rewrite E|discriminate| |reflexivity| |reflexivity].
      + apply (other _ _ _ _ 19); [reflexivity| |discriminate|].
        * split; [reflexivity|]. split; [discriminate|]. split; [exists [35], w; split; [reflexivity|split; [now left|exact F]]|]. exists (10 :: r). split; [now rewrite E|eauto].
        * intros j r' c' y' J H W B M (z & Z & EO). assert (J' : In j [19; 43]%nat) by exact J. destruct J' as [<-|[<-|[]]]; cbn in H; inv H.
          -- destruct M as (u & v & M & [<-|[]] & V). rewrite M in *. change (bs "#") with [35] in *. cbn [app] in Z. inversion Z as [Z']. cbn [matches] in V.
             destruct (prefix_max dot w (10 :: r) v z Z' eq_refl V) as (LE & _). unfold weight. cbn [eol length app]. lia.
          -- destruct M as (d & M & _). rewrite M. unfold weight. cbn [eol length]. lia.
      + rewrite (last_not dot (35 :: w) F eq_refl ltac:(discriminate)). apply IH; [|tauto]. rewrite E, app_length in L. cbn [length] in *. lia. }
  destruct (c =? 45) eqn:C3.
  { apply N.eqb_eq in C3. subst c.
    assert (Q : (forall z, s = 62 :: z -> False) -> scans INITIAL b (45 :: s) (Err (E_exit 1))).
    { intros NO. apply quit; [reflexivity|]. intros j r' c' y' J H W B M (z & Z & EO). assert (J' : In j [20; 43]%nat) by exact J. destruct J' as [<-|[<-|[]]]; [|reflexivity]. exfalso. cbn in H. inv H.
      destruct M as [M|[]]. inv M. cbn [app] in Z. inv Z. exact (NO _ eq_refl). }
    destruct s as [|d s]; [apply Q; discriminate|]. destruct (N.eq_dec d 62) as [-> |NE].
    - rewrite given. eapply (take_short INITIAL b 45 (62 :: s) 20 [45; 62] s); try reflexivity; try discriminate; [now left|]. apply IH; [cbn [length] in L; lia|tauto].
    - assert (G : scans INITIAL b (45 :: d :: s) (Err (E_exit 1))) by (apply Q; intros z X; inv X; congruence). lit d G NE. }
  destruct (c =? 91) eqn:C4.
  { apply N.eqb_eq in C4. subst c.
    assert (Q : (forall z, s = 94 :: z -> False) -> scans INITIAL b (91 :: s) (let! ts := lex f CHARCLASS false s in Ok (LSQUARE :: ts))).
    { intros NO. rewrite given. eapply (take INITIAL b _ [91] s (Rule INITIAL false (AnyOf [bs "["]) false (Do (Some CHARCLASS) (Some (fun _ => LSQUARE))))); [reflexivity|discriminate| |reflexivity|apply IH; [exact L|tauto]|reflexivity].
      apply (other _ _ _ _ 36); [reflexivity| |discriminate|].
      - split; [reflexivity|]. split; [discriminate|]. split; [now left|]. exists s. split; [reflexivity|discriminate].
      - intros j r' c' y' J H W B M (z & Z & EO). assert (J' : In j [36; 37; 43]%nat) by exact J. destruct J' as [<-|[<-|[<-|[]]]]; cbn in H; inv H.
        + destruct M as [M|[]]. inv M. right. split; [reflexivity|lia].
        + exfalso. destruct M as [M|[]]. inv M. cbn [app] in Z. inv Z. exact (NO _ eq_refl).
        + destruct M as (d & M & _). rewrite M. right. split; [reflexivity|lia]. }
    destruct s as [|d s]; [apply Q; discriminate|]. destruct (N.eq_dec d 94) as [-> |NE].
    - rewrite given. eapply (take_short INITIAL b 91 (94 :: s) 37 [91; 94] s); try reflexivity; try discriminate; [now left|]. apply IH; [cbn [length] in L; lia|tauto].
    - assert (G : scans INITIAL b (91 :: d :: s) (let! ts := lex f CHARCLASS false (d :: s) in Ok (LSQUARE :: ts))) by (apply Q; intros z X; inv X; congruence). lit d G NE. }
  destruct (c =? 34) eqn:C5.
  { apply N.eqb_eq in C5. subst c. eapply (take_short INITIAL b 34 s 42 [34] s); try reflexivity; try discriminate; [now left|]. apply IH; [exact L|tauto]. }
  destruct (c =? 37) eqn:C6.
  { apply N.eqb_eq in C6. subst c.
    assert (Q : (forall r r', b = true -> s = 123 :: r -> blank_line r = Some r' -> False) -> scans INITIAL b (37 :: s) (Err (E_exit 1))).
    { intros NO. apply quit; [reflexivity|]. intros j r' c' y' J H W B M (z & Z & EO). assert (J' : In j [41; 43]%nat) by exact J. destruct J' as [<-|[<-|[]]]; [|reflexivity]. exfalso. cbn in H. inv H.
      cbn [pat bol] in *. apply brace_matches in M. destruct M as (v & V & M). rewrite M in Z. change (bs "%{") with [37; 123] in Z. cbn [app] in Z. rewrite <- app_assoc in Z. cbn [app] in Z. inv Z.
      apply (NO (v ++ 10 :: z) z (B eq_refl) eq_refl). apply blank_line_iff. eauto. }
    destruct b; [|apply Q; discriminate]. destruct s as [|d s]; [apply Q; discriminate|]. destruct (N.eq_dec d 123) as [-> |NE].
    - destruct (blank_line s) as [r'|] eqn:BL; [|apply Q; intros r r' _ X; inv X; congruence]. apply blank_line_iff in BL. destruct BL as (v & V & ->).
      eapply (take INITIAL true _ (37 :: 123 :: v ++ [10]) r' (Rule INITIAL true (Then (AnyOf [bs "%{"]) (Then (Many space) (AnyOf [[10]]))) false (Do (Some PASSTHRU) None)));
        [cbn [app]; now rewrite <- app_assoc|discriminate| |reflexivity| |reflexivity].
      + apply (other _ _ _ _ 41); [reflexivity| |discriminate|].
        * split; [reflexivity|]. split; [reflexivity|]. split; [apply brace_matches; now exists v|]. exists r'. split; [cbn [app]; now rewrite <- app_assoc|discriminate].
        * intros j q c' y' J H W B M (z & Z & _). assert (J' : In j [41; 43]%nat) by exact J. destruct J' as [<-|[<-|[]]]; cbn in H; inv H.
          -- cbn [pat] in M. apply brace_matches in M. destruct M as (v' & V' & M). rewrite M in *. change (bs "%{") with [37; 123] in *. cbn [app] in Z. rewrite <- app_assoc in Z. cbn [app] in Z. inv Z.
             assert (X : take_while space (v ++ 10 :: r') = take_while space (v' ++ 10 :: z)) by now rewrite H0. rewrite !tw_exact in X by (assumption || reflexivity). inv X. right. split; [reflexivity|lia].
          -- destruct M as (d & M & _). rewrite M. left. unfold weight. cbn [eol length]. lia.
      + change (37 :: 123 :: v ++ [10]) with ((37 :: 123 :: v) ++ [10]). rewrite last_snoc. apply IH; [|tauto]. cbn [length] in L. rewrite app_length in L. cbn [length] in L. lia.
    - assert (G : scans INITIAL true (37 :: d :: s) (Err (E_exit 1))) by (apply Q; intros r r' _ X; inv X; congruence). lit d G NE. }
  destruct (find (fun m => fst m =? c) marks) as [m|] eqn:FM.
  - pose proof (find_some _ _ FM) as (MI & MC). apply N.eqb_eq in MC. subst c. pose proof marks_rules as MR. rewrite Forall_forall in MR. destruct (MR _ MI) as (i & NI & SH).
    rewrite given. eapply (take_short INITIAL b (fst m) s i [fst m] s (mark_rule m)); try reflexivity; try discriminate; [exact NI|now left|exact SH|].
    change (last [fst m] 0) with (fst m). rewrite C1. apply IH; [exact L|tauto].
  - apply quit; [exact D|]. intros j r' c' y' J H W B M Z. assert (K : known c = false).
    { unfold known. rewrite NC, SP. unfold one_of. cbn [orb existsb]. rewrite C1, C2, C3, C4, C5, C6. cbn [orb]. apply not_true_iff_false. intros X. apply existsb_exists in X. destruct X as (m & MI & MC). pose proof (find_none _ _ FM m MI) as NN. cbv beta in NN. congruence. }
    pose proof (unknown_possible c K) as P. rewrite forallb_forall in P. specialize (P _ J). apply Nat.eqb_eq in P. now symmetry.
Qed.
Lemma lex_scans : forall f, claim f.
Proof.
  induction f as [|f IH]; intros st b b' s L ST.
  - destruct s as [|c s]; [apply sc_end|cbn [length] in L; lia].
  - destruct s as [|c s]; [apply sc_end|]. cbn [length] in L. destruct st.
    + destruct ST as [ST|[ST| ->]]; try discriminate. apply step_initial; [exact IH|lia].
    + destruct ST as [ST|[ST| ->]]; try discriminate. apply step_passthru; [exact IH|lia].
    + apply step_str; [exact IH|lia].
    + apply step_class; [exact IH|lia].
Qed.
Theorem scan_iff text o : scans INITIAL true text o <-> tokens_of text = o.
Proof.
  assert (G : scans INITIAL true text (tokens_of text)) by (apply lex_scans; [apply le_n|tauto]).
  split; [|now intros <-]. intros H. exact (scans_one _ _ _ _ G _ H).
Qed.
Lemma scans_kind st b s o : scans st b s o -> (exists ts, o = Ok ts) \/ o = Err (E_exit 1).
Proof. induction 1 as [st b|st b s r y N C A|st b y z r bg gv o N C A S IH|st b c s o N S IH]; eauto. destruct IH as [(ts & ->)| ->]; destruct gv; cbn [option_map prepend]; eauto. Qed.
Theorem scan_total text : (exists ts, tokens_of text = Ok ts) \/ tokens_of text = Err (E_exit 1).
Proof. apply (scans_kind INITIAL true text). now apply scan_iff. Qed.

(* an example: text to pass through, a comment, keywords and names, marks, classes with escapes, strings *)
Definition ex_text : bytes :=
  bs "%{  " ++ [10] ++ bs "#include <x>" ++ [10] ++ bs "%}" ++ [10] ++ bs "Block states_1 { # comment" ++ [10] ++ bs "State a->[^\n\x4A-\112^A\q]~[x]->b,c=" ++ [34] ++ bs "two words" ++ [34] ++ bs "Statex".
Definition ex_scanned : list token :=
  [BLOCK; STRING (bs "states_1"); LBRACE; STATE; STRING (bs "a"); ARROW; LSQUARE_CARET; CHAR 10; CHAR 74; HYPHEN; CHAR 74; CHAR 1; CHAR 92; CHAR 113; RSQUARE; NOT; LSQUARE; CHAR 120; RSQUARE; ARROW; STRING (bs "b"); COMMA; STRING (bs "c");
   EQUAL; STRING (bs "two words"); STRING (bs "Statex")].
Lemma ex_scans : scans INITIAL true ex_text (Ok ex_scanned).
Proof. apply scan_iff. vm_compute. reflexivity. Qed.
Lemma ex_refused : scans INITIAL true (bs "a # b") (Err (E_exit 1)).
Proof. apply scan_iff. vm_compute. reflexivity. Qed.
