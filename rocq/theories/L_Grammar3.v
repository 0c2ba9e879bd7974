(* What the parser of scanner descriptions does not accept ends the program with code 1; it never runs out of fuel. *)
From Verif Require Import Base M_Charclass M_Dfasyn M_Scan M_Parse S_Grammar L_Grammar L_Grammar2.

Definition refusal {A : Type} (x : res A) : Prop := forall e, x = Err e -> e = E_exit 1.
Lemma ref_ok {A : Type} (a : A) : refusal (Ok a).
Proof. intros e H; discriminate. Qed.
Lemma ref_err {A : Type} : @refusal (A * list token) syntax_error.
Proof. intros e H. now inv H. Qed.
Lemma ref_bind {A B : Type} (x : res (A * list token)) (f : A * list token -> res B) : refusal x -> (forall a r, x = Ok (a, r) -> refusal (f (a, r))) -> refusal (bind x f).
Proof. intros X F e H. destruct x as [(a, r)|e']; cbn [bind] in H; [exact (F a r eq_refl e H)|]. inv H. now apply X. Qed.
Lemma took_len {A : Type} (R : A -> list token -> Prop) ts x r : took R ts x r -> length r <= length ts.
Proof. intros (u & -> & _). rewrite app_length. lia. Qed.
Ltac ref := repeat first [apply ref_ok|apply ref_err|apply ref_bind; [|intros ? ? ?; cbv beta iota]].

Lemma body_ref : forall n ts, length ts <= n -> refusal (cc_body ts).
Proof.
  induction n as [|n IH]; intros ts L; destruct (body_cases ts) as [(c & d & r0 & -> & D)|[(c & r0 & -> & _ & D)|[(r0 & -> & D)|(D & _)]]]; rewrite D; cbn [length] in L; try lia; ref; apply IH; lia.
Qed.
Lemma brackets_ref ts : refusal (simple_char_class ts).
Proof.
  destruct ts as [|t ts]; [apply ref_err|]. destruct t; try apply ref_err; cbn [simple_char_class]; (apply ref_bind; [exact (body_ref _ _ (le_n _))|]); intros a r _; destruct a; ref.
Qed.
Lemma class_ref ts : refusal (char_class_ ts).
Proof.
  assert (G : refusal (let! (s, r) := simple_char_class ts in match r with NOT :: r' => let! (t, r'') := simple_char_class r' in Ok (Cc_diff s t, r'') | _ => Ok (Cc_simple s, r) end)).
  { apply ref_bind; [apply brackets_ref|]. intros a r _. destruct r as [|t r]; [apply ref_ok|]. destruct t; try apply ref_ok. ref. apply brackets_ref. }
  destruct ts as [|t ts]; [apply ref_err|]. destruct t; try exact G. cbn [char_class_]. ref. apply brackets_ref.
Qed.
Lemma stimulus_ref ts : refusal (stimulus_ ts).
Proof.
  assert (G : refusal (let! (k, r) := char_class_ ts in Ok (X_class k, r))) by (ref; apply class_ref).
  destruct ts as [|t ts]; [apply ref_ok|]. destruct t; try apply ref_ok; try exact G. cbn [stimulus_].
  do 6 (destruct ts as [|t ts]; [apply ref_err|]; destruct t; try apply ref_err). apply ref_ok.
Qed.
Lemma choice_ref : forall f ts, length ts < f -> refusal (stimulus_seq f ts).
Proof.
  induction f as [|f IH]; intros ts L; [lia|]. cbn [stimulus_seq]. apply ref_bind; [apply stimulus_ref|]. intros a r E. apply stimulus_sound, took_len in E.
  destruct r as [|t r]; [apply ref_ok|]. destruct t; try apply ref_ok. ref. apply IH. cbn [length] in E. lia.
Qed.
Lemma choices_ref : forall f ts, length ts < f -> refusal (transition_seq f ts).
Proof.
  induction f as [|f IH]; intros ts L; [lia|]. cbn [transition_seq]. apply ref_bind; [now apply choice_ref|]. intros a r E. apply choice_sound, took_len in E.
  destruct r as [|t r]; [apply ref_ok|]. destruct t; try apply ref_ok. ref. apply IH. cbn [length] in E. lia.
Qed.
Lemma names_ref : forall n ts, length ts <= n -> refusal (name_seq ts).
Proof.
  induction n as [|n IH]; intros ts L; rewrite names_eq; (destruct ts as [|t ts]; [apply ref_err|]); cbn [length] in L; [lia|].
  destruct t; try apply ref_err. destruct ts as [|t ts]; [apply ref_ok|]. destruct t; try apply ref_ok. ref. apply IH. cbn [length] in L. lia.
Qed.
Lemma line_ref f ts : length ts < f -> refusal (transition_decl f ts).
Proof.
  intros L. unfold transition_decl. apply ref_bind; [now apply choices_ref|]. intros a r _. destruct r as [|t r]; [apply ref_err|]. destruct t; try apply ref_err; ref; exact (names_ref _ _ (le_n _)).
Qed.
Lemma line_less f ts x r : transition_decl f ts = Ok (x, r) -> length r < length ts.
Proof. intros H. apply line_sound in H. destruct H as (u & -> & U). apply line_start in U. destruct U as (t & u' & -> & _). rewrite app_length. cbn [length]. lia. Qed.
Lemma lines_ref : forall f ts, length ts < f -> refusal (sdecl_seq f ts).
Proof.
  induction f as [|f IH]; intros ts L; [lia|]. cbn [sdecl_seq].
  assert (G : refusal (let! (x, r) := transition_decl (S f) ts in let! (l, r') := sdecl_seq f r in Ok (x :: l, r'))).
  { apply ref_bind; [now apply line_ref|]. intros a r E. apply line_less in E. ref. apply IH. lia. }
  destruct ts as [|t ts]; [exact G|]. destruct t; first [exact G|apply ref_ok].
Qed.
Lemma states_ref : forall f ts, length ts < f -> refusal (state_decl_seq f ts).
Proof.
  induction f as [|f IH]; intros ts L; [lia|]. cbn [state_decl_seq].
  assert (G : forall q g, length q < length ts -> refusal (let! (ls, r') := sdecl_seq (S f) q in let! (l, r'') := state_decl_seq f r' in Ok (g ls :: l, r''))).
  { intros q g Q. apply ref_bind; [apply lines_ref; lia|]. intros a r E. apply lines_sound, took_len in E. ref. apply IH. lia. }
  destruct ts as [|t ts]; [apply ref_err|]. destruct t; try apply ref_err; try apply ref_ok.
  destruct ts as [|t ts]; [apply ref_err|]. destruct t; try apply ref_err. cbn [length] in *.
  destruct ts as [|t ts]; [exact (G [] (Sdecl s None) ltac:(cbn [length]; lia))|].
  destruct t; try exact (G (_ :: ts) (Sdecl s None) ltac:(cbn [length]; lia)).
  destruct ts as [|t ts]; [exact (G [_] (Sdecl s None) ltac:(cbn [length]; lia))|].
  destruct t; try exact (G (_ :: _ :: ts) (Sdecl s None) ltac:(cbn [length]; lia)).
  exact (G ts (Sdecl s (Some s0)) ltac:(cbn [length]; lia)).
Qed.
Lemma more_ref l next n : (forall r, length r < n -> refusal (next r)) -> (forall r b r', next r = Ok (b, r') -> length r' <= length r) ->
  forall k acc, refusal acc -> (forall a r, acc = Ok (a, r) -> length r < k /\ length r <= n) -> 0 < k -> refusal (more_ l next k acc).
Proof.
  intros NX NL. induction k as [|k IH]; intros acc A B K; [lia|]. cbn [more_]. apply ref_bind; [exact A|]. intros a r E. apply B in E. clear A B.
  destruct r as [|t r]; [apply ref_ok|]. destruct (op_of l t) as [op|]; [|apply ref_ok]. cbn [length] in E. apply IH; [|intros a' r' G|lia].
  - ref. apply NX. lia.
  - step G. inv G. apply NL in E0. lia.
Qed.
Lemma expr_ref : forall f l ts, l <= 4 -> 5 * length ts + (4 - l) < f -> refusal (expr_ f l ts).
Proof.
  induction f as [|f IH]; intros l ts L B; [lia|].
  assert (M : 0 < l < 4 -> refusal (expr_ (S f) l ts)).
  { intros M. rewrite expr_mid by exact M. apply (more_ref _ _ (length ts)).
    - intros r R. apply IH; lia.
    - intros r b r' E. apply expr_sound in E; [|lia]. now apply took_len in E.
    - apply IH; lia.
    - intros a r E. apply expr_sound in E; [|lia]. apply took_len in E. lia.
    - lia. }
  destruct l as [|[|[|[|[|l]]]]]; try (apply M; lia); try lia; clear M; cbn [expr_].
  - apply ref_bind; [apply IH; lia|]. intros a r E. apply expr_sound in E; [|lia]. apply took_len in E. destruct r as [|t r]; [apply ref_ok|]. destruct t; try apply ref_ok. cbn [length] in E.
    apply ref_bind; [apply IH; lia|]. intros b r' E'. apply expr_sound in E'; [|lia]. apply took_len in E'. destruct r' as [|t r']; [apply ref_err|]. destruct t; try apply ref_err. cbn [length] in E'.
    ref. apply IH; lia.
  - destruct ts as [|t ts]; [apply ref_err|]. destruct t; try apply ref_err; try apply ref_ok; cbn [length] in B.
    + ref. apply IH; lia.
    + apply ref_bind; [apply IH; lia|]. intros a r _. destruct r as [|t r]; [apply ref_err|]. destruct t; first [apply ref_err|apply ref_ok].
Qed.
Transparent expr_of.
Lemma expr_of_ref ts : refusal (expr_of ts).
Proof. apply expr_ref; lia. Qed.
Opaque expr_of.
Lemma rest_ref early ts : refusal (attr_rest early ts).
Proof. destruct (rest_cases early ts) as [(n & r' & -> & D)|D]; rewrite D; ref; [apply expr_of_ref|exact (names_ref _ _ (le_n _))]. Qed.
Lemma attr_ref ts : refusal (attr_decl_ ts).
Proof.
  destruct ts as [|t ts]; [apply ref_err|]. destruct t; try apply ref_err.
  - destruct ts as [|t ts]; [apply ref_err|]. destruct t; first [apply ref_err|apply ref_ok].
  - exact (rest_ref false ts).
  - destruct ts as [|t ts]; [apply ref_err|]. destruct t; first [apply ref_err|exact (rest_ref true ts)].
  - destruct ts as [|t ts]; [apply ref_err|]. destruct t; first [apply ref_err|apply ref_ok].
Qed.
Lemma attr_less ts x r : attr_decl_ ts = Ok (x, r) -> length r < length ts.
Proof. intros H. apply attr_sound in H. destruct H as (u & -> & U). apply attr_start in U. destruct U as (t & u' & -> & _). rewrite app_length. cbn [length]. lia. Qed.
Lemma attrs_ref : forall f ts, length ts < f -> refusal (attr_decl_seq f ts).
Proof.
  induction f as [|f IH]; intros ts L; [lia|]. cbn [attr_decl_seq].
  assert (G : refusal (let! (x, r) := attr_decl_ ts in let! (l, r') := attr_decl_seq f r in Ok (x :: l, r'))).
  { apply ref_bind; [apply attr_ref|]. intros a r E. apply attr_less in E. ref. apply IH. lia. }
  destruct ts as [|t ts]; [exact G|]. destruct t; first [exact G|apply ref_ok].
Qed.
Lemma decl_ref f ts : length ts < f -> refusal (decl_ f ts).
Proof.
  intros L. assert (G : refusal (let! (a, r) := attr_decl_ ts in Ok (D_attr a, r))) by (ref; apply attr_ref).
  destruct ts as [|t ts]; [apply ref_err|]. destruct t; try apply ref_err; try exact G; clear G; cbn [decl_ length] in *.
  - do 2 (destruct ts as [|t ts]; [apply ref_err|]; destruct t; try apply ref_err). cbn [length] in L. ref. apply choice_ref. lia.
  - destruct (token_seq ts) as ([|y l], r'); ref.
  - do 1 (destruct ts as [|t ts]; [apply ref_err|]; destruct t; try apply ref_err). apply ref_ok.
  - do 2 (destruct ts as [|t ts]; [apply ref_err|]; destruct t; try apply ref_err). cbn [length] in L. destruct (instance_decl_seq ts) as (is_, r') eqn:E. apply (instances_sound _ _ _ _ (le_n _)) in E.
    apply took_len in E. ref. apply states_ref. lia.
  - do 2 (destruct ts as [|t ts]; [apply ref_err|]; destruct t; try apply ref_err). apply ref_ok.
  - do 2 (destruct ts as [|t ts]; [apply ref_err|]; destruct t; try apply ref_err). ref. apply expr_of_ref.
  - do 2 (destruct ts as [|t ts]; [apply ref_err|]; destruct t; try apply ref_err). cbn [length] in L. ref. apply attrs_ref. lia.
Qed.
Lemma decls_ref : forall f ts, length ts <= f -> refusal (decl_seq f ts).
Proof.
  induction f as [|f IH]; intros ts L; (destruct ts as [|t ts]; [apply ref_ok|]); [cbn [length] in L; lia|]. cbn [decl_seq]. apply ref_bind; [apply decl_ref; lia|].
  intros a r E. apply decl_sound in E. destruct E as (u & E & U). apply decl_start in U. destruct U as (t' & u' & -> & _). apply (f_equal (@length token)) in E. rewrite app_length in E. cbn [length] in *.
  intros e H. destruct (decl_seq f r) as [l|e'] eqn:E2; cbn [bind] in H; [discriminate|]. inv H. apply (IH r ltac:(lia) _ E2).
Qed.
Theorem parse_refusal ts e : parse ts = Err e -> e = E_exit 1.
Proof. exact (decls_ref _ _ (le_n _) e). Qed.
Theorem parse_iff ts ds : parse ts = Ok ds <-> description ds ts.
Proof. split; [apply parse_sound|apply parse_complete]. Qed.
Theorem parse_no ts : (forall ds, ~ description ds ts) -> parse ts = Err (E_exit 1).
Proof. intros H. destruct (parse ts) as [ds|e] eqn:E; [now apply parse_sound, H in E|now rewrite (parse_refusal _ _ E)]. Qed.
Theorem parse_one ts ds ds' : description ds ts -> description ds' ts -> ds = ds'.
Proof. intros A B. apply parse_complete in A, B. congruence. Qed.

(* an example: a block with an instance, a difference of classes, an empty stimulus and tags; an expression with every operator *)
Definition ex_tokens : list token :=
  [BLOCK; STRING (bs "main"); LBRACE; STRING (bs "i"); COLON; STRING (bs "other"); STATE; STRING (bs "in"); ENTRY; STRING (bs "go");
   LSQUARE; CHAR 97; HYPHEN; CHAR 122; RSQUARE; NOT; LSQUARE_CARET; CHAR 120; RSQUARE; PIPE; SEMICOLON; STRING (bs "T"); ARROW; STRING (bs "in"); COMMA; STRING (bs "i.in");
   EQUAL; STRING (bs "DONE"); RBRACE;
   TAG; STRING (bs "t"); EQUAL; STRING (bs "a"); PIPE; STRING (bs "b"); PIPE; NOT; STRING (bs "c"); AND; STRING (bs "d"); XOR; STRING (bs "e"); QUERY; STRING (bs "f"); COLON; STRING (bs "g"); QUERY; STRING (bs "h"); COLON; STRING (bs "k")].
Definition ex_decls : list decl :=
  [D_block (Bdecl (bs "main") [(bs "i", bs "other")]
     [Sdecl (bs "in") (Some (bs "go"))
        [Line [[X_class (Cc_diff {| caret := false; body := [Cc_range 97 122] |} {| caret := true; body := [Cc_char 120] |}); X_empty]; [X_name (bs "T")]] (To [bs "in"; bs "i.in"]);
         Line [[X_empty]] (Marked [bs "DONE"])]]);
   D_tag (bs "t") (E_COND (E_OR (E_OR (E_TAG (bs "a")) (E_TAG (bs "b"))) (E_XOR (E_AND (E_NOT (E_TAG (bs "c"))) (E_TAG (bs "d"))) (E_TAG (bs "e")))) (E_TAG (bs "f"))
                     (E_COND (E_TAG (bs "g")) (E_TAG (bs "h")) (E_TAG (bs "k"))))].
Transparent expr_of.
Lemma ex_description : description ex_decls ex_tokens.
Proof. apply parse_sound. vm_compute. reflexivity. Qed.
Lemma ex_not_description : forall ds, ~ description ds [TAG; STRING (bs "t"); EQUAL; STRING (bs "a"); QUERY; STRING (bs "b")].
Proof. intros ds H. apply parse_complete in H. vm_compute in H. discriminate. Qed.
