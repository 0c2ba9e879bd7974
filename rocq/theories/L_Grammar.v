(* The parser of scanner descriptions accepts nothing but what the grammar allows. *)
From Verif Require Import Base M_Charclass M_Dfasyn M_Scan M_Parse S_Grammar.

Definition took {A : Type} (R : A -> list token -> Prop) (ts : list token) (x : A) (r : list token) : Prop := exists u, ts = u ++ r /\ R x u.

Ltac inv H := inversion H; subst; clear H.

Lemma bind_ok {A B : Type} (x : res A) (f : A -> res B) b : bind x f = Ok b -> exists a, x = Ok a /\ f a = Ok b.
Proof. destruct x as [a|e]; cbn [bind]; [eauto|discriminate]. Qed.
Lemma bindp_ok {A B C : Type} (x : res (A * B)) (f : A * B -> res C) b : bind x f = Ok b -> exists a c, x = Ok (a, c) /\ f (a, c) = Ok b.
Proof. destruct x as [[a c]|e]; cbn [bind]; [eauto|discriminate]. Qed.

Ltac step H := let x := fresh "x" in let r := fresh "r" in let E := fresh "E" in apply bindp_ok in H; destruct H as (x & r & E & H); cbv beta iota in H.

Lemma body_cases ts :
  (exists c d r, ts = CHAR c :: HYPHEN :: CHAR d :: r /\ cc_body ts = let! (l, r') := cc_body r in Ok (Cc_range (N.to_nat c) (N.to_nat d) :: l, r')) \/
  (exists c r, ts = CHAR c :: r /\ hd RSQUARE r <> HYPHEN /\ cc_body ts = let! (l, r') := cc_body r in Ok (Cc_char (N.to_nat c) :: l, r')) \/
  (exists r, ts = RSQUARE :: r /\ cc_body ts = Ok ([], r)) \/ (cc_body ts = syntax_error /\ forall r, ts <> RSQUARE :: r).
Proof.
  destruct ts as [|t ts]; [right; right; right; split; [reflexivity|discriminate]|]. destruct t; try (right; right; right; split; [reflexivity|discriminate]).
  - right; right; left. eauto.
  - assert (D : hd RSQUARE ts <> HYPHEN \/ exists r, ts = HYPHEN :: r) by (destruct ts as [|[] ts]; (left; discriminate) || (right; eauto)).
    destruct D as [D|(r & ->)].
    + right; left. exists c, ts. split; [reflexivity|]. split; [exact D|]. destruct ts as [|[] ts]; try reflexivity. now cbn [hd] in D.
    + destruct r as [|[] r]; try (right; right; right; split; [reflexivity|discriminate]). left. eauto 10.
Qed.
Lemma body_sound : forall n ts l r, length ts <= n -> cc_body ts = Ok (l, r) -> exists u, ts = u ++ RSQUARE :: r /\ items l u.
Proof.
  induction n as [|n IH]; intros ts l r L H; destruct (body_cases ts) as [(c & d & r0 & -> & D)|[(c & r0 & -> & _ & D)|[(r0 & -> & D)|(D & _)]]]; rewrite D in H; try discriminate; cbn [length] in L; try lia.
  - step H. inv H. destruct (IH r0 _ _ ltac:(lia) E) as (u & -> & U). exists (CHAR c :: HYPHEN :: CHAR d :: u). split; [reflexivity|now constructor].
  - step H. inv H. destruct (IH r0 _ _ ltac:(lia) E) as (u & -> & U). exists (CHAR c :: u). split; [reflexivity|now constructor].
  - inv H. exists []. split; [reflexivity|constructor].
Qed.
Lemma brackets_sound ts s r : simple_char_class ts = Ok (s, r) -> took brackets ts s r.
Proof.
  intros H. destruct ts as [|t ts]; [discriminate|]. destruct t; try discriminate; cbn [simple_char_class] in H; step H; destruct x as [|y x]; try discriminate; inv H;
    destruct (body_sound _ _ _ _ (le_n _) E) as (u & -> & U).
  - exists (LSQUARE :: u ++ [RSQUARE]). split; [cbn [app]; now rewrite <- app_assoc|now constructor].
  - exists (LSQUARE_CARET :: u ++ [RSQUARE]). split; [cbn [app]; now rewrite <- app_assoc|now constructor].
Qed.
Lemma class_sound ts k r : char_class_ ts = Ok (k, r) -> took class_of ts k r.
Proof.
  intros H.
  assert (G : (let! (s, r) := simple_char_class ts in match r with NOT :: r' => let! (t, r'') := simple_char_class r' in Ok (Cc_diff s t, r'') | _ => Ok (Cc_simple s, r) end) = Ok (k, r)
              -> took class_of ts k r).
  { clear H. intros H. step H. apply brackets_sound in E. destruct E as (u & -> & U).
    assert (D : (exists r', r0 = NOT :: r') \/ Ok (Cc_simple x, r0) = Ok (k, r)) by (destruct r0 as [|t r0]; [now right|]; destruct t; (now right) || (left; eauto)).
    destruct D as [(r' & ->)|D].
    - step H. inv H. apply brackets_sound in E. destruct E as (v & -> & V). exists (u ++ NOT :: v). split; [now rewrite <- app_assoc|now constructor].
    - inv D. exists u. split; [reflexivity|now constructor]. }
  destruct ts as [|t ts]; [discriminate|]. destruct t; try (exact (G H)).
  cbn [char_class_] in H. step H. inv H. apply brackets_sound in E. destruct E as (v & -> & V). exists (NOT :: v). split; [reflexivity|now constructor].
Qed.
Lemma stimulus_sound ts x r : stimulus_ ts = Ok (x, r) -> took stimulus_of ts x r.
Proof.
  intros H.
  assert (G0 : Ok (X_empty, ts) = Ok (x, r) -> took stimulus_of ts x r) by (intros G; inv G; exists []; split; [reflexivity|constructor]).
  assert (G1 : (let! (k, r) := char_class_ ts in Ok (X_class k, r)) = Ok (x, r) -> took stimulus_of ts x r).
  { intros G. step G. inv G. apply class_sound in E. destruct E as (u & -> & U). exists u. split; [reflexivity|now constructor]. }
  destruct ts as [|t ts]; [exact (G0 H)|]. destruct t; try exact (G0 H); try exact (G1 H).
  - inv H. exists [STRING s]. split; [reflexivity|constructor].
  - cbn [stimulus_] in H.
    do 6 (destruct ts as [|t ts]; [discriminate|]; destruct t; try discriminate).
    inv H. eexists [_; _; _; _; _; _; _]. split; [reflexivity|constructor].
Qed.
Lemma choice_sound : forall f ts x r, stimulus_seq f ts = Ok (x, r) -> took choice_of ts x r.
Proof.
  induction f as [|f IH]; intros ts x r H; [discriminate|]. cbn [stimulus_seq] in H. step H. apply stimulus_sound in E. destruct E as (u & -> & U).
  assert (D : (exists r', r0 = PIPE :: r') \/ Ok ([x0], r0) = Ok (x, r)) by (destruct r0 as [|t r0]; [now right|]; destruct t; (now right) || (left; eauto)).
  destruct D as [(r' & ->)|D].
  - step H. inv H. apply IH in E. destruct E as (v & -> & V). exists (u ++ PIPE :: v). split; [now rewrite <- app_assoc|now apply se_more].
  - inv D. exists u. split; [reflexivity|now apply se_one].
Qed.
Lemma choices_sound : forall f ts x r, transition_seq f ts = Ok (x, r) -> took choices_of ts x r.
Proof.
  induction f as [|f IH]; intros ts x r H; [discriminate|]. cbn [transition_seq] in H. step H. apply choice_sound in E. destruct E as (u & -> & U).
  assert (D : (exists r', r0 = SEMICOLON :: r') \/ Ok ([x0], r0) = Ok (x, r)) by (destruct r0 as [|t r0]; [now right|]; destruct t; (now right) || (left; eauto)).
  destruct D as [(r' & ->)|D].
  - step H. inv H. apply IH in E. destruct E as (v & -> & V). exists (u ++ SEMICOLON :: v). split; [now rewrite <- app_assoc|now apply se_more].
  - inv D. exists u. split; [reflexivity|now apply se_one].
Qed.
Lemma names_eq ts : name_seq ts = match ts with
  | STRING s :: r => match r with COMMA :: r1 => let! (l, r') := name_seq r1 in Ok (s :: l, r') | _ => Ok ([s], r) end
  | _ => syntax_error end.
Proof. destruct ts as [|[] [|[] ts]]; reflexivity. Qed.
Lemma names_sound : forall n ts x r, length ts <= n -> name_seq ts = Ok (x, r) -> took names_of ts x r.
Proof.
  induction n as [|n IH]; intros ts x r L H; rewrite names_eq in H; (destruct ts as [|t ts]; [discriminate|]); cbn [length] in L; [lia|]. destruct t; try discriminate.
  assert (D : (exists r', ts = COMMA :: r') \/ Ok ([s], ts) = Ok (x, r)) by (destruct ts as [|t r0]; [now right|]; destruct t; (now right) || (left; eauto)).
  destruct D as [(r' & ->)|D].
  - step H. inv H. apply IH in E; [|cbn [length] in L; lia]. destruct E as (v & -> & V). exists ([STRING s] ++ COMMA :: v). split; [reflexivity|apply se_more; [reflexivity|assumption]].
  - inv D. exists [STRING s]. split; [reflexivity|apply se_one; reflexivity].
Qed.
Lemma line_sound f ts x r : transition_decl f ts = Ok (x, r) -> took line_of ts x r.
Proof.
  intros H. unfold transition_decl in H. step H. apply choices_sound in E. destruct E as (u & -> & U).
  destruct r0 as [|t r0]; [discriminate|]. destruct t; try discriminate; step H; inv H; apply (names_sound _ _ _ _ (le_n _)) in E; destruct E as (v & -> & V);
    eexists; (split; [|constructor; eassumption]); now rewrite <- app_assoc.
Qed.
Lemma lines_sound : forall f ts x r, sdecl_seq f ts = Ok (x, r) -> took (in_turn line_of) ts x r.
Proof.
  induction f as [|f IH]; intros ts x r H; [discriminate|]. cbn [sdecl_seq] in H.
  assert (D : (let! (x, r) := transition_decl (S f) ts in let! (l, r') := sdecl_seq f r in Ok (x :: l, r')) = Ok (x, r) \/ Ok ([], ts) = Ok (x, r))
    by (destruct ts as [|t ts]; [now left|]; destruct t; (now left) || (now right)).
  clear H. destruct D as [H|H].
  - step H. step H. inv H. apply line_sound in E. destruct E as (u & -> & U). apply IH in E0. destruct E0 as (v & -> & V).
    exists (u ++ v). split; [now rewrite <- app_assoc|now constructor].
  - inv H. exists []. split; [reflexivity|constructor].
Qed.
Lemma states_sound : forall f ts x r, state_decl_seq f ts = Ok (x, r) -> exists u, ts = u ++ RBRACE :: r /\ in_turn state_of x u.
Proof.
  induction f as [|f IH]; intros ts x r H; [discriminate|]. cbn [state_decl_seq] in H.
  destruct ts as [|t ts]; [discriminate|]. destruct t; try discriminate.
  - destruct ts as [|t ts]; [discriminate|]. destruct t; try discriminate.
    assert (D : (exists e r', ts = ENTRY :: STRING e :: r') \/
                (let! (ls, r') := sdecl_seq (S f) ts in let! (l, r'') := state_decl_seq f r' in Ok (Sdecl s None ls :: l, r'')) = Ok (x, r)).
    { destruct ts as [|t [|t2 ts]]; [now right| |]; (destruct t; try (now right)); destruct t2; (now right) || (left; eauto). }
    destruct D as [(e & r' & ->)|D].
    + step H. step H. inv H. apply lines_sound in E. destruct E as (u & -> & U). apply IH in E0. destruct E0 as (v & -> & V).
      exists ((STATE :: STRING s :: ENTRY :: STRING e :: u) ++ v). split; [cbn [app]; now rewrite <- app_assoc|constructor; [now constructor|assumption]].
    + clear H. rename D into H. step H. step H. inv H. apply lines_sound in E. destruct E as (u & -> & U). apply IH in E0. destruct E0 as (v & -> & V).
      exists ((STATE :: STRING s :: u) ++ v). split; [cbn [app]; now rewrite <- app_assoc|constructor; [now constructor|assumption]].
  - inv H. exists []. split; [reflexivity|constructor].
Qed.
Lemma instances_eq ts : (exists i b r, ts = STRING i :: COLON :: STRING b :: r /\ instance_decl_seq ts = let (l, r') := instance_decl_seq r in ((i, b) :: l, r')) \/ instance_decl_seq ts = ([], ts).
Proof.
  destruct ts as [|t ts]; [now right|]; destruct t; try (right; reflexivity). destruct ts as [|t ts]; [now right|]; destruct t; try (right; reflexivity).
  destruct ts as [|t ts]; [now right|]; destruct t; try (right; reflexivity). left. eauto 10.
Qed.
Lemma instances_sound : forall n ts x r, length ts <= n -> instance_decl_seq ts = (x, r) -> took (in_turn instance_of) ts x r.
Proof.
  induction n as [|n IH]; intros ts x r L H; (destruct (instances_eq ts) as [(i & b & r' & -> & D)|D]; rewrite D in H; [|inv H; exists []; split; [reflexivity|constructor]]); cbn [length] in L; [lia|].
  destruct (instance_decl_seq r') as (l, r'') eqn:E. inv H. apply IH in E; [|lia]. destruct E as (v & -> & V).
  exists ([STRING i; COLON; STRING b] ++ v). split; [reflexivity|constructor; [reflexivity|assumption]].
Qed.
Lemma tokens_sound : forall ts x r, token_seq ts = (x, r) -> took (in_turn name_of) ts x r.
Proof.
  induction ts as [|t ts IH]; intros x r H; [inv H; exists []; split; [reflexivity|constructor]|].
  destruct t; try (inv H; exists []; split; [reflexivity|constructor]).
  cbn [token_seq] in H. destruct (token_seq ts) as (l, r'). inv H. destruct (IH _ _ eq_refl) as (v & -> & V).
  exists ([STRING s] ++ v). split; [reflexivity|constructor; [reflexivity|assumption]].
Qed.

(* expressions *)
Definition more_ (lvl : nat) (next : list token -> P expr) := fix more (k : nat) (acc : P expr) : P expr :=
  match k with
  | O => Err E_fuel
  | S k' =>
    let! (a, r) := acc in
    match r with
    | t :: r' => match op_of lvl t with Some op => more k' (let! (b, r'') := next r' in Ok (op a b, r'')) | None => Ok (a, r) end
    | [] => Ok (a, r)
    end
  end.
Lemma expr_mid f lvl ts : 0 < lvl < 4 -> expr_ (S f) lvl ts = more_ lvl (expr_ f (S lvl)) (S f) (expr_ f (S lvl) ts).
Proof. intros L. destruct lvl as [|[|[|[|lvl]]]]; try lia; reflexivity. Qed.
Lemma ex_binary lvl t op a u b v : op_of lvl t = Some op -> expr_of_level lvl a u -> expr_of_level (S lvl) b v -> expr_of_level lvl (op a b) (u ++ t :: v).
Proof. intros O A B. destruct lvl as [|[|[|[|lvl]]]]; destruct t; try discriminate; inv O; now constructor. Qed.
Lemma more_sound lvl next ts : (forall r b r'', next r = Ok (b, r'') -> took (expr_of_level (S lvl)) r b r'') ->
  forall k acc e r, (forall a r0, acc = Ok (a, r0) -> took (expr_of_level lvl) ts a r0) -> more_ lvl next k acc = Ok (e, r) -> took (expr_of_level lvl) ts e r.
Proof.
  intros NX. induction k as [|k IH]; intros acc e r A H; [discriminate|]. cbn [more_] in H. step H. subst acc. specialize (A _ _ eq_refl).
  destruct r0 as [|t r0]; [now inv H|]. destruct (op_of lvl t) as [op|] eqn:O; [|now inv H].
  apply IH in H; [exact H|]. intros a r1 G. step G. inv G. apply NX in E. destruct E as (v & -> & V). destruct A as (u & -> & U).
  exists (u ++ t :: v). split; [now rewrite <- app_assoc|eapply ex_binary; eassumption].
Qed.
Lemma expr_sound : forall f lvl ts e r, lvl <= 4 -> expr_ f lvl ts = Ok (e, r) -> took (expr_of_level lvl) ts e r.
Proof.
  induction f as [|f IH]; intros lvl ts e r L H; [discriminate|].
  assert (M : 0 < lvl < 4 -> took (expr_of_level lvl) ts e r).
  { intros M. rewrite expr_mid in H by exact M. revert H. apply more_sound.
    - intros; apply IH; [lia|assumption].
    - intros a r0 A. apply IH in A; [|lia]. destruct A as (u & -> & U). exists u. split; [reflexivity|apply ex_up; [lia|assumption]]. }
  destruct lvl as [|[|[|[|[|lvl]]]]]; try (apply M; lia); try lia; clear M.
  - cbn [expr_] in H. step H. apply IH in E; [|lia]. destruct E as (u & -> & U).
    assert (D : (exists r', r0 = QUERY :: r') \/ Ok (x, r0) = Ok (e, r)) by (destruct r0 as [|t r0]; [now right|]; destruct t; (now right) || (left; eauto)).
    destruct D as [(r' & ->)|D]; [|inv D; exists u; split; [reflexivity|apply ex_up; [lia|assumption]]].
    step H. apply IH in E; [|lia]. destruct E as (v & -> & V). destruct r0 as [|t r0]; [discriminate|]. destruct t; try discriminate.
    step H. inv H. apply IH in E; [|lia]. destruct E as (w & -> & W). exists (u ++ QUERY :: v ++ COLON :: w).
    split; [|now constructor]. rewrite <- app_assoc. cbn [app]. now rewrite <- app_assoc.
  - cbn [expr_] in H. destruct ts as [|t ts]; [discriminate|]. destruct t; try discriminate.
    + inv H. exists [STRING s]. split; [reflexivity|constructor].
    + step H. inv H. apply IH in E; [|lia]. destruct E as (u & -> & U). exists (NOT :: u). split; [reflexivity|now constructor].
    + step H. apply IH in E; [|lia]. destruct E as (u & -> & U). destruct r0 as [|t r0]; [discriminate|]. destruct t; try discriminate. inv H.
      exists (LPAREN :: u ++ [RPAREN]). split; [cbn [app]; now rewrite <- app_assoc|now constructor].
Qed.
Lemma expr_of_sound ts e r : expr_of ts = Ok (e, r) -> took (expr_of_level 0) ts e r.
Proof. exact (expr_sound _ 0 ts e r (Nat.le_0_l 4)). Qed.
Opaque expr_of.
Definition attr_rest (early : bool) (r : list token) : P attr_decl :=
    match r with
    | STRING n :: COLON :: r' => let! (e, r'') := expr_of r' in Ok (A_expr early n e, r'')
    | _ => let! (l, r') := name_seq r in Ok (A_attrs early l, r')
    end.
Lemma rest_cases early ts : (exists n r', ts = STRING n :: COLON :: r' /\ attr_rest early ts = let! (e, r'') := expr_of r' in Ok (A_expr early n e, r'')) \/
  attr_rest early ts = let! (l, r') := name_seq ts in Ok (A_attrs early l, r').
Proof.
  destruct ts as [|t ts]; [now right|]; destruct t; try (right; reflexivity). destruct ts as [|t ts]; [now right|]; destruct t; try (right; reflexivity). left. eauto.
Qed.
Lemma rest_sound early ts a r : attr_rest early ts = Ok (a, r) -> took attr_of (attr_word early ++ ts) a r.
Proof.
  intros H. destruct (rest_cases early ts) as [(n & r' & -> & D)|D]; rewrite D in H; clear D.
  - step H. inv H. apply expr_of_sound in E. destruct E as (u & -> & U).
    exists (attr_word early ++ STRING n :: COLON :: u). split; [now rewrite <- app_assoc|now constructor].
  - step H. inv H. apply (names_sound _ _ _ _ (le_n _)) in E. destruct E as (v & -> & V). exists (attr_word early ++ v). split; [now rewrite <- app_assoc|now constructor].
Qed.
Lemma attr_sound ts a r : attr_decl_ ts = Ok (a, r) -> took attr_of ts a r.
Proof.
  intros H. destruct ts as [|t ts]; [discriminate|]. destruct t; try discriminate.
  - destruct ts as [|t ts]; [discriminate|]. destruct t; try discriminate. inv H. eexists [_; _]. split; [reflexivity|constructor].
  - exact (rest_sound false ts a r H).
  - destruct ts as [|t ts]; [discriminate|]. destruct t; try discriminate. exact (rest_sound true ts a r H).
  - destruct ts as [|t ts]; [discriminate|]. destruct t; try discriminate. inv H. eexists [_; _]. split; [reflexivity|constructor].
Qed.
Lemma attrs_sound : forall f ts x r, attr_decl_seq f ts = Ok (x, r) -> exists u, ts = u ++ RBRACE :: r /\ in_turn attr_of x u.
Proof.
  induction f as [|f IH]; intros ts x r H; [discriminate|]. cbn [attr_decl_seq] in H.
  assert (D : (let! (a, r) := attr_decl_ ts in let! (l, r') := attr_decl_seq f r in Ok (a :: l, r')) = Ok (x, r) \/ (ts = RBRACE :: r /\ x = [])).
  { destruct ts as [|t ts]; [now left|]; destruct t; (now left) || (right; now inv H). }
  clear H. destruct D as [H|(-> & ->)].
  - step H. step H. inv H. apply attr_sound in E. destruct E as (u & -> & U). apply IH in E0. destruct E0 as (v & -> & V).
    exists (u ++ v). split; [now rewrite <- app_assoc|now constructor].
  - exists []. split; [reflexivity|constructor].
Qed.
Lemma decl_sound f ts d r : decl_ f ts = Ok (d, r) -> took decl_of ts d r.
Proof.
  intros H.
  assert (G : (let! (a, r) := attr_decl_ ts in Ok (D_attr a, r)) = Ok (d, r) -> took decl_of ts d r).
  { clear H. intros H. step H. inv H. apply attr_sound in E. destruct E as (u & -> & U). exists u. split; [reflexivity|now constructor]. }
  destruct ts as [|t ts]; [discriminate|]. destruct t; try discriminate; try exact (G H); clear G; cbn [decl_] in H.
  - (* ABBREV *) do 2 (destruct ts as [|t ts]; [discriminate|]; destruct t; try discriminate). step H. inv H. apply choice_sound in E. destruct E as (u & -> & U).
    exists (ABBREV :: STRING s :: EQUAL :: u). split; [reflexivity|now constructor].
  - (* TOKENS *) destruct (token_seq ts) as (l, r') eqn:E. apply tokens_sound in E. destruct E as (u & -> & U). destruct l as [|y l]; [discriminate|]. inv H.
    exists (TOKENS :: u). split; [reflexivity|now constructor].
  - do 1 (destruct ts as [|t ts]; [discriminate|]; destruct t; try discriminate). inv H. eexists [_; _]. split; [reflexivity|constructor].
  - do 2 (destruct ts as [|t ts]; [discriminate|]; destruct t; try discriminate). destruct (instance_decl_seq ts) as (is_, r') eqn:E. apply (instances_sound _ _ _ _ (le_n _)) in E. destruct E as (u & -> & U).
    step H. inv H. apply states_sound in E. destruct E as (v & -> & V). exists (BLOCK :: STRING s :: LBRACE :: u ++ v ++ [RBRACE]).
    split; [cbn [app]; now rewrite <- !app_assoc|now constructor].
  - do 2 (destruct ts as [|t ts]; [discriminate|]; destruct t; try discriminate). inv H. eexists [_; _; _]. split; [reflexivity|constructor].
  - do 2 (destruct ts as [|t ts]; [discriminate|]; destruct t; try discriminate). step H. inv H. apply expr_of_sound in E. destruct E as (u & -> & U).
    exists (TAG :: STRING s :: EQUAL :: u). split; [reflexivity|now constructor].
  - do 2 (destruct ts as [|t ts]; [discriminate|]; destruct t; try discriminate). step H. inv H. apply attrs_sound in E. destruct E as (u & -> & U).
    exists (GROUP :: STRING s :: LBRACE :: u ++ [RBRACE]). split; [cbn [app]; now rewrite <- app_assoc|now constructor].
Qed.
Lemma decls_sound : forall f ts ds, decl_seq f ts = Ok ds -> description ds ts.
Proof.
  induction f as [|f IH]; intros ts ds H; (destruct ts as [|t ts]; [inv H; constructor|]); [discriminate|]. cbn [decl_seq] in H. step H.
  apply bind_ok in H. destruct H as (l & E1 & H). inv H. apply decl_sound in E. destruct E as (u & E2 & U). rewrite E2. constructor; [exact U|now apply IH].
Qed.
Theorem parse_sound ts ds : parse ts = Ok ds -> description ds ts.
Proof. apply decls_sound. Qed.
