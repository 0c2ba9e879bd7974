(* The parser of scanner descriptions accepts all that the grammar allows. *)
From Verif Require Import Base M_Charclass M_Dfasyn M_Scan M_Parse S_Grammar L_Grammar.

(* what must not come next *)
Definition free (bad : token -> bool) (r : list token) : Prop := match r with t :: _ => bad t = false | [] => True end.
Definition b0 (t : token) : bool := match t with STRING _ | LANGLE | LSQUARE | LSQUARE_CARET | NOT => true | _ => false end.
Definition b1 (t : token) : bool := match t with PIPE => true | _ => b0 t end.
Definition b2 (t : token) : bool := match t with SEMICOLON => true | _ => b1 t end.
Definition comma (t : token) : bool := match t with COMMA => true | _ => false end.
Definition bx (l : nat) (t : token) : bool := match t with QUERY => Nat.leb l 0 | PIPE => Nat.leb l 1 | XOR => Nat.leb l 2 | AND => Nat.leb l 3 | _ => false end.
Definition ends (r : list token) : Prop := match r with STATE :: _ | RBRACE :: _ => True | _ => False end.
Definition closing (t : token) : bool := match t with BLOCK | TOKENS | ABBREV | GROUP | TAG | PREFIX | ENTRYSTRUCT | ATTR | EARLY | DEFATTR | TYPE | RBRACE => true | _ => false end.
Definition closed (r : list token) : Prop := match r with t :: _ => closing t = true | [] => True end.

Lemma body_char c r : hd RSQUARE r <> HYPHEN -> cc_body (CHAR c :: r) = let! (l, r') := cc_body r in Ok (Cc_char (N.to_nat c) :: l, r').
Proof. intros H. destruct r as [|t r]; [reflexivity|]. destruct t; try reflexivity. now cbn [hd] in H. Qed.
Lemma body_range c d r : cc_body (CHAR c :: HYPHEN :: CHAR d :: r) = let! (l, r') := cc_body r in Ok (Cc_range (N.to_nat c) (N.to_nat d) :: l, r').
Proof. reflexivity. Qed.
Lemma body_complete l u r : items l u -> cc_body (u ++ RSQUARE :: r) = Ok (l, r).
Proof.
  induction 1 as [|c l u I IH|c d l u I IH]; [reflexivity| |]; cbn [app].
  - rewrite body_char by (inv I; discriminate). rewrite IH. reflexivity.
  - rewrite body_range, IH. reflexivity.
Qed.
Lemma brackets_complete s u r : brackets s u -> simple_char_class (u ++ r) = Ok (s, r).
Proof.
  intros H. inv H; cbn [app simple_char_class]; rewrite <- app_assoc; cbn [app]; rewrite (body_complete _ _ r H0); cbn [bind]; (destruct l; [now destruct H1|reflexivity]).
Qed.
Lemma brackets_start s u : brackets s u -> exists t u', u = t :: u' /\ (t = LSQUARE \/ t = LSQUARE_CARET).
Proof. intros H; inv H; eauto. Qed.
Lemma class_complete k u r : class_of k u -> free b0 r -> char_class_ (u ++ r) = Ok (k, r).
Proof.
  intros H F.
  assert (G : forall u s r, brackets s u -> char_class_ (u ++ r) = match r with NOT :: r' => let! (t, r'') := simple_char_class r' in Ok (Cc_diff s t, r'') | _ => Ok (Cc_simple s, r) end).
  { intros w s q B. destruct (brackets_start _ _ B) as (t & w' & -> & T). cbn [app].
    assert (D : char_class_ (t :: w' ++ q) = let! (s, r) := simple_char_class ((t :: w') ++ q) in match r with NOT :: r' => let! (t, r'') := simple_char_class r' in Ok (Cc_diff s t, r'') | _ => Ok (Cc_simple s, r) end)
      by (destruct T as [-> | ->]; reflexivity).
    rewrite D, (brackets_complete _ _ q B). reflexivity. }
  inv H.
  - rewrite (G _ s r H0). destruct r as [|[] r]; try reflexivity. discriminate.
  - cbn [app char_class_]. rewrite (brackets_complete _ _ r H0). reflexivity.
  - rewrite <- app_assoc. cbn [app]. rewrite (G _ s _ H0), (brackets_complete _ _ r H1). reflexivity.
Qed.
Lemma class_start k u : class_of k u -> exists t u', u = t :: u' /\ (t = LSQUARE \/ t = LSQUARE_CARET \/ t = NOT).
Proof. intros H; inv H; [apply brackets_start in H0|exists NOT, u0; split; [reflexivity|tauto]|apply brackets_start in H0]; destruct H0 as (t' & u' & -> & T); exists t'; cbn [app]; eexists; (split; [reflexivity|tauto]). Qed.
Lemma stimulus_complete x u r : stimulus_of x u -> free b0 r -> stimulus_ (u ++ r) = Ok (x, r).
Proof.
  intros H F. inv H; try reflexivity.
  - pose proof (class_complete _ _ r H0 F) as C. destruct (class_start _ _ H0) as (t & u' & -> & T). cbn [app] in *.
    assert (D : stimulus_ (t :: u' ++ r) = let! (k, q) := char_class_ (t :: u' ++ r) in Ok (X_class k, q)) by (destruct T as [-> |[-> | ->]]; reflexivity).
    rewrite D, C. reflexivity.
  - destruct r as [|[] r]; try reflexivity; discriminate.
Qed.
Lemma stimulus_start x u : stimulus_of x u -> u = [] \/ exists t u', u = t :: u' /\ b0 t = true.
Proof. intros H; inv H; eauto. destruct (class_start _ _ H0) as (t & u' & -> & T). right. exists t, u'. split; [reflexivity|]. now destruct T as [-> |[-> | ->]]. Qed.
Lemma choice_complete x u : choice_of x u -> forall r f, free b1 r -> length u < f -> stimulus_seq f (u ++ r) = Ok (x, r).
Proof.
  induction 1 as [x u H|x u l v H H0 IH]; intros r f F L; (destruct f as [|f]; [lia|]); cbn [stimulus_seq].
  - rewrite (stimulus_complete _ _ r H) by (destruct r as [|[] r]; try exact F; exact I || discriminate). cbn [bind]. destruct r as [|[] r]; try reflexivity; discriminate.
  - rewrite app_length in L. cbn [length] in L. rewrite <- app_assoc. cbn [app]. rewrite (stimulus_complete _ _ (PIPE :: v ++ r) H) by reflexivity. cbn [bind]. rewrite IH by (assumption || lia). reflexivity.
Qed.
Lemma choice_start x u : choice_of x u -> u = [] \/ exists t u', u = t :: u' /\ b1 t = true.
Proof.
  intros H; inv H; [|]; destruct (stimulus_start _ _ H0) as [-> |(t & u' & -> & T)]; try (now left); right; cbn [app]; eexists; eexists; (split; [reflexivity|]); try reflexivity; now destruct t.
Qed.
Lemma choices_complete x u : choices_of x u -> forall r f, free b2 r -> length u < f -> transition_seq f (u ++ r) = Ok (x, r).
Proof.
  induction 1 as [x u H|x u l v H H0 IH]; intros r f F L; (destruct f as [|f]; [lia|]); cbn [transition_seq].
  - rewrite (choice_complete _ _ H r) by (exact L || (destruct r as [|[] r]; try exact F; exact I || discriminate)). cbn [bind]. destruct r as [|[] r]; try reflexivity; discriminate.
  - rewrite app_length in L. cbn [length] in L. rewrite <- app_assoc. cbn [app]. rewrite (choice_complete _ _ H (SEMICOLON :: v ++ r)) by (reflexivity || lia). cbn [bind]. rewrite IH by (assumption || lia). reflexivity.
Qed.
Lemma choices_start x u : choices_of x u -> u = [] \/ exists t u', u = t :: u' /\ b2 t = true.
Proof.
  intros H; inv H; [|]; destruct (choice_start _ _ H0) as [-> |(t & u' & -> & T)]; try (now left); right; cbn [app]; eexists; eexists; (split; [reflexivity|]); try reflexivity; now destruct t.
Qed.
Lemma names_complete x u : names_of x u -> forall r, free comma r -> name_seq (u ++ r) = Ok (x, r).
Proof.
  induction 1 as [x u H|x u l v H H0 IH]; intros r F; unfold name_of in H; subst u; rewrite names_eq; cbn [app].
  - destruct r as [|[] r]; try reflexivity; discriminate.
  - rewrite IH by exact F. reflexivity.
Qed.
Lemma line_complete x u : line_of x u -> forall r f, free comma r -> length u < f -> transition_decl f (u ++ r) = Ok (x, r).
Proof.
  intros H r f F L. inv H; rewrite app_length in L; cbn [length] in L; unfold transition_decl; rewrite <- app_assoc; cbn [app].
  - rewrite (choices_complete _ _ H0) by (reflexivity || lia). cbn [bind]. rewrite (names_complete _ _ H1 r F). reflexivity.
  - rewrite (choices_complete _ _ H0) by (reflexivity || lia). cbn [bind]. rewrite (names_complete _ _ H1 r F). reflexivity.
Qed.
Definition bl (t : token) : bool := match t with ARROW | EQUAL => true | _ => b2 t end.
Lemma line_start x u : line_of x u -> exists t u', u = t :: u' /\ bl t = true.
Proof.
  intros H; inv H; destruct (choices_start _ _ H0) as [-> |(t & u' & -> & T)]; cbn [app]; eexists; eexists; (split; [reflexivity|]); try reflexivity; now destruct t.
Qed.
Lemma lines_complete x u : in_turn line_of x u -> forall r f, ends r -> length u < f -> sdecl_seq f (u ++ r) = Ok (x, r).
Proof.
  induction 1 as [|x u l v H H0 IH]; intros r f F L; (destruct f as [|f]; [lia|]).
  - destruct r as [|[] r]; try destruct F; reflexivity.
  - rewrite app_length in L. rewrite <- app_assoc.
    assert (C : free comma (v ++ r)).
    { inv H0; [cbn [app]; destruct r as [|[] r]; try destruct F; reflexivity|]. destruct (line_start _ _ H1) as (t & u' & -> & T). cbn [app free]. now destruct t. }
    pose proof (line_complete _ _ H (v ++ r) (S f) C ltac:(lia)) as LC. destruct (line_start _ _ H) as (t & u' & -> & T). cbn [length] in L.
    assert (D : sdecl_seq (S f) ((t :: u') ++ v ++ r) = let! (x, r) := transition_decl (S f) ((t :: u') ++ v ++ r) in let! (l, r') := sdecl_seq f r in Ok (x :: l, r'))
      by (destruct t; try discriminate T; reflexivity).
    rewrite D, LC. cbn [bind]. rewrite IH by (exact F || lia). reflexivity.
Qed.
Lemma states_complete x u : in_turn state_of x u -> forall r f, length u < f -> state_decl_seq f (u ++ RBRACE :: r) = Ok (x, r).
Proof.
  induction 1 as [|x u l v H H0 IH]; intros r f L; (destruct f as [|f]; [lia|]); [reflexivity|].
  assert (C : ends (v ++ RBRACE :: r)) by (inv H0; [exact I|]; inv H1; exact I).
  rewrite app_length in L. rewrite <- app_assoc. inv H; cbn [app length] in *.
  - assert (D : state_decl_seq (S f) (STATE :: STRING n :: u0 ++ v ++ RBRACE :: r) =
      let! (ls, r') := sdecl_seq (S f) (u0 ++ v ++ RBRACE :: r) in let! (l, r'') := state_decl_seq f r' in Ok (Sdecl n None ls :: l, r'')).
    { assert (W : forall r', u0 ++ v ++ RBRACE :: r <> ENTRY :: r').
      { inv H1; [cbn [app]; intros r' W; rewrite W in C; exact C|]. destruct (line_start _ _ H) as (t & u' & -> & T). cbn [app]. intros r' W. inv W. discriminate. }
      destruct (u0 ++ v ++ RBRACE :: r) as [|[] q]; try reflexivity. now destruct (W q). }
    rewrite D, (lines_complete _ _ H1) by (exact C || lia). cbn [bind]. rewrite IH by lia. reflexivity.
  - cbn [state_decl_seq]. rewrite (lines_complete _ _ H1) by (exact C || lia). cbn [bind]. rewrite IH by lia. reflexivity.
Qed.
Lemma instances_complete x u : in_turn instance_of x u -> forall r, ends r -> instance_decl_seq (u ++ r) = (x, r).
Proof.
  induction 1 as [|(i, b) u l v H H0 IH]; intros r F.
  - destruct r as [|[] r]; try destruct F; reflexivity.
  - unfold instance_of in H. subst u. cbn [app instance_decl_seq fst snd]. rewrite IH by exact F. reflexivity.
Qed.
Lemma tokens_complete x u : in_turn name_of x u -> forall r, closed r -> token_seq (u ++ r) = (x, r).
Proof.
  induction 1 as [|s u l v H H0 IH]; intros r F.
  - destruct r as [|[] r]; try reflexivity. discriminate.
  - unfold name_of in H. subst u. cbn [app token_seq]. rewrite IH by exact F. reflexivity.
Qed.

(* expressions *)
Lemma op_bx l t op : op_of l t = Some op -> bx l t = true /\ bx (S l) t = false.
Proof. destruct l as [|[|[|[|l]]]], t; try discriminate; now split. Qed.
Lemma bx_up l r : free (bx l) r -> free (bx (S l)) r.
Proof.
  destruct r as [|t r]; [exact (fun H => H)|]. cbn [free]. destruct t; try exact (fun _ => eq_refl); cbn [bx]; intros H; apply Nat.leb_gt in H; apply Nat.leb_gt; lia.
Qed.
Lemma bx_op l t : 0 < l < 4 -> bx l t = false -> op_of l t = None.
Proof. intros L. destruct l as [|[|[|[|l]]]], t; try lia; try reflexivity; discriminate. Qed.
Lemma more_stop l next k a r : 0 < l < 4 -> free (bx l) r -> more_ l next (S k) (Ok (a, r)) = Ok (a, r).
Proof. intros L F. cbn [more_ bind]. destruct r as [|t r]; [reflexivity|]. rewrite (bx_op l t L F). reflexivity. Qed.
Lemma expr_nonempty l e u : expr_of_level l e u -> u <> [].
Proof. induction 1; try discriminate; try assumption; destruct u; discriminate. Qed.

(* what is read of a chain of operators of a level *)
Lemma chain l next (b : nat) :
  0 < l < 4 ->
  (forall e u r, expr_of_level (S l) e u -> length u <= b -> free (bx (S l)) r -> next (u ++ r) = Ok (e, r)) ->
  forall e u, expr_of_level l e u -> length u <= b -> forall r k, free (bx (S l)) r -> length u <= k ->
  exists k', k = k' + (k - k') /\ k <= k' + length u - 1 /\ more_ l next k (next (u ++ r)) = more_ l next k' (Ok (e, r)).
Proof.
  intros LL NX e u H. revert LL NX.
  induction H as [s|a u H IH|a u H IH|a u c v H1 IH1 H2 IH2|a u c v H1 IH1 H2 IH2|a u c v H1 IH1 H2 IH2|a u c v d w H1 IH1 H2 IH2 H3 IH3|n a u L H IH]; intros LL NX B r k F K; try lia.
  4: { exists k. pose proof (expr_nonempty _ _ _ H). destruct u as [|t u]; [congruence|]. cbn [length]. split; [lia|]. split; [lia|]. rewrite (NX _ _ r H B F). reflexivity. }
  all: rewrite app_length in *; cbn [length] in *; rewrite <- app_assoc; cbn [app].
  - destruct (IH1 LL NX ltac:(lia) (AND :: v ++ r) k eq_refl ltac:(lia)) as (k' & K1 & K2 & ->);
    pose proof (expr_nonempty _ _ _ H1); pose proof (expr_nonempty _ _ _ H2); (destruct u as [|t u]; [congruence|]); (destruct v as [|t' v]; [congruence|]); cbn [length] in *;
    (destruct k' as [|k']; [exfalso; lia|]); exists k'; (split; [lia|]); (split; [lia|]); cbn [more_ bind op_of]; rewrite (NX _ _ r H2 ltac:(cbn [length]; lia) F); reflexivity.
  - destruct (IH1 LL NX ltac:(lia) (XOR :: v ++ r) k eq_refl ltac:(lia)) as (k' & K1 & K2 & ->);
    pose proof (expr_nonempty _ _ _ H1); pose proof (expr_nonempty _ _ _ H2); (destruct u as [|t u]; [congruence|]); (destruct v as [|t' v]; [congruence|]); cbn [length] in *;
    (destruct k' as [|k']; [exfalso; lia|]); exists k'; (split; [lia|]); (split; [lia|]); cbn [more_ bind op_of]; rewrite (NX _ _ r H2 ltac:(cbn [length]; lia) F); reflexivity.
  - destruct (IH1 LL NX ltac:(lia) (PIPE :: v ++ r) k eq_refl ltac:(lia)) as (k' & K1 & K2 & ->);
    pose proof (expr_nonempty _ _ _ H1); pose proof (expr_nonempty _ _ _ H2); (destruct u as [|t u]; [congruence|]); (destruct v as [|t' v]; [congruence|]); cbn [length] in *;
    (destruct k' as [|k']; [exfalso; lia|]); exists k'; (split; [lia|]); (split; [lia|]); cbn [more_ bind op_of]; rewrite (NX _ _ r H2 ltac:(cbn [length]; lia) F); reflexivity.
Qed.
Lemma expr_complete : forall n l e u r f, expr_of_level l e u -> 5 * length u + (4 - l) < n -> n <= f -> free (bx l) r -> expr_ f l (u ++ r) = Ok (e, r).
Proof.
  induction n as [|n IH]; intros l e u r f H B LF F; [lia|]. destruct f as [|f]; [lia|].
  assert (M : 0 < l < 4 -> expr_ (S f) l (u ++ r) = Ok (e, r)).
  { intros LL. rewrite expr_mid by exact LL.
    destruct (chain l (expr_ f (S l)) (length u) LL) with (e := e) (u := u) (r := r) (k := S f) as (k' & K1 & K2 & ->); try assumption; try lia.
    - intros e' u' r' H' B' F'. apply IH; try assumption; lia.
    - now apply bx_up.
    - pose proof (expr_nonempty _ _ _ H). destruct u as [|t u]; [congruence|]. cbn [length] in *. destruct k' as [|k']; [exfalso; lia|]. apply more_stop; assumption. }
  destruct l as [|[|[|[|[|l]]]]]; try (apply M; lia); clear M.
  - inv H.
    + rewrite app_length in B. cbn [length] in B. rewrite app_length in B. cbn [length] in B. rewrite <- app_assoc. cbn [app]. rewrite <- app_assoc. cbn [app].
      cbn [expr_]. rewrite (IH 1 a u0 (QUERY :: v ++ COLON :: w ++ r)) by (assumption || lia || reflexivity). cbn [bind].
      rewrite (IH 0 b v (COLON :: w ++ r)) by (assumption || lia || reflexivity). cbn [bind].
      rewrite (IH 0 c w r) by (assumption || lia || reflexivity). reflexivity.
    + cbn [expr_]. rewrite (IH 1 e u r) by (assumption || lia || now apply bx_up). cbn [bind]. destruct r as [|[] r]; try reflexivity. discriminate.
  - inv H; cbn [length] in B.
    + reflexivity.
    + cbn [app expr_]. rewrite (IH 4 a u0 r) by (assumption || lia). reflexivity.
    + rewrite app_length in B. cbn [length] in B. cbn [app expr_]. rewrite <- app_assoc. cbn [app]. rewrite (IH 0 e u0 (RPAREN :: r)) by (assumption || lia || reflexivity). reflexivity.
    + lia.
  - exfalso. inv H. lia.
Qed.
Transparent expr_of.
Lemma expr_of_complete e u r : expr_of_level 0 e u -> closed r -> expr_of (u ++ r) = Ok (e, r).
Proof.
  intros H C. apply (expr_complete (8 + 5 * length (u ++ r))); try assumption; try apply le_n.
  - rewrite app_length. lia.
  - destruct r as [|[] r]; try reflexivity; discriminate.
Qed.
Opaque expr_of.
Lemma names_start x u : names_of x u -> exists s u', u = STRING s :: u' /\ (u' = [] \/ exists u'', u' = COMMA :: u'').
Proof. intros H. inv H; unfold name_of in *; subst; cbn [app]; eauto 10. Qed.
Lemma closed_comma r : closed r -> free comma r.
Proof. destruct r as [|[] r]; try reflexivity; discriminate. Qed.
Lemma rest_names early x u r : names_of x u -> closed r -> attr_rest early (u ++ r) = Ok (A_attrs early x, r).
Proof.
  intros H C. destruct (rest_cases early (u ++ r)) as [(n & r' & E & _)|D].
  - exfalso. destruct (names_start _ _ H) as (s & u' & -> & [-> |(u'' & ->)]); cbn [app] in E; inv E. discriminate.
  - rewrite D, (names_complete _ _ H r (closed_comma _ C)). reflexivity.
Qed.
Lemma rest_expr early n e u r : expr_of_level 0 e u -> closed r -> attr_rest early (STRING n :: COLON :: u ++ r) = Ok (A_expr early n e, r).
Proof. intros H C. cbn [attr_rest]. rewrite (expr_of_complete _ _ r H C). reflexivity. Qed.
Lemma attr_complete x u r : attr_of x u -> closed r -> attr_decl_ (u ++ r) = Ok (x, r).
Proof.
  intros H C. inv H.
  - destruct early; cbn [attr_word app]; exact (rest_names _ _ _ _ H0 C).
  - destruct early; cbn [attr_word app]; exact (rest_expr _ _ _ _ _ H0 C).
  - reflexivity.
  - reflexivity.
Qed.
Lemma attr_start x u : attr_of x u -> exists t u', u = t :: u' /\ (t = ATTR \/ t = EARLY \/ t = DEFATTR \/ t = TYPE).
Proof. intros H; inv H; try destruct early; cbn [attr_word app]; eauto 10. Qed.
Lemma attrs_complete x u : in_turn attr_of x u -> forall r f, length u < f -> attr_decl_seq f (u ++ RBRACE :: r) = Ok (x, r).
Proof.
  induction 1 as [|x u l v H H0 IH]; intros r f L; (destruct f as [|f]; [lia|]); [reflexivity|].
  assert (C : closed (v ++ RBRACE :: r)).
  { inv H0; [reflexivity|]. destruct (attr_start _ _ H1) as (t & u' & -> & T). cbn [app closed]. now destruct T as [-> |[-> |[-> | ->]]]. }
  rewrite app_length in L. rewrite <- app_assoc. pose proof (attr_complete _ _ _ H C) as A. destruct (attr_start _ _ H) as (t & u' & -> & T). cbn [length] in L.
  assert (D : attr_decl_seq (S f) ((t :: u') ++ v ++ RBRACE :: r) = let! (a, r) := attr_decl_ ((t :: u') ++ v ++ RBRACE :: r) in let! (l, r') := attr_decl_seq f r in Ok (a :: l, r'))
    by (destruct T as [-> |[-> |[-> | ->]]]; reflexivity).
  rewrite D, A. cbn [bind]. rewrite IH by lia. reflexivity.
Qed.
Lemma closed_b1 r : closed r -> free b1 r.
Proof. destruct r as [|[] r]; try reflexivity; discriminate. Qed.
Lemma decl_complete x u r f : decl_of x u -> closed r -> length u < f -> decl_ f (u ++ r) = Ok (x, r).
Proof.
  intros H C L. inv H; cbn [length] in L.
  - cbn [app decl_]. rewrite <- !app_assoc. cbn [app]. rewrite !app_length in L.
    rewrite (instances_complete _ _ H0) by (inv H1; [exact I|]; inv H; exact I). rewrite (states_complete _ _ H1 r f) by lia. reflexivity.
  - cbn [app decl_]. rewrite (tokens_complete _ _ H0 r C). destruct l; [now destruct H1|reflexivity].
  - cbn [app decl_]. rewrite (choice_complete _ _ H0 r f (closed_b1 _ C)) by lia. reflexivity.
  - pose proof (attr_complete _ _ _ H0 C) as A. destruct (attr_start _ _ H0) as (t & u' & -> & T). cbn [app] in *.
    assert (D : decl_ f (t :: u' ++ r) = let! (a, r) := attr_decl_ (t :: u' ++ r) in Ok (D_attr a, r)) by (destruct T as [-> |[-> |[-> | ->]]]; reflexivity).
    rewrite D, A. reflexivity.
  - cbn [app decl_]. rewrite <- app_assoc. cbn [app]. rewrite app_length in L. rewrite (attrs_complete _ _ H0 r f) by lia. reflexivity.
  - cbn [app decl_]. rewrite (expr_of_complete _ _ r H0 C). reflexivity.
  - reflexivity.
  - reflexivity.
Qed.
Lemma decl_start x u : decl_of x u -> exists t u', u = t :: u' /\ closing t = true.
Proof. intros H; inv H; eauto. destruct (attr_start _ _ H0) as (t & u' & -> & T). exists t, u'. split; [reflexivity|]. now destruct T as [-> |[-> |[-> | ->]]]. Qed.
Lemma decls_complete ds ts : description ds ts -> forall f, length ts <= f -> decl_seq f ts = Ok ds.
Proof.
  induction 1 as [|x u l v H H0 IH]; intros f L; [now destruct f|].
  assert (C : closed v). { inv H0; [exact I|]. destruct (decl_start _ _ H1) as (t & u' & -> & T). exact T. }
  pose proof (decl_complete _ _ v (S (length (u ++ v))) H C ltac:(rewrite app_length; lia)) as A. rewrite app_length in L.
  destruct (decl_start _ _ H) as (t & u' & -> & T). cbn [length] in L. destruct f as [|f]; [lia|].
  assert (D : decl_seq (S f) ((t :: u') ++ v) = let! (d, r) := decl_ (S (length ((t :: u') ++ v))) ((t :: u') ++ v) in let! l := decl_seq f r in Ok (d :: l)) by reflexivity.
  rewrite D, A. cbn [bind]. rewrite IH by lia. reflexivity.
Qed.
Theorem parse_complete ds ts : description ds ts -> parse ts = Ok ds.
Proof. intros H. exact (decls_complete _ _ H _ (le_n _)). Qed.
