(* The deterministic automaton does what the description says. *)
From Coq Require Import Permutation Sorted.
From Verif Require Import Base M_Charclass M_Dfasyn M_Compdfa S_Dfasyn L_Charclass L_Charclass2 L_Charclass3 L_Nfa L_Nfa2.
From Verif Require L_Mbox.
Local Open Scope nat_scope.

(* expressions *)
Lemma defined_last : forall defs n, last_definition defs n = defined defs n.
Proof.
  unfold defined. induction defs as [|[m e] defs IH]; intros n; [reflexivity|]. cbn [last_definition rev fst snd]. rewrite IH. clear IH.
  induction (rev defs) as [|[m' e'] l IH]; cbn [app find fst]; [cbn [option_map]; now destruct (bytes_eqb m n)|]. destruct (bytes_eqb m' n); [reflexivity|exact IH].
Qed.
Lemma truth_ext defs on on' : (forall t, on t <-> on' t) -> forall e v, truth defs on e v -> truth defs on' e v.
Proof.
  intros H e v T. induction T; try (econstructor; eassumption).
  - apply T_set; [assumption|]. apply H. assumption.
  - apply T_unset; [assumption|]. rewrite <- H. assumption.
Qed.
Lemma truth_det defs on e v : truth defs on e v -> forall v', truth defs on e v' -> v = v'.
Proof.
  induction 1; intros v' T; inversion T; subst; try congruence;
  repeat match goal with IH : forall v', truth _ _ ?e v' -> _ = v', H : truth _ _ ?e _ |- _ => apply IH in H; subst end; try reflexivity; try congruence; try tauto.
  all: try (destruct x; reflexivity); try (destruct x0; reflexivity).
  all: try match goal with x : bool |- _ => destruct x; reflexivity end.
  match goal with H : last_definition _ _ = Some ?e, H' : last_definition _ _ = Some ?e' |- _ => rewrite H in H'; injection H' as <- end. auto.
Qed.
Lemma eval_truth defs on : forall fuel e v, eval fuel defs on e = Ok v -> truth defs (fun t => In t on) e v.
Proof.
  assert (On : forall n, existsb (bytes_eqb n) on = true <-> In n on).
  { intros n. rewrite existsb_exists. split; [intros (x & I & E); apply L_Mbox.bytes_eqb_iff in E; subst; exact I|intros I; exists n; split; [exact I|apply L_Mbox.bytes_eqb_iff; reflexivity]]. }
  induction fuel as [|f IH]; intros e v E; [discriminate|]. cbn [eval] in E. destruct e as [a b|a b|a b|a b c|a|name].
  - destruct (eval f defs on a) as [x|] eqn:Ea; [|discriminate]. cbn [bind] in E. destruct x.
    + change v with (true && v). apply T_and; auto.
    + injection E as <-. apply T_and_no. auto.
  - destruct (eval f defs on a) as [x|] eqn:Ea; [|discriminate]. cbn [bind] in E. destruct x.
    + injection E as <-. apply T_or_yes. auto.
    + change v with (false || v). apply T_or; auto.
  - destruct (eval f defs on a) as [x|] eqn:Ea; [|discriminate]. cbn [bind] in E. destruct (eval f defs on b) as [y|] eqn:Eb; [|discriminate]. cbn [bind] in E. injection E as <-. apply T_xor; auto.
  - destruct (eval f defs on a) as [x|] eqn:Ea; [|discriminate]. cbn [bind] in E. destruct x; [apply T_then|apply T_else]; auto.
  - destruct (eval f defs on a) as [x|] eqn:Ea; [|discriminate]. cbn [bind] in E. injection E as <-. apply T_not; auto.
  - rewrite <- defined_last in E. destruct (last_definition defs name) as [e'|] eqn:D; [eapply T_def; eauto|]. injection E as <-. destruct (existsb (bytes_eqb name) on) eqn:X.
    + apply T_set; [exact D|]. apply On. exact X.
    + apply T_unset; [exact D|]. rewrite <- On. congruence.
Qed.
Definition line_on (defs : tag_defs) (on : list bytes) (line : bytes * expr * bool) : Prop := truth defs (fun t => In t on) (snd (fst line)) true.
Lemma attr_some fuel defs on : forall l v ea r, evaluate_attr fuel defs on (Some (v, ea)) l = Ok (r, true) -> r = Some (v, ea) /\ forall line, In line l -> ~ line_on defs on line.
Proof.
  induction l as [|[[a e] ea'] l IH]; intros v ea r E; cbn [evaluate_attr] in E.
  - injection E as <-. split; [reflexivity|intros line []].
  - destruct (eval fuel defs on e) as [x|] eqn:Ee; [|discriminate]. cbn [bind] in E. destruct x; [discriminate|]. apply IH in E. destruct E as [-> H]. split; [reflexivity|].
    intros line [<-|I]; [|apply H; exact I]. unfold line_on. cbn. intros T. apply eval_truth in Ee. pose proof (truth_det _ _ _ _ Ee _ T). discriminate.
Qed.
Lemma attr_none fuel defs on : forall l r, evaluate_attr fuel defs on None l = Ok (r, true) ->
  (r = None /\ forall line, In line l -> ~ line_on defs on line) \/
  (exists v e ea, r = Some (v, ea) /\ In (v, e, ea) l /\ line_on defs on (v, e, ea) /\ forall v' e' ea', In (v', e', ea') l -> line_on defs on (v', e', ea') -> v' = v /\ ea' = ea).
Proof.
  induction l as [|[[a e] ea] l IH]; intros r E; cbn [evaluate_attr] in E.
  - injection E as <-. left. split; [reflexivity|intros line []].
  - destruct (eval fuel defs on e) as [x|] eqn:Ee; [|discriminate]. cbn [bind] in E. apply eval_truth in Ee. destruct x.
    + apply attr_some in E. destruct E as [-> H]. right. exists a, e, ea. split; [reflexivity|]. split; [left; reflexivity|]. split; [exact Ee|].
      intros v' e' ea' [I|I] T; [injection I as -> _ ->; auto|]. exfalso. exact (H _ I T).
    + assert (Na : forall v' ea', ~ line_on defs on (v', e, ea')) by (intros v' ea' T; pose proof (truth_det _ _ _ _ Ee _ T); discriminate).
      apply IH in E. destruct E as [[-> H]|(v & e0 & ea0 & -> & I & T & U)].
      * left. split; [reflexivity|]. intros line [<-|I]; [apply Na|apply H; exact I].
      * right. exists v, e0, ea0. split; [reflexivity|]. split; [right; exact I|]. split; [exact T|]. intros v' e' ea' [J|J] T'; [injection J as -> -> ->; exfalso; exact (Na _ _ T')|exact (U _ _ _ J T')].
Qed.
Lemma attrs_ok fuel defs on : forall evs vs early, evaluate_attrs fuel defs on evs = Ok (vs, early, true) ->
  length vs = length evs /\
  (forall i x, nth_error evs i = Some x -> match nth i vs None with
     | Some v => (exists line, In line (attrs x) /\ line_on defs on line /\ v = fst (fst line)) /\ forall line, In line (attrs x) -> line_on defs on line -> fst (fst line) = v
     | None => forall line, In line (attrs x) -> ~ line_on defs on line end) /\
  (early = true <-> exists x line, In x evs /\ In line (attrs x) /\ line_on defs on line /\ snd line = true).
Proof.
  induction evs as [|x evs IH]; intros vs early E; cbn [evaluate_attrs] in E.
  - injection E as <- <-. split; [reflexivity|]. split; [intros [|i] x H; discriminate|]. split; [discriminate|]. intros (x & line & [] & _).
  - destruct (evaluate_attr fuel defs on None (attrs x)) as [[m one]|] eqn:E1; [|discriminate]. cbn [bind] in E.
    destruct (evaluate_attrs fuel defs on evs) as [[[vs' early'] ok]|] eqn:E2; [|discriminate]. cbn [bind] in E. injection E as <- <- Q. apply andb_true_iff in Q. destruct Q as [-> ->].
    destruct (IH _ _ eq_refl) as (L & H & Ea). apply attr_none in E1. split; [cbn; lia|]. split.
    + intros [|i] y Hy; cbn in Hy.
      * injection Hy as <-. cbn [nth]. destruct E1 as [[-> N]|(v & e & ea & -> & I & T & U)]; cbn [option_map fst]; [exact N|]. split; [exists (v, e, ea); auto|]. intros [[v' e'] ea'] J T'. cbn. exact (proj1 (U _ _ _ J T')).
      * cbn [nth]. apply H. exact Hy.
    + destruct E1 as [[-> N]|(v & e & ea & -> & I & T & U)].
      * rewrite Ea. split; intros (y & line & J & X).
        -- exists y, line. split; [right; exact J|exact X].
        -- destruct J as [<-|J]; [exfalso; destruct X as (X1 & X2 & _); exact (N _ X1 X2)|exists y, line; auto].
      * destruct ea.
        -- split; [|reflexivity]. intros _. exists x, (v, e, true). split; [left; reflexivity|]. auto.
        -- rewrite Ea. split; intros (y & line & J & X).
           ++ exists y, line. split; [right; exact J|exact X].
           ++ destruct J as [<-|J]; [exfalso; destruct X as (X1 & X2 & X3); destruct line as [[v' e'] ea']; cbn in X3; subst; destruct (U _ _ _ X1 X2); discriminate|exists y, line; auto].
Qed.

(* paths *)
Lemma path_nil F p q : path F p [] q <-> eps (f_block F) p q.
Proof.
  split.
  - intros H. remember [] as w. induction H; subst; [constructor|econstructor; eauto|discriminate].
  - induction 1; [constructor|econstructor 2; eauto].
Qed.
Lemma path_app F u : forall v p r, path F p (u ++ v) r <-> exists q, path F p u q /\ path F q v r.
Proof.
  intros v p r. split.
  - intros H. remember (u ++ v) as w eqn:E. revert u E. induction H; intros u E.
    + destruct u; [|discriminate]. cbn in E. subst. exists q. split; constructor.
    + destruct (IHpath u E) as (x & A & B). exists x. split; [econstructor 2; eauto|exact B].
    + destruct u as [|s' u].
      * cbn in E. subst v. exists p. split; [constructor|]. econstructor 3; eauto.
      * injection E as <- ->. destruct (IHpath u eq_refl) as (x & A & B). exists x. split; [econstructor 3; eauto|exact B].
  - intros (q & A & B). induction A; cbn; [exact B|econstructor 2; eauto|econstructor 3; eauto].
Qed.
Lemma path_one F p s q : path F p [s] q <-> exists p' y d, eps (f_block F) p p' /\ edge (f_block F) p' y d /\ fits (f_classes F) y s /\ eps (f_block F) d q.
Proof.
  split.
  - intros H. remember [s] as w eqn:E. induction H; try discriminate.
    + destruct (IHpath E) as (p' & y & d & A & B). exists p', y, d. split; [econstructor; eauto|exact B].
    + injection E as -> ->. exists p, y, q. split; [constructor|]. apply path_nil in H1. auto.
  - intros (p' & y & d & A & B & C & D). induction A; [econstructor 3; eauto; apply path_nil; exact D|econstructor 2; eauto].
Qed.
Lemma path_snoc F e w s q : path F e (w ++ [s]) q <-> exists p y d, path F e w p /\ edge (f_block F) p y d /\ fits (f_classes F) y s /\ eps (f_block F) d q.
Proof.
  rewrite path_app. split.
  - intros (p & A & B). apply path_one in B. destruct B as (p' & y & d & B & C & D & G). exists p', y, d. split; [|auto]. rewrite <- (app_nil_r w). apply path_app. exists p. split; [exact A|]. apply path_nil. exact B.
  - intros (p & y & d & A & B & C & D). exists p. split; [exact A|]. apply path_one. exists p, y, d. split; [constructor|auto].
Qed.
Lemma overrun_snoc F e w s : overrun F e (w ++ [s]) <-> overrun F e w \/ stops F e w.
Proof.
  split.
  - intros (u & v & E & N & S). destruct (exists_last N) as (v' & s' & ->). rewrite app_assoc in E. apply app_inj_tail in E. destruct E as [-> <-].
    destruct v' as [|x v']; [right; rewrite app_nil_r; exact S|left; exists u, (x :: v'); repeat split; auto; discriminate].
  - intros [(u & v & -> & N & S)|S].
    + exists u, (v ++ [s]). rewrite app_assoc. repeat split; auto. intros Q. apply app_eq_nil in Q. destruct Q; discriminate.
    + exists w, [s]. repeat split; auto. discriminate.
Qed.
Lemma overrun_nil F e : ~ overrun F e [].
Proof. intros (u & v & E & N & _). symmetry in E. apply app_eq_nil in E. tauto. Qed.
Lemma not_readable_more F e w u : ~ readable F e w -> ~ readable F e (w ++ u).
Proof.
  intros N [(q & P) O]. apply N. split.
  - apply path_app in P. destruct P as (p & P & _). eauto.
  - intros (x & y & -> & Ny & S). apply O. exists x, (y ++ u). rewrite app_assoc. repeat split; auto. intros Q. apply app_eq_nil in Q. tauto.
Qed.

(* running the automaton, before the tables are written *)
Definition nstep (nodes : list dfa_node) (cur z : Z) : Z := if (cur <? 0)%Z || (z <? 0)%Z then (-1)%Z else nth (Z.to_nat z) (d_map (node nodes (Z.to_nat cur))) (-1)%Z.
Definition nrun (nodes : list dfa_node) (cur : Z) (ts : list Z) : Z := fold_left (nstep nodes) ts cur.
Lemma nrun_snoc nodes cur ts t : nrun nodes cur (ts ++ [t]) = nstep nodes (nrun nodes cur ts) t.
Proof. unfold nrun. rewrite fold_left_app. reflexivity. Qed.
Definition tok (nt : nat) (m : list Z) (s : symbol) : Z := match s with Tok t => Z.of_nat t | Chr c => nth c (char2tok nt m) (-1)%Z end.
Definition wellformed (F : nfa_file) : Prop := in_range (f_ntokens F) (length (f_classes F)) (f_block F) (f_entries F) = true.
Lemma wf_edge F p y q : wellformed F -> edge (f_block F) p y q -> q < length (f_block F) /\ match y with TT_EPSILON => True | TT_TOKEN t => t < f_ntokens F | TT_CHARCLASS k => k < length (f_classes F) end.
Proof.
  intros W (st & E & I). unfold wellformed, in_range in W. apply andb_true_iff in W. destruct W as [W _]. rewrite forallb_forall in W. specialize (W st (nth_error_In _ _ E)).
  rewrite forallb_forall in W. specialize (W _ I). cbn [fst snd] in W. apply andb_true_iff in W. destruct W as [A B]. split; [lia|]. destruct y; [exact Logic.I|lia|lia].
Qed.
Lemma wf_entry F e : wellformed F -> In e (f_entries F) -> e < length (f_block F).
Proof. intros W I. unfold wellformed, in_range in W. apply andb_true_iff in W. destruct W as [_ W]. rewrite forallb_forall in W. specialize (W e I). lia. Qed.

Section Run.
Variables (F : nfa_file) (m : list Z) (ncc : nat) (eclo : list (list N)) (fuel : nat) (is_ : list nat) (nodes : list dfa_node).
Let nt := f_ntokens F + ncc.
Let cs := map make_class (f_classes F).
Let b1 := expand_charclass_transitions (f_ntokens F) cs m (f_block F).
Hypothesis classes : Forall class_ok (f_classes F).
Hypothesis G : groups (reduce_list (f_block F) cs) m ncc.
Hypothesis W : wellformed F.
Hypothesis EC : generate_epsilon_closure b1 = Ok eclo.
Hypothesis BD : build_dfa fuel (f_rules F) b1 nt eclo (f_entries F) = Ok (is_, nodes).
Hypothesis one : Forall (fun d => d_one d = true) nodes.
Lemma len_b1 : length b1 = length (f_block F).
Proof. unfold b1, expand_charclass_transitions. apply map_length. Qed.
Lemma edge_b1 p y q : edge b1 p y q -> q < length b1.
Proof.
  rewrite len_b1. intros E. apply expanded_edge in E. destruct y as [|t|k].
  - eapply wf_edge; eassumption.
  - destruct E as [E|(k & i & E & _)]; eapply wf_edge; eassumption.
  - destruct E as [E _]. eapply wf_edge; eassumption.
Qed.
Lemma eps_b1 p q : eps b1 p q <-> eps (f_block F) p q.
Proof.
  split; induction 1; try constructor; (econstructor; [|eassumption]).
  - apply expanded_edge in H. exact H.
  - apply expanded_edge. exact H.
Qed.
Definition the_closure := closure_ok b1 eclo edge_b1 EC.
Lemma char_tok c : c < 256 -> nth c (char2tok (f_ntokens F) m) (-1)%Z = if (0 <=? nth c m (-1))%Z then (nth c m (-1) + Z.of_nat (f_ntokens F))%Z else nth c m (-1)%Z.
Proof.
  intros C. unfold char2tok. pose proof (gr_len _ _ _ G) as L. rewrite nth_indep with (d' := (fun m => if (0 <=? m)%Z then (m + Z.of_nat (f_ntokens F))%Z else m) (-1)%Z) by (rewrite map_length; lia).
  rewrite (map_nth (fun m => if (0 <=? m)%Z then (m + Z.of_nat (f_ntokens F))%Z else m)). reflexivity.
Qed.
Lemma tok_range s : known F [s] -> (-1 <= tok (f_ntokens F) m s < Z.of_nat nt)%Z.
Proof.
  intros K. inversion K as [|? ? Ks _]; subst. unfold tok, nt. destruct s as [t|c]; [lia|]. rewrite char_tok by exact Ks.
  pose proof (gr_range _ _ _ G c Ks). destruct (0 <=? nth c m (-1))%Z eqn:E; lia.
Qed.
Definition bu := build_ok b1 eclo (f_rules F) nt (proj1 the_closure) edge_b1 (proj1 (proj2 the_closure)) fuel (f_entries F) is_ nodes.
Lemma entries_b1 : forall e, In e (f_entries F) -> e < length b1.
Proof. intros e I. rewrite len_b1. apply wf_entry; assumption. Qed.
Lemma node_built : exists ne, built b1 eclo (f_rules F) nt ne (length nodes) nodes /\ forall i, i < ne -> In i is_.
Proof. exact (proj2 (bu entries_b1 BD)). Qed.
(* what a node says about the words that lead to it *)
Definition means (d : dfa_node) (e : nat) (w : list symbol) : Prop := forall q, has (d_nfas d) q = true <-> path F e w q.
Lemma means_tags d e w tag : means d e w -> (In tag (tags_of b1 (d_nfas d)) <-> tagged F e w tag).
Proof.
  intros M. rewrite (tags_of_ok b1). unfold tagged. split.
  - intros (q & st & H & E & I). pose proof (expanded_tags (f_ntokens F) cs (f_block F) m q) as X. fold b1 in X. rewrite E in X. cbn in X. destruct (nth_error (f_block F) q) as [st'|] eqn:E'; [|discriminate].
    cbn in X. injection X as X. exists q, st'. rewrite <- X. split; [apply M; exact H|]. auto.
  - intros (q & st & H & E & I). pose proof (expanded_tags (f_ntokens F) cs (f_block F) m q) as X. fold b1 in X. rewrite E in X. cbn in X. destruct (nth_error b1 q) as [st'|] eqn:E'; [|discriminate].
    cbn in X. injection X as X. exists q, st'. rewrite X. split; [apply M; exact H|]. auto.
Qed.
Lemma means_line d e w line : means d e w -> (line_on (r_defs (f_rules F)) (tags_of b1 (d_nfas d)) line <-> applies F e w line).
Proof. intros M. unfold line_on, applies. split; apply truth_ext; intros t; rewrite (means_tags d e w t M); reflexivity. Qed.
Lemma node_eval d : In d nodes -> evaluate_attrs (r_fuel (f_rules F)) (r_defs (f_rules F)) (tags_of b1 (d_nfas d)) (r_evs (f_rules F)) = Ok (d_attrs d, d_early d, true).
Proof.
  intros I. destruct node_built as (ne & B & _). pose proof (bu_nodes _ _ _ _ _ _ _ B) as N. rewrite Forall_forall in N. destruct (N d I) as (_ & _ & E). rewrite E. rewrite Forall_forall in one. rewrite (one d I). reflexivity.
Qed.
Lemma node_early d e w : In d nodes -> means d e w -> (d_early d = true <-> stops F e w).
Proof.
  intros I M. destruct (attrs_ok _ _ _ _ _ _ (node_eval d I)) as (_ & _ & E). rewrite E. unfold stops.
  split; intros (x & line & A & B & C & D); exists x, line; (split; [exact A|]); (split; [exact B|]); (split; [|exact D]); apply (means_line d e w line M); exact C.
Qed.
Lemma node_values d e w : In d nodes -> means d e w -> Forall (fun x => defattr x <> None) (r_evs (f_rules F)) -> length (d_attrs d) = length (r_evs (f_rules F)) /\
  forall i x v, nth_error (r_evs (f_rules F)) i = Some x -> (attr_or (defattr x) (nth i (d_attrs d) None) = Some v <-> has_value F e w x v).
Proof.
  intros I M Df. destruct (attrs_ok _ _ _ _ _ _ (node_eval d I)) as (L & H & _). split; [exact L|]. intros i x v Hx. specialize (H i x Hx). unfold has_value.
  assert (Dx : defattr x <> None) by (rewrite Forall_forall in Df; apply Df; eapply nth_error_In; exact Hx).
  destruct (nth i (d_attrs d) None) as [u|]; cbn [attr_or].
  - destruct H as [(line & A & B & ->) U]. split.
    + intros E. injection E as <-. left. exists line. split; [exact A|]. split; [apply (means_line d e w line M); exact B|reflexivity].
    + intros [(line' & A' & B' & ->)|[N _]].
      * f_equal. symmetry. apply U; [exact A'|]. apply (means_line d e w line' M). exact B'.
      * exfalso. apply (N line A). apply (means_line d e w line M). exact B.
  - split.
    + intros E. right. split; [|exact E]. intros line A B. apply (H line A). apply (means_line d e w line M). exact B.
    + intros [(line & A & B & _)|[_ E]]; [|exact E]. exfalso. apply (H line A). apply (means_line d e w line M). exact B.
Qed.
Lemma run_ok j e i0 : nth_error (f_entries F) j = Some e -> nth_error is_ j = Some i0 -> forall w, known F w ->
  let z := nrun nodes (Z.of_nat i0) (map (tok (f_ntokens F) m) w) in
  (exists d, (0 <= z)%Z /\ nth_error nodes (Z.to_nat z) = Some d /\ means d e w /\ readable F e w) \/ (z = (-1)%Z /\ ~ readable F e w).
Proof.
  intros He Hi. destruct (bu entries_b1 BD) as [F2 (ne & B & _)].
  assert (E0 : exists row, nth_error (map d_nfas nodes) i0 = Some row /\ forall q, has row q = true <-> eps b1 e q).
  { clear - F2 He Hi. revert j He Hi. induction F2 as [|x y l l' H F2 IH]; intros [|j] He Hi; cbn in *; try discriminate; [injection He as <-; injection Hi as <-; exact H|eauto]. }
  induction w as [|s w IH] using rev_ind; intros K.
  - left. destruct E0 as (row & A & B0). rewrite nth_error_map in A. destruct (nth_error nodes i0) as [d|] eqn:Ed; [|discriminate]. injection A as A. exists d.
    cbn [map]. unfold nrun. cbn [fold_left]. rewrite Nat2Z.id. split; [lia|]. split; [exact Ed|]. split.
    + intros q. rewrite A, B0, eps_b1. symmetry. apply path_nil.
    + split; [exists e; constructor|apply overrun_nil].
  - assert (Kw : known F w /\ known F [s]) by (apply Forall_app; exact K). destruct Kw as [Kw Ks]. specialize (IH Kw). cbv zeta in *. rewrite map_app. cbn [map]. rewrite nrun_snoc.
    pose proof (tok_range s Ks) as Tr.
    destruct IH as [(d & Z0 & Ed & M & [(q0 & P0) O])|[-> N]].
    2:{ right. split; [reflexivity|]. apply not_readable_more. exact N. }
    set (z := nrun nodes (Z.of_nat i0) (map (tok (f_ntokens F) m) w)) in *. clearbody z. set (t := tok (f_ntokens F) m s) in *.
    assert (Id : In d nodes) by (eapply nth_error_In; exact Ed).
    assert (Ln : Z.to_nat z < length nodes) by (apply nth_error_Some; congruence).
    pose proof (bu_done _ _ _ _ _ _ _ B _ d Ln Ed) as [Lm MO]. pose proof (node_early d e w Id M) as EA.
    unfold nstep. replace (z <? 0)%Z with false by lia. cbn [orb]. unfold node. rewrite (nth_error_nth _ _ _ Ed).
    assert (SE : forall p q, (exists y, edge (f_block F) p y q /\ fits (f_classes F) y s) <-> (0 <= t)%Z /\ edge b1 p (TT_TOKEN (Z.to_nat t)) q).
    { intros p q. apply (symbol_edge (f_classes F) (f_block F) (f_ntokens F) m ncc classes G); [|inversion Ks; assumption]. intros p' q' y E'. exact (proj2 (wf_edge _ _ _ _ W E')). }
    destruct (t <? 0)%Z eqn:Tn.
    { right. split; [reflexivity|]. intros [(q & P) _]. apply path_snoc in P. destruct P as (p & y & dd & _ & E1 & E2 & _).
      destruct (proj1 (SE p dd)) as [X _]; [eauto|]. lia. }
    destruct (d_early d) eqn:Ee.
    { right. split; [rewrite MO; apply nth_repeat_in; lia|]. intros [_ X]. apply X. apply overrun_snoc. right. apply EA. reflexivity. }
    specialize (MO (Z.to_nat t) ltac:(lia)). unfold target_ok in MO.
    destruct (targets_ok b1 eclo (proj1 the_closure) edge_b1 (proj1 (proj2 the_closure)) (d_nfas d) (Z.to_nat t)) as (_ & Tq & Ta).
    assert (PT : forall q, has (fst (targets b1 eclo (d_nfas d) (Z.to_nat t))) q = true <-> path F e (w ++ [s]) q).
    { intros q. rewrite Tq, path_snoc. split.
      - intros (p & dd & A & E1 & E2). destruct (proj2 (SE p dd)) as (y & X & Y); [split; [lia|exact E1]|]. exists p, y, dd. split; [apply M; exact A|]. split; [exact X|]. split; [exact Y|]. apply eps_b1. exact E2.
      - intros (p & y & dd & A & X & Y & E2). exists p, dd. split; [apply M; exact A|]. split; [apply (proj1 (SE p dd)); eauto|]. apply eps_b1. exact E2. }
    destruct (snd (targets b1 eclo (d_nfas d) (Z.to_nat t))) eqn:Any.
    + left. destruct MO as (k & -> & Hk). rewrite nth_error_map in Hk. destruct (nth_error nodes k) as [d'|] eqn:Ek; [|discriminate]. injection Hk as Hk. exists d'. rewrite Nat2Z.id.
      split; [lia|]. split; [exact Ek|]. split; [intros q; rewrite Hk; apply PT|]. split.
      * destruct (proj1 Ta eq_refl) as (q & Q). exists q. apply PT. exact Q.
      * rewrite overrun_snoc. intros [X|X]; [exact (O X)|]. apply EA in X. discriminate.
    + right. split; [exact MO|]. intros [(q & P) _]. apply PT in P. assert (X : false = true) by (apply Ta; eauto). discriminate.
Qed.
End Run.
