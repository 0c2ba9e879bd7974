(* The generator ends, and reports exactly the faulty descriptions. *)
From Coq Require Import Permutation Sorted.
From Verif Require Import Base M_Charclass M_Dfasyn M_Compdfa S_Dfasyn L_Charclass L_Charclass2 L_Charclass3 L_Nfa L_Nfa2 L_Nfa3 L_Compdfa L_Compdfa5 L_Dfasyn L_Dfasyn2.
Local Open Scope nat_scope.

(* stack *)
Lemma eval_more defs on : forall d e v, eval d defs on e = Ok v -> forall d', d <= d' -> eval d' defs on e = Ok v.
Proof.
  induction d as [|d IH]; intros e v E d' L; [discriminate|]. destruct d' as [|d']; [lia|]. assert (M : forall e v, eval d defs on e = Ok v -> eval d' defs on e = Ok v) by (intros; eapply IH; [eassumption|lia]).
  cbn [eval] in *. destruct e as [a b|a b|a b|a b c|a|n].
  - destruct (eval d defs on a) as [x|] eqn:A; [|discriminate]. rewrite (M _ _ A). cbn [bind] in *. destruct x; auto.
  - destruct (eval d defs on a) as [x|] eqn:A; [|discriminate]. rewrite (M _ _ A). cbn [bind] in *. destruct x; auto.
  - destruct (eval d defs on a) as [x|] eqn:A; [|discriminate]. rewrite (M _ _ A). cbn [bind] in *. destruct (eval d defs on b) as [y|] eqn:B; [|discriminate]. rewrite (M _ _ B). exact E.
  - destruct (eval d defs on a) as [x|] eqn:A; [|discriminate]. rewrite (M _ _ A). cbn [bind] in *. destruct x; auto.
  - destruct (eval d defs on a) as [x|] eqn:A; [|discriminate]. rewrite (M _ _ A). exact E.
  - destruct (defined defs n); auto.
Qed.
Definition enough (defs : tag_defs) (d : nat) (e : expr) : Prop := forall on, exists v, eval d defs on e = Ok v.
Lemma enough_more defs d d' e : enough defs d e -> d <= d' -> enough defs d' e.
Proof. intros H L on. destruct (H on) as (v & E). exists v. eapply eval_more; eassumption. Qed.
Lemma enough_ranked defs rank : (forall n e, last_definition defs n = Some e -> forall tag, mentions e tag -> rank tag < rank n) ->
  forall r e, (forall tag, mentions e tag -> rank tag < r) -> exists d, enough defs d e.
Proof.
  intros Rk. induction r as [r IHr] using lt_wf_ind. induction e as [a IHa b IHb|a IHa b IHb|a IHa b IHb|a IHa b IHb c IHc|a IHa|n]; intros M; cbn [mentions] in M.
  1,2,3: destruct IHa as (d1 & H1); [auto|]; destruct IHb as (d2 & H2); [auto|]; exists (S (d1 + d2)); intros on; cbn [eval]; destruct (enough_more _ _ (d1 + d2) _ H1 ltac:(lia) on) as (x & ->); destruct (enough_more _ _ (d1 + d2) _ H2 ltac:(lia) on) as (y & ->); cbn [bind]; destruct x; eauto.
  - destruct IHa as (d1 & H1); [auto|]; destruct IHb as (d2 & H2); [auto|]; destruct IHc as (d3 & H3); [auto|]. exists (S (d1 + d2 + d3)). intros on. cbn [eval].
    destruct (enough_more _ _ (d1 + d2 + d3) _ H1 ltac:(lia) on) as (x & ->). cbn [bind]. destruct x; [apply (enough_more _ _ _ _ H2)|apply (enough_more _ _ _ _ H3)]; lia.
  - destruct IHa as (d1 & H1); [auto|]. exists (S d1). intros on. cbn [eval]. destruct (H1 on) as (x & ->). cbn [bind]. eauto.
  - destruct (last_definition defs n) as [e'|] eqn:E.
    + destruct (IHr (rank n) (M n eq_refl) e' (Rk n e' E)) as (d & H). exists (S d). intros on. cbn [eval]. rewrite <- defined_last, E. apply H.
    + exists 1. intros on. cbn [eval]. rewrite <- defined_last, E. eauto.
Qed.
Definition all_lines (evs : list evaluator) : list (bytes * expr * bool) := flat_map attrs evs.
Lemma enough_lines defs : ranked defs -> forall l : list (bytes * expr * bool), exists d, forall line, In line l -> enough defs d (snd (fst line)).
Proof.
  intros (rank & Rk). induction l as [|line l (d & H)]; [exists 0; intros x []|].
  assert (B : forall e, exists r, forall tag, mentions e tag -> rank tag < r).
  { induction e as [a (r1 & H1) b (r2 & H2)|a (r1 & H1) b (r2 & H2)|a (r1 & H1) b (r2 & H2)|a (r1 & H1) b (r2 & H2) c (r3 & H3)|a (r1 & H1)|n]; cbn [mentions].
    1,2,3: exists (r1 + r2); intros tag [T|T]; [specialize (H1 tag T)|specialize (H2 tag T)]; lia.
    - exists (r1 + r2 + r3). intros tag [T|[T|T]]; [specialize (H1 tag T)|specialize (H2 tag T)|specialize (H3 tag T)]; lia.
    - exists r1. exact H1.
    - exists (S (rank n)). intros tag <-. lia. }
  destruct (B (snd (fst line))) as (r & Hr). destruct (enough_ranked defs rank Rk r _ Hr) as (d' & H'). exists (d + d'). intros x [<-|I]; [eapply enough_more; [exact H'|lia]|eapply enough_more; [apply H; exact I|lia]].
Qed.

(* attributes *)
Lemma attr_total fuel defs on : forall l m, (forall line, In line l -> enough defs fuel (snd (fst line))) -> exists r, evaluate_attr fuel defs on m l = Ok r.
Proof.
  induction l as [|[[a e] ea] l IH]; intros m H; cbn [evaluate_attr]; [eauto|]. destruct (H (a, e, ea) (or_introl eq_refl) on) as (v & E). cbn [fst snd] in E. rewrite E. cbn [bind].
  assert (H' : forall line, In line l -> enough defs fuel (snd (fst line))) by (intros; apply H; right; assumption). destruct v; [destruct m|]; eauto.
Qed.
Lemma attrs_total fuel defs on : forall evs, (forall line, In line (all_lines evs) -> enough defs fuel (snd (fst line))) -> exists r, evaluate_attrs fuel defs on evs = Ok r.
Proof.
  induction evs as [|x evs IH]; intros H; cbn [evaluate_attrs]; [eauto|]. unfold all_lines in H. cbn [flat_map] in H.
  destruct (attr_total fuel defs on (attrs x) None) as ([m one] & ->); [intros; apply H, in_or_app; auto|]. cbn [bind].
  destruct IH as ([[vs early] ok] & ->); [intros; apply H, in_or_app; auto|]. cbn [bind]. eauto.
Qed.
Definition twice (defs : tag_defs) (on : list bytes) (l : list (bytes * expr * bool)) : Prop := exists l1 a l2 b l3, l = l1 ++ a :: l2 ++ b :: l3 /\ line_on defs on a /\ line_on defs on b.
Lemma attr_some_false fuel defs on : forall l v r, evaluate_attr fuel defs on (Some v) l = Ok (r, false) -> exists l1 a l2, l = l1 ++ a :: l2 /\ line_on defs on a.
Proof.
  induction l as [|[[a e] ea] l IH]; intros v r E; cbn [evaluate_attr] in E; [discriminate|]. destruct (eval fuel defs on e) as [x|] eqn:Ee; [|discriminate]. cbn [bind] in E. destruct x.
  - exists [], (a, e, ea), l. split; [reflexivity|]. apply eval_truth in Ee. exact Ee.
  - apply IH in E. destruct E as (l1 & b & l2 & -> & T). exists ((a, e, ea) :: l1), b, l2. auto.
Qed.
Lemma attr_false fuel defs on : forall l r, evaluate_attr fuel defs on None l = Ok (r, false) -> twice defs on l.
Proof.
  induction l as [|[[a e] ea] l IH]; intros r E; cbn [evaluate_attr] in E; [discriminate|]. destruct (eval fuel defs on e) as [x|] eqn:Ee; [|discriminate]. cbn [bind] in E. destruct x.
  - apply attr_some_false in E. destruct E as (l1 & b & l2 & -> & T). apply eval_truth in Ee. exists [], (a, e, ea), l1, b, l2. auto.
  - apply IH in E. destruct E as (l1 & b & l2 & c & l3 & -> & T). exists ((a, e, ea) :: l1), b, l2, c, l3. auto.
Qed.
Lemma attr_true fuel defs on : forall l r, evaluate_attr fuel defs on None l = Ok (r, true) -> ~ twice defs on l.
Proof.
  induction l as [|[[a e] ea] l IH]; intros r E (l1 & x & l2 & y & l3 & Q & Tx & Ty); cbn [evaluate_attr] in E; [destruct l1; discriminate|].
  destruct (eval fuel defs on e) as [z|] eqn:Ee; [|discriminate]. cbn [bind] in E. apply eval_truth in Ee. destruct z.
  - apply attr_some in E. destruct E as (_ & H). destruct l1 as [|z l1]; injection Q as <- ->; [apply (H y)|apply (H x)]; auto; apply in_or_app; right; left; reflexivity.
  - destruct l1 as [|z l1]; injection Q as <- ->.
    + unfold line_on in Tx. cbn in Tx. pose proof (truth_det _ _ _ _ Ee _ Tx). discriminate.
    + apply (IH _ E). exists l1, x, l2, y, l3. auto.
Qed.
Lemma attrs_one fuel defs on : forall evs vs early ok, evaluate_attrs fuel defs on evs = Ok (vs, early, ok) -> if ok then forall x, In x evs -> ~ twice defs on (attrs x) else exists x, In x evs /\ twice defs on (attrs x).
Proof.
  induction evs as [|x evs IH]; intros vs early ok E; cbn [evaluate_attrs] in E; [injection E as <- <- <-; intros x []|].
  destruct (evaluate_attr fuel defs on None (attrs x)) as [[m one]|] eqn:E1; [|discriminate]. cbn [bind] in E. destruct (evaluate_attrs fuel defs on evs) as [[[vs' early'] ok']|] eqn:E2; [|discriminate]. cbn [bind] in E. injection E as <- <- <-.
  specialize (IH _ _ _ eq_refl). destruct one; cbn [andb].
  - apply attr_true in E1. destruct ok'; [intros y [<-|I]; auto|]. destruct IH as (y & I & T). exists y. split; [right; exact I|exact T].
  - apply attr_false in E1. exists x. split; [left; reflexivity|exact E1].
Qed.

(* there are finitely many sets of states *)
Fixpoint bools (n : nat) : list (list bool) := match n with O => [[]] | S k => map (cons true) (bools k) ++ map (cons false) (bools k) end.
Lemma bools_in : forall n l, length l = n -> In l (bools n).
Proof. induction n as [|n IH]; intros [|x l] L; cbn in *; try discriminate; [auto|]. apply in_or_app. destruct x; [left|right]; apply in_map, IH; lia. Qed.
Lemma rows_bound n rows : NoDup rows -> Forall (row_ok n) rows -> length rows <= length (bools n).
Proof.
  intros D O. rewrite <- (map_length (fun r => map (has r) (seq 0 n))). apply NoDup_incl_length.
  - induction D as [|r rows I D IH]; [constructor|]. inversion O as [|? ? Or O']; subst. cbn [map]. constructor; [|auto]. intros J. apply in_map_iff in J. destruct J as (r' & E & J). apply I. replace r with r'; [exact J|].
    rewrite Forall_forall in O'. specialize (O' r' J). apply (row_ext n); auto. intros m. destruct (Nat.lt_ge_cases m n) as [L|L].
    + assert (X : nth m (map (has r') (seq 0 n)) true = nth m (map (has r) (seq 0 n)) true) by congruence. rewrite !nth_indep with (d' := has r' 0) (d := true) in X by (rewrite map_length, seq_length; exact L). rewrite map_nth in X. rewrite nth_indep with (d' := has r 0) in X by (rewrite map_length, seq_length; exact L). rewrite map_nth in X. rewrite seq_nth in X by exact L. exact X.
    + destruct (has r' m) eqn:A; [pose proof (has_lt _ _ _ O' A); lia|]. destruct (has r m) eqn:B; [pose proof (has_lt _ _ _ Or B); lia|]. reflexivity.
  - intros l J. apply in_map_iff in J. destruct J as (r & <- & _). apply bools_in. rewrite map_length, seq_length. reflexivity.
Qed.

(* the closure *)
Lemma immediate_total : forall ts row, (forall k d, ~ In (TT_CHARCLASS k, d) ts) -> exists row', immediate row ts = Ok row'.
Proof.
  induction ts as [|[y d] ts IH]; intros row H; cbn [immediate]; [eauto|]. assert (H' : forall k d, ~ In (TT_CHARCLASS k, d) ts) by (intros k e I; apply (H k e); right; exact I).
  destruct y as [|t|k]; [apply IH; exact H'|apply IH; exact H'|]. exfalso. apply (H k d). left. reflexivity.
Qed.
Lemma immediates_total n : forall b i, (forall st k d, In st b -> ~ In (TT_CHARCLASS k, d) (transitions st)) -> exists rows, immediates i n b = Ok rows.
Proof.
  induction b as [|s b IH]; intros i H; cbn [immediates]; [eauto|]. destruct (immediate_total (transitions s) (row_set (repeat 0%N (round_up n)) i)) as (row & ->); [intros; apply H; left; reflexivity|]. cbn [bind].
  destruct (IH (S i)) as (rows & ->); [intros; apply H; right; assumption|]. cbn [bind]. eauto.
Qed.
Lemma closure_total b : (forall p y q, edge b p y q -> q < length b) -> (forall p k q, ~ edge b p (TT_CHARCLASS k) q) -> exists eclo, generate_epsilon_closure b = Ok eclo.
Proof.
  intros D N. unfold generate_epsilon_closure. destruct (immediates_total (length b) b 0) as (rows & E1).
  { intros st k d I J. apply In_nth_error in I. destruct I as (p & I). apply (N p k d). exists st. auto. }
  rewrite E1. cbn [bind]. apply immediates_ok in E1; [| |lia].
  2:{ intros st t I J. destruct t as [y q]. cbn. apply In_nth_error in I. destruct I as [p I]. apply (D p y q). exists st. auto. }
  destruct E1 as [L H]. destruct (close_rows_ok b (length b) eq_refl (length b) rows 0 eq_refl L) as (eclo' & E2 & _); [|intros; lia|eauto].
  intros p Hp. destruct (nth_error b p) as [st|] eqn:Ep; [|apply nth_error_None in Ep; lia]. destruct (H p st Ep) as (A & B & C). split; [exact A|]. split; [|split].
  + intros q T. apply B in T. destruct T as [->|T]; [constructor|]. econstructor; [|constructor]. exists st. auto.
  + apply B. left. reflexivity.
  + intros q (st' & X & Y). rewrite Ep in X. injection X as <-. apply B. auto.
Qed.

Lemma nth_set {A} (l : list A) : forall i x j, i < length l -> nth_error (set_nth l i x) j = if i =? j then Some x else nth_error l j.
Proof. induction l as [|a l IH]; intros [|i] x [|j] L; cbn in *; try lia; auto. apply IH. lia. Qed.
Lemma nodes_set (nodes : list dfa_node) i d m : nth_error nodes i = Some d -> map d_nfas (set_nth nodes i (set_map d m)) = map d_nfas nodes.
Proof. revert i. induction nodes as [|e nodes IH]; intros [|i] E; cbn in *; try discriminate; [injection E as ->; reflexivity|]. rewrite (IH i E). reflexivity. Qed.
Section Out.
Variables (F : nfa_file) (m : list Z) (ncc : nat) (eclo : list (list N)).
Let nt := f_ntokens F + ncc.
Let cs := map make_class (f_classes F).
Let b1 := expand_charclass_transitions (f_ntokens F) cs m (f_block F).
Let R := f_rules F.
Hypothesis classes : Forall class_ok (f_classes F).
Hypothesis G : groups (reduce_list (f_block F) cs) m ncc.
Hypothesis W : wellformed F.
Hypothesis EC : generate_epsilon_closure b1 = Ok eclo.
Hypothesis En : forall line, In line (all_lines (r_evs R)) -> enough (r_defs R) (r_fuel R) (snd (fst line)).
Definition known_row (row : list N) : Prop := faulty F \/ exists e w, In e (f_entries F) /\ known F w /\ readable F e w /\ forall q, has row q = true <-> path F e w q.
Let known_node (d : dfa_node) : Prop := known_row (d_nfas d).
Lemma twice_ambiguous d e w x : means F d e w -> In x (r_evs R) -> twice (r_defs R) (tags_of b1 (d_nfas d)) (attrs x) -> ambiguous F e w.
Proof.
  intros M I (l1 & a & l2 & b & l3 & Q & A & B). exists x, l1, a, l2, b, l3. split; [exact I|]. split; [exact Q|]. split; apply (means_line F m d e w); assumption.
Qed.
Lemma mixed_clean d e w : means F d e w -> (mixed F e w <-> ~ clean b1 R (d_nfas d)).
Proof.
  intros M. unfold clean, mixed. destruct (existsb _ (tags_of b1 (d_nfas d))) eqn:X.
  - split; [discriminate|]. intros _. apply existsb_exists in X. destruct X as (tag & I & X). exists tag. split; [apply (means_tags F m d e w tag M); exact I|]. fold R. rewrite defined_last. destruct (defined (r_defs R) tag); congruence.
  - split; [|intros H; exfalso; apply H; reflexivity]. intros (tag & T & Df). exfalso. apply (means_tags F m d e w tag M) in T. fold cs b1 in T.
    assert (Y : existsb (fun m0 => match defined (r_defs R) m0 with Some _ => true | None => false end) (tags_of b1 (d_nfas d)) = true); [|congruence]. apply existsb_exists. exists tag. split; [exact T|]. fold R in Df. rewrite defined_last in Df. destruct (defined (r_defs R) tag); [reflexivity|congruence].
Qed.
Lemma find_or_add_out row nodes : known_row row -> Forall known_node nodes ->
  match find_or_add R b1 nt row nodes with Ok (i, nodes') => Forall known_node nodes' | Err e => e = E_exit 2 /\ faulty F end.
Proof.
  intros K Kn. unfold find_or_add. destruct (find_dfa row nodes); [exact Kn|]. unfold add_dfa. destruct (existsb _ (tags_of b1 row)) eqn:X; cbn [bind].
  - split; [reflexivity|]. destruct K as [K|(e & w & I & Kw & Rd & M)]; [exact K|]. exists e, w. split; [exact I|]. split; [exact Kw|]. split; [exact Rd|]. right. apply (mixed_clean (Node row [] [] false false) e w M). unfold clean. cbn [d_nfas]. rewrite X. discriminate.
  - destruct (attrs_total (r_fuel R) (r_defs R) (tags_of b1 row) (r_evs R) En) as ([[vs early] ok] & ->). cbn [bind]. apply Forall_app. split; [exact Kn|]. constructor; [exact K|constructor].
Qed.
Lemma entries_out : forall es nodes, (forall e, In e es -> In e (f_entries F)) -> Forall known_node nodes ->
  match add_entries R b1 nt eclo es nodes with Ok (is_, nodes') => Forall known_node nodes' | Err e => e = E_exit 2 /\ faulty F end.
Proof.
  induction es as [|e es IH]; intros nodes I Kn; cbn [add_entries]; [exact Kn|].
  assert (Le : e < length b1) by (apply (entries_b1 F m W); apply I; left; reflexivity).
  destruct (the_closure F m eclo W EC) as (Lc & Hc & _). destruct (Hc e Le) as (Or & Hr).
  assert (K : known_row (or_row (repeat 0%N (round_up (length b1))) (nth e eclo []))).
  { right. exists e, []. split; [apply I; left; reflexivity|]. split; [constructor|]. split; [split; [exists e; constructor|apply overrun_nil]|]. intros q. rewrite or_has by (rewrite repeat_length; symmetry; apply Or). rewrite zero_has. cbn [orb]. fold cs b1 in Hr. rewrite Hr, path_nil. apply eps_b1. }
  pose proof (find_or_add_out _ nodes K Kn) as H. destruct (find_or_add R b1 nt _ nodes) as [[i nodes1]|err]; cbn [bind]; [|exact H].
  assert (I' : forall e, In e es -> In e (f_entries F)) by (intros; apply I; right; assumption). specialize (IH nodes1 I' H). destruct (add_entries R b1 nt eclo es nodes1) as [[is_ nodes2]|err]; exact IH.
Qed.
Lemma token_symbol t : t < nt -> exists s, known F [s] /\ tok (f_ntokens F) m s = Z.of_nat t.
Proof.
  intros L. destruct (Nat.lt_ge_cases t (f_ntokens F)) as [Q|Q].
  - exists (Tok t). split; [constructor; [exact Q|constructor]|reflexivity].
  - destruct (gr_used _ _ _ G (t - f_ntokens F)) as (c & C & E); [unfold nt in L; lia|]. exists (Chr c). split; [constructor; [exact C|constructor]|]. unfold tok. rewrite (char_tok F m ncc G c C), E. destruct (0 <=? Z.of_nat (t - f_ntokens F))%Z eqn:Z0; lia.
Qed.
Lemma next_known d t : node_ok b1 R d -> known_node d -> d_early d = false -> t < nt -> snd (targets b1 eclo (d_nfas d) t) = true -> known_row (fst (targets b1 eclo (d_nfas d) t)).
Proof.
  intros (Or & Cl & Ev) K Ea L Any. destruct K as [K|(e & w & I & Kw & (Rd & Ov) & M)]; [left; exact K|].
  pose proof (attrs_one _ _ _ _ _ _ _ Ev) as One. destruct (d_one d) eqn:Q.
  2:{ left. destruct One as (x & Ix & T). exists e, w. split; [exact I|]. split; [exact Kw|]. split; [split; assumption|]. left. exact (twice_ambiguous d e w x M Ix T). }
  right. destruct (token_symbol t L) as (s & Ks & Ts). exists e, (w ++ [s]). split; [exact I|]. split; [apply Forall_app; split; assumption|].
  destruct (the_closure F m eclo W EC) as (Lc & Hc & _).
  destruct (targets_ok b1 eclo Lc (edge_b1 F m W) Hc (d_nfas d) t) as (_ & Tq & Ta).
  assert (SE : forall p q, (exists y, edge (f_block F) p y q /\ fits (f_classes F) y s) <-> edge b1 p (TT_TOKEN t) q).
  { intros p q. pose proof (symbol_edge (f_classes F) (f_block F) (f_ntokens F) m ncc classes G) as SE. specialize (SE (fun p' q' y E' => proj2 (wf_edge _ _ _ _ W E')) p q s). specialize (SE ltac:(inversion Ks; assumption)). cbv zeta in SE.
    replace (match s with Tok t0 => Z.of_nat t0 | Chr c => nth c (char2tok (f_ntokens F) m) (-1)%Z end) with (Z.of_nat t) in SE by (rewrite <- Ts; reflexivity). rewrite Nat2Z.id in SE. fold cs b1 in SE. rewrite SE. split; [tauto|]. intros H. split; [lia|exact H]. }
  assert (PT : forall q, has (fst (targets b1 eclo (d_nfas d) t)) q = true <-> path F e (w ++ [s]) q).
  { intros q. rewrite Tq, path_snoc. split.
    - intros (p & dd & A & E1 & E2). destruct (proj2 (SE p dd) E1) as (y & X & Y). exists p, y, dd. split; [apply M; exact A|]. split; [exact X|]. split; [exact Y|]. apply (eps_b1 F m). exact E2.
    - intros (p & y & dd & A & X & Y & E2). exists p, dd. split; [apply M; exact A|]. split; [apply (proj1 (SE p dd)); eauto|]. apply (eps_b1 F m). exact E2. }
  split; [split|exact PT].
  - destruct (proj1 Ta Any) as (q & Hq). exists q. apply PT. exact Hq.
  - rewrite overrun_snoc. intros [X|X]; [exact (Ov X)|]. destruct (attrs_ok _ _ _ _ _ _ Ev) as (_ & _ & E). assert (Y : d_early d = true); [|congruence]. apply E. destruct X as (x & line & A & B & C & D). exists x, line. split; [exact A|]. split; [exact B|]. split; [|exact D]. apply (means_line F m d e w line M). exact C.
Qed.
Lemma map_tokens_out d : node_ok b1 R d -> known_node d -> d_early d = false -> forall k t nodes, t + k <= nt -> Forall known_node nodes ->
  match map_tokens R b1 nt eclo (d_nfas d) k t nodes with Ok (zs, nodes') => Forall known_node nodes' | Err e => e = E_exit 2 /\ faulty F end.
Proof.
  intros Nd Kd Ea. induction k as [|k IH]; intros t nodes L Kn; cbn [map_tokens]; [exact Kn|]. pose proof (next_known d t Nd Kd Ea ltac:(lia)) as Nk.
  destruct (targets b1 eclo (d_nfas d) t) as [row any]. cbn [fst snd] in Nk. destruct any.
  - pose proof (find_or_add_out row nodes (Nk eq_refl) Kn) as H. destruct (find_or_add R b1 nt row nodes) as [[i nodes1]|err]; cbn [bind]; [|exact H].
    specialize (IH (S t) nodes1 ltac:(lia) H). destruct (map_tokens R b1 nt eclo (d_nfas d) k (S t) nodes1) as [[zs nodes2]|err]; exact IH.
  - cbn [bind]. specialize (IH (S t) nodes ltac:(lia) Kn). destruct (map_tokens R b1 nt eclo (d_nfas d) k (S t) nodes) as [[zs nodes2]|err]; exact IH.
Qed.
Lemma set_nodes (nodes : list dfa_node) i d ms : nth_error nodes i = Some d -> forall P : dfa_node -> Prop, P (set_map d ms) -> Forall P nodes -> Forall P (set_nth nodes i (set_map d ms)).
Proof. intros E P Pd H. apply Forall_forall. intros x I. apply In_nth_error in I. destruct I as (j & I). rewrite nth_set in I by (apply nth_error_Some; congruence). rewrite Forall_forall in H. destruct (i =? j); [injection I as <-; exact Pd|apply H; eapply nth_error_In; exact I]. Qed.
Lemma build_loop_out : forall fuel next nodes, length (bools (length b1)) <= next + fuel -> Forall (node_ok b1 R) nodes -> NoDup (map d_nfas nodes) -> Forall known_node nodes ->
  match build_loop fuel R b1 nt eclo next nodes with Ok nodes' => Forall (node_ok b1 R) nodes' /\ Forall known_node nodes' | Err e => e = E_exit 2 /\ faulty F end.
Proof.
  destruct (the_closure F m eclo W EC) as (Lc & Hc & _).
  induction fuel as [|f IH]; intros next nodes Lf Nn Dn Kn; cbn [build_loop]; destruct (nth_error nodes next) as [d|] eqn:Ed; [| auto | |auto].
  - exfalso. assert (next < length nodes) by (apply nth_error_Some; congruence). pose proof (rows_bound (length b1) (map d_nfas nodes) Dn) as B. rewrite map_length in B.
    assert (length nodes <= length (bools (length b1))); [|lia]. apply B. clear - Nn. induction Nn as [|x l H Nn IH]; constructor; [apply H|exact IH].
  - pose proof (nth_error_In _ _ Ed) as Id. assert (Nd : node_ok b1 R d) by (rewrite Forall_forall in Nn; auto). assert (Kd : known_node d) by (rewrite Forall_forall in Kn; auto).
    destruct (d_early d) eqn:Ea; [apply IH; auto; lia|].
    pose proof (map_tokens_out d Nd Kd Ea nt 0 nodes ltac:(lia) Kn) as H. destruct (map_tokens R b1 nt eclo (d_nfas d) nt 0 nodes) as [[zs nodes1]|err] eqn:E1; cbn [bind]; [|exact H].
    apply (map_tokens_ok b1 eclo R nt Lc (edge_b1 F m W) Hc) in E1; auto. destruct E1 as (_ & Nn1 & Dn1 & (ex & -> & _) & _).
    assert (Ed1 : nth_error (nodes ++ ex) next = Some d) by (rewrite nth_error_app1; [exact Ed|apply nth_error_Some; congruence]).
    apply IH; [lia| | |].
    + apply (set_nodes _ _ _ _ Ed1); [exact Nd|exact Nn1].
    + rewrite (nodes_set _ _ _ _ Ed1). exact Dn1.
    + apply (set_nodes _ _ _ _ Ed1); [exact Kd|exact H].
Qed.
Lemma build_out fuel : length (bools (length b1)) <= fuel ->
  match build_dfa fuel R b1 nt eclo (f_entries F) with Ok (is_, nodes) => Forall (node_ok b1 R) nodes /\ Forall known_node nodes | Err e => e = E_exit 2 /\ faulty F end.
Proof.
  intros L. destruct (the_closure F m eclo W EC) as (Lc & Hc & _). unfold build_dfa. pose proof (entries_out (f_entries F) [] (fun e I => I) (Forall_nil _)) as H.
  destruct (add_entries R b1 nt eclo (f_entries F) []) as [[is_ nodes]|err] eqn:E1; cbn [bind]; [|exact H].
  apply (entries_ok b1 eclo R nt Lc (edge_b1 F m W) Hc) in E1; [|apply (entries_b1 F m W)|constructor|constructor|constructor]. destruct E1 as (Nn & Dn & _).
  pose proof (build_loop_out fuel 0 nodes L Nn Dn H) as B. destruct (build_loop fuel R b1 nt eclo 0 nodes) as [nodes'|err]; cbn [bind]; exact B.
Qed.
End Out.

(* the depth of the stack does not matter to what a description means *)
Section Stack.
Variables (F : nfa_file) (d : nat).
Let F' := with_stack d F.
Lemma path_stack p w q : path F' p w q <-> path F p w q.
Proof. split; induction 1; try constructor; [eapply path_eps|eapply path_read|eapply path_eps|eapply path_read]; eassumption. Qed.
Lemma tagged_stack e w tag : tagged F' e w tag <-> tagged F e w tag.
Proof. split; intros (q & st & P & H); exists q, st; (split; [apply path_stack; exact P|exact H]). Qed.
Lemma applies_stack e w line : applies F' e w line <-> applies F e w line.
Proof. split; apply truth_ext; intros t; [|symmetry]; apply tagged_stack. Qed.
Lemma stops_stack e w : stops F' e w <-> stops F e w.
Proof. split; intros (x & line & A & B & C & D); exists x, line; (split; [exact A|]); (split; [exact B|]); (split; [apply applies_stack; exact C|exact D]). Qed.
Lemma readable_stack e w : readable F' e w <-> readable F e w.
Proof.
  assert (O : overrun F' e w <-> overrun F e w) by (split; intros (u & v & A & B & C); exists u, v; (split; [exact A|]); (split; [exact B|]); apply stops_stack; exact C).
  unfold readable. rewrite O. split; intros ((q & P) & H); (split; [exists q; apply path_stack; exact P|exact H]).
Qed.
Lemma bad_stack e w : ambiguous F' e w \/ mixed F' e w <-> ambiguous F e w \/ mixed F e w.
Proof.
  split; (intros [(x & l1 & a & l2 & b & l3 & A & B & C & D)|(tag & A & B)]; [left; exists x, l1, a, l2, b, l3; repeat split; auto; apply applies_stack; assumption|right; exists tag; split; [apply tagged_stack; exact A|exact B]]).
Qed.
Lemma faulty_stack : faulty F' <-> faulty F.
Proof. split; intros (e & w & A & B & C & D); exists e, w; (split; [exact A|]); (split; [exact B|]); (split; [apply readable_stack; exact C|apply bad_stack; exact D]). Qed.
Lemma faultless_stack : faultless F' -> faultless F.
Proof. intros H e w A B C. specialize (H e w A B (proj2 (readable_stack e w) C)). destruct H as (H1 & H2). split; intros X; [destruct (proj2 (bad_stack e w) (or_introl X))|destruct (proj2 (bad_stack e w) (or_intror X))]; auto. Qed.
End Stack.

Lemma range_refs F : references_ok F -> wellformed F.
Proof.
  intros (E & En). unfold wellformed, in_range. apply andb_true_iff. split.
  - apply forallb_forall. intros st I. apply forallb_forall. intros (y & q) J. apply In_nth_error in I. destruct I as (p & I). destruct (E p y q) as (A & B); [exists st; auto|]. cbn [fst snd]. apply andb_true_iff. split; [apply Nat.ltb_lt; exact A|]. destruct y; auto; apply Nat.ltb_lt; exact B.
  - apply forallb_forall. intros e I. apply Nat.ltb_lt. auto.
Qed.
Lemma used_low F k i : Forall class_ok (f_classes F) -> nth_error (f_classes F) i = Some k -> forall c, c < 256 -> low (make_class k) c = in_class c k.
Proof. intros Cl E c C. rewrite Forall_forall in Cl. destruct (Cl k (nth_error_In _ _ E)) as (Ck & _). apply (proj1 (proj2 (make_class_bits k Ck)) c C). Qed.
Lemma classes_split F : Forall class_ok (f_classes F) -> (forall k, used F k -> exists c, c < 256 /\ in_class c k = true) ->
  exists m ncc, split_charclasses (reduce_list (f_block F) (map make_class (f_classes F))) = Ok (m, ncc) /\ groups (reduce_list (f_block F) (map make_class (f_classes F))) m ncc.
Proof.
  intros Cl Ch. apply L_Charclass2.split_ok; [apply reduce_sound; exact Cl|]. destruct (reduce_list _ _) as [|x l] eqn:E; [left; reflexivity|right].
  assert (I : In x (reduce_list (f_block F) (map make_class (f_classes F)))) by (rewrite E; left; reflexivity). apply reduce_back in I. destruct I as (i & Ex & U). rewrite nth_error_map in Ex. destruct (nth_error (f_classes F) i) as [k|] eqn:Ek; [|discriminate]. cbn in Ex. injection Ex as <-.
  apply used_back in U. destruct U as (p & q & Eg). destruct (Ch k) as (c & C & T); [exists i; eauto|]. exists c, (make_class k). split; [exact C|]. split; [left; reflexivity|]. rewrite (used_low F k i Cl Ek c C). exact T.
Qed.
Lemma classes_gone F m ncc : references_ok F -> Forall class_ok (f_classes F) -> (forall k, used F k -> exists c, c < 256 /\ in_class c k = true) -> groups (reduce_list (f_block F) (map make_class (f_classes F))) m ncc ->
  forall p k q, ~ edge (expand_charclass_transitions (f_ntokens F) (map make_class (f_classes F)) m (f_block F)) p (TT_CHARCLASS k) q.
Proof.
  intros Rf Cl Ch G p k q E. apply expanded_edge in E. destruct E as (E & H). pose proof (proj2 (proj1 Rf p _ q E)) as L. cbn in L. destruct (nth_error (f_classes F) k) as [kk|] eqn:Ek; [|apply nth_error_None in Ek; lia].
  destruct (Ch kk) as (c & C & T); [exists k; eauto|]. assert (So : Forall sound_map (map make_class (f_classes F))) by (apply Forall_forall; intros x I; apply in_map_iff in I; destruct I as (k0 & <- & I); rewrite Forall_forall in Cl; destruct (Cl k0 I); apply sound_class; assumption).
  assert (Lw : low (make_class kk) c = true) by (rewrite (used_low F kk k Cl Ek c C); exact T).
  assert (Nn : nth c m (-1)%Z <> (-1)%Z).
  { intros X. rewrite (proj1 (gr_none _ _ _ G c C) X (make_class kk)) in Lw; [discriminate|]. apply (reduce_in _ _ k); [apply map_nth_error; exact Ek|eapply used_edge; exact E]. }
  pose proof (gr_range _ _ _ G c C) as Rg. pose proof (gr_count _ _ _ G) as Cn. specialize (H (Z.to_nat (nth c m (-1)%Z)) ltac:(lia)).
  assert (Y : cc_test_bit (group_bitmap m (nth k (map make_class (f_classes F)) clear_all)) (Z.to_nat (nth c m (-1)%Z)) = true); [|congruence].
  apply (class_group _ _ _ _ So G k (make_class kk)); [apply map_nth_error; exact Ek|eapply used_edge; exact E|lia|]. exists c. split; [exact C|]. split; [exact Lw|]. lia.
Qed.
Lemma outcome F : well_made F -> exists d0 f0, forall stack fuel qsort ud, d0 <= stack -> f0 <= fuel -> sorts qsort ->
  (faultless F /\ exists sc, dfasyn fuel qsort ud (with_stack stack F) = Ok sc) \/ (faulty F /\ dfasyn fuel qsort ud (with_stack stack F) = Err (E_exit 2)).
Proof.
  intros [Df Rf Cl Ch Rk]. destruct (enough_lines _ Rk (all_lines (r_evs (f_rules F)))) as (d0 & En). destruct (classes_split F Cl Ch) as (m & ncc & Sp & G).
  pose proof (range_refs F Rf) as W. pose proof (classes_gone F m ncc Rf Cl Ch G) as Gone. pose proof (edge_b1 F m W) as Eb.
  destruct (closure_total _ Eb Gone) as (eclo & EC). set (b1 := expand_charclass_transitions (f_ntokens F) (map make_class (f_classes F)) m (f_block F)) in *.
  exists d0, (length (bools (length b1))). intros stack fuel qsort ud Ls Lf So. set (F' := with_stack stack F).
  assert (W' : wellformed F') by exact W. assert (En' : forall line, In line (all_lines (r_evs (f_rules F'))) -> enough (r_defs (f_rules F')) (r_fuel (f_rules F')) (snd (fst line))) by (intros line I; eapply enough_more; [apply En; exact I|exact Ls]).
  pose proof (build_out F' m ncc eclo Cl G W' EC En' fuel Lf) as B. 
  unfold dfasyn. replace (existsb _ (r_evs (f_rules F'))) with false.
  2:{ symmetry. apply not_true_is_false. intros X. apply existsb_exists in X. destruct X as (x & I & X). specialize (Df x I). destruct (defattr x); congruence. }
  rewrite W'. cbn [negb]. change (f_block F') with (f_block F). change (f_classes F') with (f_classes F). change (f_ntokens F') with (f_ntokens F). rewrite Sp. cbn [bind]. fold b1. rewrite EC. cbn [bind].
  change (expand_charclass_transitions (f_ntokens F') (map make_class (f_classes F')) m (f_block F')) with b1 in B. change (f_ntokens F') with (f_ntokens F) in B.
  destruct (build_dfa fuel (f_rules F') b1 (f_ntokens F + ncc) eclo (f_entries F')) as [[is_ nodes]|err] eqn:BD; cbn [bind].
  2:{ right. destruct B as (-> & B). split; [apply (faulty_stack F stack); exact B|reflexivity]. }
  destruct B as (Nn & Kn). destruct (existsb (fun d => negb (d_one d)) nodes) eqn:On.
  - right. split; [|reflexivity]. apply (faulty_stack F stack). apply existsb_exists in On. destruct On as (d & I & On). rewrite Forall_forall in Nn, Kn. destruct (Nn d I) as (_ & _ & Ev). destruct (Kn d I) as [K|(e & w & A & Kw & Rd & M)]; [exact K|].
    pose proof (attrs_one _ _ _ _ _ _ _ Ev) as One. destruct (d_one d); [discriminate|]. destruct One as (x & Ix & T). exists e, w. split; [exact A|]. split; [exact Kw|]. split; [exact Rd|]. left. exact (twice_ambiguous F' m d e w x M Ix T).
  - left. assert (On' : Forall (fun d => d_one d = true) nodes).
    { apply Forall_forall. intros d I. destruct (d_one d) eqn:Q; [reflexivity|]. assert (Y : existsb (fun d => negb (d_one d)) nodes = true); [|congruence]. apply existsb_exists. exists d. rewrite Q. auto. }
    split.
    + apply (faultless_stack F stack). fold F'. intros e w Ie Kw Rd. apply In_nth_error in Ie. destruct Ie as (j & Ej). destruct (bu F' m ncc eclo fuel is_ nodes W' EC (entries_b1 F' m W') BD) as (F2 & _).
      assert (Ei : exists i0, nth_error is_ j = Some i0) by (clear - F2 Ej; revert j Ej; induction F2 as [|x y l l' H F2 IH]; intros [|j] Ej; cbn in *; try discriminate; eauto). destruct Ei as (i0 & Ei).
      pose proof (run_ok F' m ncc eclo fuel is_ nodes Cl G W' EC BD On' j e i0 Ej Ei w Kw) as Rn. cbv zeta in Rn. destruct Rn as [(d & _ & Ed & M & _)|(_ & N)]; [|contradiction].
      pose proof (nth_error_In _ _ Ed) as I. rewrite Forall_forall in Nn. destruct (Nn d I) as (_ & Cln & Ev). split.
      * intros (x & l1 & a & l2 & c & l3 & Ix & Q & A & C). pose proof (attrs_one _ _ _ _ _ _ _ Ev) as One. rewrite Forall_forall in On'. rewrite (On' d I) in One. apply (One x Ix). exists l1, a, l2, c, l3. split; [exact Q|]. split; apply (means_line F' m d e w); assumption.
      * intros X. apply (mixed_clean F' m d e w M) in X. apply X. exact Cln.
    + assert (St : exists sc, stages fuel qsort true F' sc m ncc eclo is_ nodes (map Z.of_nat is_) nodes) by (eexists; constructor; try reflexivity; assumption). destruct St as (sc0 & St).
      destruct ud; [cbn [bind]; eauto|]. pose proof (first_sane _ _ _ _ _ _ _ _ _ _ _ _ St) as Sn. destruct (entries_first _ _ _ _ _ _ _ _ _ _ _ _ St) as (_ & Fe).
      destruct (compress_ok qsort (r_evs (f_rules F')) nodes (f_ntokens F' + ncc) is_ So Df Sn Fe) as (en & ns & -> & _). cbn [bind]. eauto.
Qed.

Lemma faulty_not F : faulty F -> ~ faultless F.
Proof. intros (e & w & A & B & C & D) H. destruct (H e w A B C). tauto. Qed.
Lemma no_default F fuel qsort ud : (exists x, In x (r_evs (f_rules F)) /\ defattr x = None) -> dfasyn fuel qsort ud F = Err (E_exit 1).
Proof. intros (x & I & E). unfold dfasyn. replace (existsb _ (r_evs (f_rules F))) with true; [reflexivity|]. symmetry. apply existsb_exists. exists x. rewrite E. auto. Qed.

(* the examples *)
Lemma words_made : well_made words_nfa.
Proof.
  constructor.
  - intros x [<-|[]]. discriminate.
  - assert (W : wellformed words_nfa) by (vm_compute; reflexivity). split; [intros p y q E; apply (wf_edge _ _ _ _ W E)|intros e I; apply wf_entry; assumption].
  - exact words_classes.
  - intros k (i & E & _). destruct i as [|[|[|i]]]; cbn in E; [injection E as <-; exists 48|injection E as <-; exists 97|injection E as <-; exists 35|destruct i; discriminate]; (split; [lia|reflexivity]).
  - exists (fun _ => 0). intros n e E. discriminate.
Qed.
(* Two conditions that are true of 1, and a tag with a definition. *)
Definition twofold_nfa : nfa_file :=
  Nfa 0 [Cc_simple digit] [State [(TT_CHARCLASS 0, 1)] []; State [(TT_CHARCLASS 0, 1)] [bs "A"; bs "B"]] [0]
    (Rules [Evaluator [(bs "a", E_TAG (bs "A"), false); (bs "b", E_TAG (bs "C"), false)] (Some (bs "none"))] [(bs "C", E_TAG (bs "B"))] 5).
Lemma twofold_made : well_made twofold_nfa.
Proof.
  constructor.
  - intros x [<-|[]]. discriminate.
  - assert (W : wellformed twofold_nfa) by (vm_compute; reflexivity). split; [intros p y q E; apply (wf_edge _ _ _ _ W E)|intros e I; apply wf_entry; assumption].
  - constructor; [exact digit_ok|constructor].
  - intros k (i & E & _). destruct i as [|[|i]]; cbn in E; [injection E as <-; exists 48|discriminate|discriminate]. split; [lia|reflexivity].
  - exists (fun t => if bytes_eqb t (bs "C") then 1 else 0). intros n e E tag M. cbn [r_defs f_rules twofold_nfa last_definition fst snd] in E. destruct (bytes_eqb (bs "C") n) eqn:Q; [|discriminate]. apply L_Mbox.bytes_eqb_iff in Q. subst n. cbn in E. injection E as <-. cbn [mentions] in M. subst tag. vm_compute. lia.
Qed.
Lemma twofold_faulty : faulty twofold_nfa.
Proof.
  exists 0, [Chr 49]. split; [left; reflexivity|]. split; [constructor; [cbv beta iota; lia|constructor]|].
  assert (P : path twofold_nfa 0 [Chr 49] 1).
  { eapply path_read; [exists (State [(TT_CHARCLASS 0, 1)] []); split; [reflexivity|left; reflexivity]|exists (Cc_simple digit); split; reflexivity|constructor]. }
  assert (Ta : forall t, In t [bs "A"; bs "B"] -> tagged twofold_nfa 0 [Chr 49] t) by (intros t I; exists 1, (State [(TT_CHARCLASS 0, 1)] [bs "A"; bs "B"]); split; [exact P|]; split; [reflexivity|exact I]).
  split; [split; [exists 1; exact P|]|].
  - intros (u & v & E & N & (x & line & [<-|[]] & [<-|[<-|[]]] & _ & X)); discriminate.
  - left. exists (Evaluator [(bs "a", E_TAG (bs "A"), false); (bs "b", E_TAG (bs "C"), false)] (Some (bs "none"))), [], (bs "a", E_TAG (bs "A"), false), [], (bs "b", E_TAG (bs "C"), false), [].
    split; [left; reflexivity|]. split; [reflexivity|]. split; unfold applies; cbn [fst snd].
    + apply T_set; [reflexivity|apply Ta; left; reflexivity].
    + eapply T_def; [reflexivity|]. apply T_set; [reflexivity|apply Ta; right; left; reflexivity].
Qed.
(* A tag defined by itself. *)
Definition circle_nfa : nfa_file := Nfa 1 [] [State [] []] [0] (Rules [Evaluator [(bs "a", E_TAG (bs "A"), false)] (Some (bs "none"))] [(bs "A", E_NOT (E_TAG (bs "A")))] 5).
Lemma circle_refuted : exists F, references_ok F /\ (forall x, In x (r_evs (f_rules F)) -> defattr x <> None) /\ f_classes F = [] /\ forall stack fuel qsort ud, dfasyn fuel qsort ud (with_stack stack F) = Err E_ub.
Proof.
  exists circle_nfa. split; [|split; [intros x [<-|[]]; discriminate|split; [reflexivity|]]].
  - assert (W : wellformed circle_nfa) by (vm_compute; reflexivity). split; [intros p y q E; apply (wf_edge _ _ _ _ W E)|intros e I; apply wf_entry; assumption].
  - assert (Ev : forall stack on, eval stack [(bs "A", E_NOT (E_TAG (bs "A")))] on (E_TAG (bs "A")) = Err E_ub /\ eval stack [(bs "A", E_NOT (E_TAG (bs "A")))] on (E_NOT (E_TAG (bs "A"))) = Err E_ub).
    { induction stack as [|s IH]; intros on; [split; reflexivity|]. destruct (IH on) as (A & B). split; cbn [eval].
      - replace (defined _ (bs "A")) with (Some (E_NOT (E_TAG (bs "A")))) by reflexivity. exact B.
      - rewrite A. reflexivity. }
    intros stack fuel qsort ud. unfold dfasyn. cbn [r_evs f_rules with_stack circle_nfa existsb defattr orb f_ntokens f_classes f_block f_entries length].
    replace (in_range 1 0 [State [] []] [0]) with true by reflexivity. cbn [negb]. replace (split_charclasses _) with (Ok (repeat (-1)%Z 256, 0)) by reflexivity. cbn [bind].
    replace (expand_charclass_transitions 1 (map make_class []) (repeat (-1)%Z 256) [State [] []]) with [State [] []] by reflexivity. replace (generate_epsilon_closure [State [] []]) with (Ok [[1%N]]) by reflexivity. cbn [bind].
    unfold build_dfa. cbn [add_entries]. unfold find_or_add. replace (find_dfa _ []) with (@None nat) by reflexivity. unfold add_dfa. replace (tags_of [State [] []] _) with (@nil bytes) by reflexivity. cbn [existsb].
    cbn [r_fuel r_defs r_evs evaluate_attrs attrs evaluate_attr]. rewrite (proj1 (Ev stack [])). reflexivity.
Qed.
(* A class without characters beside one with some. *)
Definition leftover_nfa : nfa_file := Nfa 0 [Cc_simple digit; no_letter] [State [(TT_CHARCLASS 0, 1); (TT_CHARCLASS 1, 1)] []; State [] [bs "A"]] [0] (Rules [Evaluator [(bs "a", E_TAG (bs "A"), false)] (Some (bs "none"))] [] 5).
Lemma leftover_refuted : exists F, references_ok F /\ (forall x, In x (r_evs (f_rules F)) -> defattr x <> None) /\ Forall class_ok (f_classes F) /\ r_defs (f_rules F) = [] /\ forall stack fuel qsort ud, dfasyn fuel qsort ud (with_stack stack F) = Err E_assert.
Proof.
  exists leftover_nfa. split; [|split; [intros x [<-|[]]; discriminate|split; [|split; [reflexivity|]]]].
  - assert (W : wellformed leftover_nfa) by (vm_compute; reflexivity). split; [intros p y q E; apply (wf_edge _ _ _ _ W E)|intros e I; apply wf_entry; assumption].
  - constructor; [exact digit_ok|]. exact (proj1 (proj2 empty_ok)).
  - intros stack fuel qsort ud. vm_compute. reflexivity.
Qed.
