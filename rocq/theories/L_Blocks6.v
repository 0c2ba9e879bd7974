(* Lemmas: the automaton of a description is as the description says *)
From Verif Require Import Base M_Charclass M_Dfasyn M_Compdfa M_Parse M_Blocks S_Dfasyn S_Blocks L_Blocks L_Blocks2 L_Blocks3 L_Blocks4 L_Blocks5.

Lemma decl_classes : forall d E E', match d with D_block b => b_instances b = [] | _ => True end -> add_decl E d = Ok E' -> prefix_of (n_classes E) (n_classes E').
Proof.
  intros d E E' P A. destruct d as [b|l|n alts|a|n l|n e|n|n m]; cbn [add_decl] in A.
  - unfold add_block in A. destruct (existsb _ _); [discriminate|]. rewrite P in A. cbn [add_instances bind] in A.
    destruct (add_states _ _ (b_states b)) as [[b2 E2]|] eqn:S; cbn [bind] in A; [|discriminate]. injection A as <-. cbn [n_classes]. apply add_states_grown in S. apply S.
  - revert E A. induction l as [|s l IHl]; intros E A; cbn [add_tokens] in A; [injection A as <-; apply prefix_refl|]. destruct (lookup_token E s); [discriminate|]. now apply IHl in A.
  - destruct (stimuli_of E alts []) as [[l E2]|] eqn:S; cbn [bind] in A; [|discriminate]. injection A as <-. cbn [n_classes]. apply stimuli_grown in S. apply S.
  - injection A as <-. apply prefix_refl.
  - injection A as <-. apply prefix_refl.
  - injection A as <-. apply prefix_refl.
  - injection A as <-. apply prefix_refl.
  - injection A as <-. apply prefix_refl.
Qed.
Lemma plain_instances : forall d, plain_decl d -> match d with D_block b => b_instances b = [] | _ => True end.
Proof. intros [] H; auto. apply H. Qed.
Lemma decls_prefix : forall ds E E', plain ds -> add_decls E ds = Ok E' -> prefix_of (n_classes E) (n_classes E').
Proof.
  induction ds as [|d ds IH]; intros E E' P H; cbn [add_decls] in H; [injection H as <-; apply prefix_refl|].
  destruct (add_decl E d) as [E1|] eqn:A; cbn [bind] in H; [|discriminate]. inversion P; subst. apply prefix_trans with (n_classes E1); [|now apply IH].
  now apply decl_classes with d; [apply plain_instances|].
Qed.
Lemma decl_ok : forall C d E ds E', plain ds -> plain_decl d -> env_ok C E ds -> add_decl E d = Ok E' -> prefix_of (n_classes E') C -> env_ok C E' (ds ++ [d]).
Proof.
  intros C d E ds E' Pd Pl O A PC. pose proof (eo_names _ _ _ O) as Nm. destruct d as [b|l|n alts|a|n l|n e|n|n m]; cbn [add_decl] in A.
  - now apply env_ok_block with E.
  - pose proof (names_ok_tokens C _ _ _ _ Nm A) as Nm'. apply add_tokens_ok in A as [_ ->]; [|apply Nm]. apply env_ok_other with E; auto; [discriminate|]. cbn [n_tokens]. rewrite app_length. lia.
  - destruct (stimuli_of E alts []) as [[l E2]|] eqn:S; cbn [bind] in A; [|discriminate]. injection A as <-. pose proof (names_ok_abbrev C _ _ n _ _ _ Nm S) as Nm'.
    pose proof (stimuli_quiet _ _ _ _ _ S) as (Q1 & Q2 & _). pose proof (stimuli_grown _ _ _ _ _ S) as (G1 & G2 & _). apply env_ok_other with E; auto; [discriminate|]. cbn [n_tokens]. now rewrite G2.
  - injection A as <-. apply env_ok_other with E; auto; [discriminate|]. apply names_ok_other; [exact Logic.I|exact Nm].
  - injection A as <-. apply env_ok_other with E; auto; [discriminate|]. apply names_ok_other; [exact Logic.I|exact Nm].
  - injection A as <-. apply env_ok_other with E; auto; [discriminate|]. apply names_ok_other; [exact Logic.I|exact Nm].
  - injection A as <-. apply env_ok_other with E; auto; [discriminate|]. apply names_ok_other; [exact Logic.I|exact Nm].
  - injection A as <-. apply env_ok_other with E; auto; [discriminate|]. apply names_ok_other; [exact Logic.I|exact Nm].
Qed.
Lemma decls_ok : forall C todo ds E E', plain ds -> plain todo -> env_ok C E ds -> add_decls E todo = Ok E' -> prefix_of (n_classes E') C -> env_ok C E' (ds ++ todo).
Proof.
  intros C. induction todo as [|d todo IH]; intros ds E E' P1 P2 O H PC; cbn [add_decls] in H; [injection H as <-; now rewrite app_nil_r|].
  destruct (add_decl E d) as [E1|] eqn:A; cbn [bind] in H; [|discriminate]. inversion P2; subst.
  replace (ds ++ d :: todo) with ((ds ++ [d]) ++ todo) by (now rewrite <- app_assoc). apply IH with E1; auto.
  - apply Forall_app. split; [exact P1|]. constructor; [assumption|constructor].
  - apply decl_ok with E; auto. apply prefix_trans with (n_classes E'); [|exact PC]. now apply decls_prefix with todo.
Qed.
Lemma empty_ok : forall C, env_ok C empty_env [].
Proof.
  intros C. constructor; cbn [empty_env n_blocks n_entries n_cur]; [|intros m []|intros m []| | |constructor|discriminate].
  - split; [reflexivity|]. split; [constructor|]. intros s. cbn. intros alts [].
  - intros T m X. discriminate.
  - intros T before D (after & E & _). destruct before; discriminate.
Qed.

(* the blocks put together *)
Definition blk (E : env) (x : nat) : cblock := nth x (n_blocks E) (Cblock [] [] 0 0).
Lemma resolve_length : forall b g, length (resolve b g) = length (k_states b).
Proof. intros b g. unfold resolve. apply map_length. Qed.
Lemma jumbo_at : forall E (g : nat -> nat) bs_ x i st, In x bs_ -> nth_error (resolve (blk E x) (g x)) i = Some st ->
  nth_error (flat_map (fun x => resolve (blk E x) (g x)) bs_) (offset E bs_ x + i) = Some st.
Proof.
  intros E g. induction bs_ as [|y bs_ IH]; intros x i st J H; [destruct J|]. cbn [flat_map offset]. destruct (y =? x) eqn:Ey.
  - apply Nat.eqb_eq in Ey as ->. rewrite Nat.add_0_l, nth_error_app1; [exact H|]. apply nth_error_Some. congruence.
  - apply Nat.eqb_neq in Ey. destruct J as [J|J]; [congruence|]. rewrite nth_error_app2; rewrite resolve_length; fold (blk E y); [|lia].
    replace (length (k_states (blk E y)) + offset E bs_ x + i - length (k_states (blk E y))) with (offset E bs_ x + i) by lia. now apply IH.
Qed.
Lemma jumbo_inv : forall E (g : nat -> nat) bs_ p st, nth_error (flat_map (fun x => resolve (blk E x) (g x)) bs_) p = Some st ->
  exists x i, In x bs_ /\ nth_error (resolve (blk E x) (g x)) i = Some st.
Proof.
  intros E g. induction bs_ as [|y bs_ IH]; intros p st H; cbn [flat_map] in H; [destruct p; discriminate|].
  destruct (lt_dec p (length (resolve (blk E y) (g y)))) as [L|L].
  - rewrite nth_error_app1 in H by exact L. exists y, p. split; [now left|exact H].
  - rewrite nth_error_app2 in H by lia. apply IH in H as (x & i & J & H). exists x, i. split; [now right|exact H].
Qed.
Lemma union_in : forall l seen x, In x (union_blocks l seen) <-> In x l \/ In x seen.
Proof.
  induction l as [|y l IH]; intros seen x; cbn [union_blocks]; [rewrite <- in_rev; cbn [In]; tauto|]. rewrite IH. destruct (existsb (Nat.eqb y) seen) eqn:Ex; cbn [In].
  - apply existsb_exists in Ex as (z & J & Ez). apply Nat.eqb_eq in Ez as <-. split; [tauto|]. intros [[<-|K]|K]; auto.
  - tauto.
Qed.
Section Paths.
Context (C : list char_class) (E : env) (bs_ : list nat) (x : nat) (m : cblock) (F : nfa_file).
Hypothesis (J : In x bs_) (Em : nth_error (n_blocks E) x = Some m) (Nd : NoDup (names (k_states m))) (n : nat) (Rf : refs C n (k_states m)) (Fb : f_block F = jumbo E bs_) (Fc : f_classes F = C).
Let off := offset E bs_ x.
Lemma blk_m : blk E x = m. Proof. unfold blk. now apply nth_error_nth. Qed.
Definition out (b : cblock) (g : nat) (s : cstate) : state :=
  State (map (fun t => (fst t, g + match find_name c_name 0 (k_states b) (snd t) with Some i => i | None => 0 end)) (c_trans s)) (c_tags s).
Lemma state_at : forall i s, nth_error (k_states m) i = Some s -> nth_error (f_block F) (off + i) = Some (out m off s).
Proof.
  intros i s H. rewrite Fb. unfold jumbo. apply (jumbo_at E (offset E bs_)); [exact J|]. rewrite blk_m. unfold resolve. now rewrite (map_nth_error _ _ _ H).
Qed.
Lemma name_unique : forall i i' p, name_at m i p -> name_at m i' p -> i = i'.
Proof. intros i i' p A B. apply (proj1 (NoDup_nth_error _) Nd); [apply nth_error_Some; unfold name_at in A; congruence|unfold name_at in *; congruence]. Qed.
Lemma name_find : forall q, In q (names (k_states m)) -> exists j, find_name c_name 0 (k_states m) q = Some j /\ name_at m j q.
Proof.
  intros q K. apply in_map_iff in K as (s & Ns & K). apply In_nth_error in K as [j K]. exists j. split; [now apply find_name_unique with s|].
  unfold name_at, names. rewrite (map_nth_error _ _ _ K). now rewrite Ns.
Qed.
Lemma edge_out : forall i p t r, name_at m i p -> edge (f_block F) (off + i) t r -> exists j q, r = off + j /\ name_at m j q /\ has (k_states m) p t q.
Proof.
  intros i p t r A (st & Es & K). destruct (name_at_state _ _ _ A) as (s & E1 & Ns). rewrite (state_at i s E1) in Es. injection Es as <-. cbn [out transitions] in K.
  apply in_map_iff in K as ([t' q] & X & K). cbn [fst snd] in X. assert (H : has (k_states m) p t' q) by (exists s; repeat split; auto; exact (nth_error_In _ _ E1)).
  destruct (name_find q (proj1 (Rf _ _ _ H))) as (j & Ej & Aj). rewrite Ej in X. injection X as <- <-. exists j, q. auto.
Qed.
Lemma edge_in : forall i p t q, name_at m i p -> has (k_states m) p t q -> exists j, name_at m j q /\ edge (f_block F) (off + i) t (off + j).
Proof.
  intros i p t q A H. destruct (name_find q (proj1 (Rf _ _ _ H))) as (j & Ej & Aj). exists j. split; [exact Aj|].
  destruct (name_at_state _ _ _ A) as (s & E1 & Ns). exists (out m off s). split; [now apply state_at|]. cbn [out transitions]. apply in_map_iff. exists (t, q). cbn [fst snd]. rewrite Ej. split; [reflexivity|].
  rewrite <- Ns in H. now apply (has_at m i s E1 Nd).
Qed.
Lemma path_out : forall p' w r, path F p' w r -> forall i p, p' = off + i -> name_at m i p -> exists j q, r = off + j /\ name_at m j q /\ npath C (k_states m) p w q.
Proof.
  intros p' w r H. induction H as [q|p' q w r Ed _ IH|p' y s q w r Ed Ft _ IH]; intros i p -> A.
  - exists i, p. split; [reflexivity|]. split; [exact A|constructor].
  - destruct (edge_out _ _ _ _ A Ed) as (j & p1 & Eq & A1 & H1). destruct (IH j p1 Eq A1) as (j2 & q2 & X1 & X2 & X3). exists j2, q2. split; [exact X1|]. split; [exact X2|]. now apply np_eps with p1.
  - destruct (edge_out _ _ _ _ A Ed) as (j & p1 & Eq & A1 & H1). destruct (IH j p1 Eq A1) as (j2 & q2 & X1 & X2 & X3). exists j2, q2. split; [exact X1|]. split; [exact X2|].
    apply np_read with y p1; auto. now rewrite <- Fc.
Qed.
Lemma path_in : forall p w q, npath C (k_states m) p w q -> forall i, name_at m i p -> exists j, name_at m j q /\ path F (off + i) w (off + j).
Proof.
  intros p w q H. induction H as [p|p q w r Ed _ IH|p y s q w r Ed Ft _ IH]; intros i A.
  - exists i. split; [exact A|constructor].
  - destruct (edge_in _ _ _ _ A Ed) as (j & Aj & Ej). destruct (IH j Aj) as (j2 & A2 & P2). exists j2. split; [exact A2|]. now apply path_eps with (off + j).
  - destruct (edge_in _ _ _ _ A Ed) as (j & Aj & Ej). destruct (IH j Aj) as (j2 & A2 & P2). exists j2. split; [exact A2|]. apply path_read with y (off + j); auto. now rewrite Fc.
Qed.
Lemma tagged_iff : forall i p w g, name_at m i p -> (tagged F (off + i) w g <-> exists q, npath C (k_states m) p w q /\ tagn (k_states m) q g).
Proof.
  intros i p w g A. split.
  - intros (r & st & P & Es & K). destruct (path_out _ _ _ P i p eq_refl A) as (j & q & -> & Aj & N). exists q. split; [exact N|].
    destruct (name_at_state _ _ _ Aj) as (s & E1 & Ns). rewrite (state_at j s E1) in Es. injection Es as <-. exists s. split; [exact (nth_error_In _ _ E1)|]. split; [exact Ns|exact K].
  - intros (q & N & T). destruct (path_in _ _ _ N i A) as (j & Aj & P). destruct (name_at_state _ _ _ Aj) as (s & E1 & Ns). exists (off + j), (out m off s).
    split; [exact P|]. split; [now apply state_at|]. cbn [out tags]. rewrite <- Ns in T. now apply (tag_at m j s E1 Nd).
Qed.
End Paths.
Lemma offset_bound : forall E bs_ x, In x bs_ -> offset E bs_ x + length (k_states (blk E x)) <= length (jumbo E bs_).
Proof.
  intros E bs_ x J. unfold jumbo. generalize (offset E bs_) at 2. intros g. revert J. induction bs_ as [|y bs_ IH]; [intros []|]. intros J. cbn [offset flat_map]. rewrite app_length, resolve_length. fold (blk E y).
  destruct (y =? x) eqn:Ey; [apply Nat.eqb_eq in Ey as ->; lia|]. apply Nat.eqb_neq in Ey. destruct J as [J|J]; [congruence|]. specialize (IH J). lia.
Qed.
(* What the automaton has to do with what was read. *)
Lemma nfa_shape : forall C stack E ds F, env_ok C E ds -> C = n_classes E -> nfa_of stack E = Ok F ->
  exists bs_, f_block F = jumbo E bs_ /\ f_classes F = C /\ f_ntokens F = length (n_tokens E) /\ f_rules F = Rules (map snd (n_evs E)) (n_defs E) stack /\
    (forall x, In x bs_ -> exists m, nth_error (n_blocks E) x = Some m) /\
    exists es, f_entries F = map (fun e => offset E bs_ (fst e) + snd e) es /\ Forall (fun e => In (fst e) bs_) es /\
      (forall j before b p, starts ds j before b p <-> exists e, nth_error es j = Some e /\ entry_ok C (n_blocks E) e (before, b, p) /\ starts ds j before b p) /\
      forall j e, nth_error es j = Some e -> exists before b p, starts ds j before b p /\ entry_ok C (n_blocks E) e (before, b, p).
Proof.
  intros C stack E ds F O -> H. unfold nfa_of in H. pose proof (eo_entries _ _ _ O) as Fe. pose proof (eo_cur _ _ _ O) as Fc.
  destruct (n_entries E) as [|e0 es0] eqn:En.
  - destruct (n_cur E) as [[x i]|] eqn:Ec; [|discriminate]. injection H as <-. destruct (Fc _ eq_refl) as ([[before b] p] & La & Eo).
    assert (Ef : entries_from [] ds = []). { inversion Fe as [X|]. rewrite <- (rev_involutive (entries_from [] ds)), <- H. reflexivity. }
    assert (St : starts ds 0 before b p). { unfold starts. rewrite Ef. split; [reflexivity|]. destruct La as (after & l & s & L1 & L2 & L3 & L4). cbn [fst snd] in *. exists after, l, s. auto. }
    exists [x]. repeat (split; [reflexivity|]). split; [intros y [<-|[]]; destruct Eo as (m & Em & _); eauto|]. exists [(x, i)]. cbn [f_entries map fst snd offset]. rewrite Nat.eqb_refl, Nat.add_0_l.
    split; [reflexivity|]. split; [constructor; [now left|constructor]|]. split.
    + intros j before' b' p'. split; [|intros (e & _ & _ & X); exact X]. intros St'. unfold starts in St'. rewrite Ef in St'. destruct St' as (-> & after & l & s & X1 & X2 & X3 & X4).
      exists (x, i). split; [reflexivity|]. destruct La as (after0 & l0 & s0 & L1 & L2 & L3 & L4). cbn [fst snd] in *.
      destruct (last_unique decl (fun d => exists c, d = D_block c) before before' after0 after (D_block b) (D_block b')) as (<- & Y & _); eauto;
        try (intros z Jz (c & ->); [apply (L2 c Jz) || apply (X2 c Jz)]); [congruence|].
      injection Y as <-. rewrite L3 in X3. apply app_inj_tail in X3 as [_ <-]. subst p p'. split; [exact Eo|]. unfold starts. rewrite Ef. split; [reflexivity|]. exists after, l0, s0. auto.
    + intros j e Ej. destruct j as [|j]; [|destruct j; discriminate]. injection Ej as <-. exists before, b, p. auto.
  - set (bs_ := union_blocks _ _) in H. injection H as <-. exists bs_. repeat (split; [reflexivity|]).
    assert (Bl : forall e, In e (e0 :: es0) -> exists z, entry_ok (n_classes E) (n_blocks E) (snd e) z). { intros e J. clear -Fe J. induction Fe as [|a z le lx Y _ IH]; [destruct J|]. destruct J as [<-|J]; [eauto|now apply IH]. }
    split. { intros x J. unfold bs_ in J. apply union_in in J as [J|[]]. apply in_map_iff in J as (e & <- & J). destruct (Bl e J) as (z & m & Em & _). eauto. }
    assert (Ef : starts ds = fun j before b p => nth_error (rev (entries_from [] ds)) j = Some (before, b, p)).
    { unfold starts. destruct (entries_from [] ds); [|reflexivity]. cbn [rev] in Fe. inversion Fe. }
    exists (map snd (e0 :: es0)). split; [cbn [f_entries]; now rewrite map_map|]. split.
    { apply Forall_forall. intros e J. apply in_map_iff in J as (e' & <- & J). unfold bs_. apply union_in. left. now apply in_map with (f := fun e => fst (snd e)). }
    rewrite Ef. clear - Fe. remember (e0 :: es0) as es eqn:X. clear X. split.
    + intros j before b p. split; [|intros (e & _ & _ & Y); exact Y]. intros Y. revert j Y. induction Fe as [|a z le lx Eo _ IH]; intros [|j] Y; cbn [nth_error] in Y; try discriminate.
      * injection Y as ->. exists (snd a). split; [reflexivity|]. split; [exact Eo|reflexivity].
      * destruct (IH j Y) as (e & X1 & X2 & X3). exists e. auto.
    + intros j e Y. revert j Y. induction Fe as [|a z le lx Eo _ IH]; intros [|j] Y; cbn [map nth_error] in Y; try discriminate.
      * injection Y as <-. destruct z as [[before b] p]. exists before, b, p. split; [reflexivity|exact Eo].
      * destruct (IH j Y) as (before & b & p & X1 & X2). exists before, b, p. auto.
Qed.
Section Final.
Context (stack : nat) (ds : list decl) (F : nfa_file).
Hypothesis (Pl : plain ds) (Co : compile stack ds = Ok F).
Lemma compiled : exists E, env_ok (n_classes E) E ds /\ nfa_of stack E = Ok F /\ add_decls empty_env ds = Ok E.
Proof.
  unfold compile in Co. destruct (add_decls empty_env ds) as [E|] eqn:A; cbn [bind] in Co; [|discriminate]. exists E. split; [|auto].
  change ds with ([] ++ ds). apply decls_ok with empty_env; auto; [constructor|apply empty_ok|apply prefix_refl].
Qed.
Theorem meaning_of_description : forall j e, nth_error (f_entries F) j = Some e -> exists before b p, starts ds j before b p /\ forall w tag, tagged F e w tag <-> sees before b p w tag.
Proof.
  destruct compiled as (E & O & Nf & _). destruct (nfa_shape _ _ _ _ _ O eq_refl Nf) as (bs_ & Fb & Fc & Ft & Fr & Bl & es & Fe & Ib & _ & St).
  intros j e H. rewrite Fe in H. destruct (nth_error es j) as [e'|] eqn:Ej.
  2:{ apply nth_error_None in Ej. rewrite <- (map_length (fun e => offset E bs_ (fst e) + snd e)) in Ej. apply nth_error_None in Ej. congruence. }
  rewrite (map_nth_error _ _ _ Ej) in H. injection H as <-. destruct (St j e' Ej) as (before & b & p & S1 & (m & Em & Me & Na & Nh)). cbn [fst snd] in *.
  exists before, b, p. split; [exact S1|]. intros w tag. assert (Jx : In (fst e') bs_) by (rewrite Forall_forall in Ib; apply Ib; exact (nth_error_In _ _ Ej)).
  assert (Jm : In m (n_blocks E)) by exact (nth_error_In _ _ Em).
  rewrite (tagged_iff (n_classes E) E bs_ (fst e') m F Jx Em (eo_nodup _ _ _ O _ Jm) _ (eo_refs _ _ _ O _ Jm) Fb Fc (snd e') p w tag Na). split.
  - intros (q & N & T). now apply (me_sees _ _ _ _ Me) with q.
  - apply (me_tag _ _ _ _ Me).
Qed.
Theorem scanner_for_each : forall j before b p, starts ds j before b p -> exists e, nth_error (f_entries F) j = Some e /\ forall w tag, tagged F e w tag <-> sees before b p w tag.
Proof.
  destruct compiled as (E & O & Nf & _). destruct (nfa_shape _ _ _ _ _ O eq_refl Nf) as (bs_ & Fb & Fc & Ft & Fr & Bl & es & Fe & Ib & St & _).
  intros j before b p S0. apply St in S0 as (e' & Ej & (m & Em & Me & Na & Nh) & _). cbn [fst snd] in *.
  exists (offset E bs_ (fst e') + snd e'). split; [rewrite Fe; now rewrite (map_nth_error _ _ _ Ej)|].
  intros w tag. assert (Jx : In (fst e') bs_) by (rewrite Forall_forall in Ib; apply Ib; exact (nth_error_In _ _ Ej)).
  assert (Jm : In m (n_blocks E)) by exact (nth_error_In _ _ Em).
  rewrite (tagged_iff (n_classes E) E bs_ (fst e') m F Jx Em (eo_nodup _ _ _ O _ Jm) _ (eo_refs _ _ _ O _ Jm) Fb Fc (snd e') p w tag Na). split.
  - intros (q & N & T). now apply (me_sees _ _ _ _ Me) with q.
  - apply (me_tag _ _ _ _ Me).
Qed.
Theorem references_of_description : references_ok F /\ f_ntokens F = length (tokens_in ds) /\ forall k, In k (f_classes F) -> class_in ds k.
Proof.
  destruct compiled as (E & O & Nf & A). destruct (nfa_shape _ _ _ _ _ O eq_refl Nf) as (bs_ & Fb & Fc & Ft & Fr & Bl & es & Fe & Ib & _ & St). split; [split|split].
  - intros p y q (st & Es & K). rewrite Fb in Es. apply (jumbo_inv E (offset E bs_)) in Es as (x & i & Jx & Es). destruct (Bl x Jx) as (m & Em).
    assert (Bm : blk E x = m) by (unfold blk; now apply nth_error_nth). rewrite Bm in Es. unfold resolve in Es.
    destruct (nth_error (k_states m) i) as [s|] eqn:E1.
    2:{ apply nth_error_None in E1. assert (X : i < length (k_states m)); [|lia]. rewrite <- (resolve_length m (offset E bs_ x)). apply nth_error_Some. unfold resolve. congruence. }
    rewrite (map_nth_error _ _ _ E1) in Es. injection Es as <-. cbn [transitions] in K. apply in_map_iff in K as ([t q'] & X & K). cbn [fst snd] in X.
    assert (H : has (k_states m) (c_name s) t q') by (exists s; repeat split; auto; exact (nth_error_In _ _ E1)).
    destruct (eo_refs _ _ _ O m (nth_error_In _ _ Em) _ _ _ H) as [In_ Ty]. destruct (name_find m (eo_nodup _ _ _ O _ (nth_error_In _ _ Em)) q' In_) as (j & Ej & Aj). rewrite Ej in X. injection X as <- <-.
    split.
    + rewrite Fb. pose proof (offset_bound E bs_ x Jx) as Ob. rewrite Bm in Ob. assert (j < length (k_states m)); [|lia]. destruct (name_at_state _ _ _ Aj) as (s' & E2 & _). apply nth_error_Some. congruence.
    + rewrite Ft, Fc. exact Ty.
  - intros e J. rewrite Fe in J. apply in_map_iff in J as (e' & <- & J). rewrite Forall_forall in Ib. pose proof (Ib e' J) as Jx. apply In_nth_error in J as [j J]. destruct (St j e' J) as (before & b & p & _ & (m & Em & _ & Na & _)).
    rewrite Fb. pose proof (offset_bound E bs_ _ Jx) as Ob. unfold blk in Ob. rewrite (nth_error_nth _ _ _ Em) in Ob. cbn [fst snd] in *. assert (snd e' < length (k_states m)); [|lia]. destruct (name_at_state _ _ _ Na) as (s' & E2 & _). apply nth_error_Some. congruence.
  - rewrite Ft. destruct (eo_names _ _ _ O) as (-> & _). reflexivity.
  - intros k J. rewrite Fc in J. apply (decls_classes ds empty_env E k) in J as [[]|J]; [exact J| |exact A]. intros d Jd. unfold plain in Pl. rewrite Forall_forall in Pl. now apply plain_instances, Pl.
Qed.
End Final.
