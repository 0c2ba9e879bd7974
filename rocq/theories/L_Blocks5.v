(* Lemmas about whole descriptions: what is in the environment after some declarations *)
From Verif Require Import Base M_Charclass M_Dfasyn M_Compdfa M_Parse M_Blocks S_Dfasyn S_Blocks L_Blocks L_Blocks2 L_Blocks3 L_Blocks4.
From Verif Require L_Mbox.

(* reading stimuli changes only the classes *)
Definition quiet (E E' : env) : Prop := n_entries E' = n_entries E /\ n_cur E' = n_cur E /\ n_evs E' = n_evs E /\ n_defs E' = n_defs E.
Lemma quiet_refl : forall E, quiet E E. Proof. now intros E. Qed.
Lemma quiet_trans : forall E F G, quiet E F -> quiet F G -> quiet E G.
Proof. intros E F G (A & B & C & D) (A' & B' & C' & D'). repeat split; congruence. Qed.
Lemma stimuli_quiet : forall l E acc r E1, stimuli_of E l acc = Ok (r, E1) -> quiet E E1.
Proof.
  induction l as [|x l IH]; intros E acc r E1 H; cbn [stimuli_of] in H; [injection H as <- <-; apply quiet_refl|].
  destruct (stimulus_of E x) as [[s E0]|] eqn:S0; cbn [bind] in H; [|discriminate]. apply quiet_trans with E0; [|now apply IH in H].
  destruct x as [n|T i o|k|]; cbn [stimulus_of] in S0.
  - destruct (lookup_abbrev E n); [injection S0 as <- <-; apply quiet_refl|]. destruct (lookup_token E n); [injection S0 as <- <-; apply quiet_refl|discriminate].
  - injection S0 as <- <-. apply quiet_refl.
  - injection S0 as <- <-. repeat split.
  - injection S0 as <- <-. apply quiet_refl.
Qed.
Lemma all_quiet : forall l E r E1, all_stimuli_of E l = Ok (r, E1) -> quiet E E1.
Proof.
  induction l as [|x l IH]; intros E r E1 H; cbn [all_stimuli_of] in H; [injection H as <- <-; apply quiet_refl|].
  destruct (stimuli_of E x []) as [[s E0]|] eqn:S0; cbn [bind] in H; [|discriminate]. destruct (all_stimuli_of E0 l) as [[ss E2]|] eqn:A; cbn [bind] in H; [|discriminate].
  injection H as <- <-. apply quiet_trans with E0; [now apply stimuli_quiet in S0|now apply IH in A].
Qed.
Lemma add_lines_quiet : forall ls E b cur b' E', add_lines E b cur ls = Ok (b', E') -> quiet E E'.
Proof.
  induction ls as [|l ls IH]; intros E b cur b' E' H; cbn [add_lines] in H; [injection H as <- <-; apply quiet_refl|].
  destruct (all_stimuli_of E (l_stims l)) as [[ss E1]|] eqn:A; cbn [bind] in H; [|discriminate]. destruct (add_line _ _ _ _ _) as [b1|]; cbn [bind] in H; [|discriminate].
  apply quiet_trans with E1; [now apply all_quiet in A|now apply IH in H].
Qed.
(* the classes there are are written in the description *)
Lemma stimuli_classes : forall l E acc r E1 k, stimuli_of E l acc = Ok (r, E1) -> In k (n_classes E1) -> In k (n_classes E) \/ In (X_class k) l.
Proof.
  induction l as [|x l IH]; intros E acc r E1 k H J; cbn [stimuli_of] in H; [injection H as <- <-; now left|].
  destruct (stimulus_of E x) as [[s E0]|] eqn:S0; cbn [bind] in H; [|discriminate]. apply (IH _ _ _ _ k) in H as [H|H]; [|right; now right|exact J].
  destruct x as [n|T i o|k'|]; cbn [stimulus_of] in S0.
  - destruct (lookup_abbrev E n); [injection S0 as <- <-; now left|]. destruct (lookup_token E n); [injection S0 as <- <-; now left|discriminate].
  - injection S0 as <- <-. now left.
  - injection S0 as <- <-. cbn [n_classes] in H. apply in_app_or in H as [H|[->|[]]]; [now left|right; now left].
  - injection S0 as <- <-. now left.
Qed.
Lemma all_classes : forall l E r E1 k, all_stimuli_of E l = Ok (r, E1) -> In k (n_classes E1) -> In k (n_classes E) \/ exists alts, In alts l /\ In (X_class k) alts.
Proof.
  induction l as [|x l IH]; intros E r E1 k H J; cbn [all_stimuli_of] in H; [injection H as <- <-; now left|].
  destruct (stimuli_of E x []) as [[s E0]|] eqn:S0; cbn [bind] in H; [|discriminate]. destruct (all_stimuli_of E0 l) as [[ss E2]|] eqn:A; cbn [bind] in H; [|discriminate].
  injection H as <- <-. apply (IH _ _ _ k) in A as [A|(alts & I & K)]; [|right; exists alts; split; [now right|exact K]|exact J].
  apply (stimuli_classes _ _ _ _ _ k) in S0 as [S0|S0]; [now left|right; exists x; split; [now left|exact S0]|exact A].
Qed.
Lemma lines_classes : forall ls E b cur b' E' k, add_lines E b cur ls = Ok (b', E') -> In k (n_classes E') -> In k (n_classes E) \/ exists l alts, In l ls /\ In alts (l_stims l) /\ In (X_class k) alts.
Proof.
  induction ls as [|l ls IH]; intros E b cur b' E' k H J; cbn [add_lines] in H; [injection H as <- <-; now left|].
  destruct (all_stimuli_of E (l_stims l)) as [[ss E1]|] eqn:A; cbn [bind] in H; [|discriminate]. destruct (add_line _ _ _ _ _) as [b1|]; cbn [bind] in H; [|discriminate].
  apply (IH _ _ _ _ _ k) in H as [H|(l' & alts & I & K)]; [|right; exists l', alts; split; [now right|exact K]|exact J].
  apply (all_classes _ _ _ _ k) in A as [A|(alts & I & K)]; [now left|right; exists l, alts; split; [now left|auto]|exact H].
Qed.
Lemma states_classes : forall ss E b b' E' k, add_states E b ss = Ok (b', E') -> In k (n_classes E') -> In k (n_classes E) \/ exists s l alts, In s ss /\ In l (s_lines s) /\ In alts (l_stims l) /\ In (X_class k) alts.
Proof.
  induction ss as [|s ss IH]; intros E b b' E' k H J; cbn [add_states] in H; [injection H as <- <-; now left|].
  destruct (lookup_state b (s_name s)) as [b1 i]. destruct (add_lines _ _ _ _) as [[b2 E2]|] eqn:A; cbn [bind] in H; [|discriminate].
  apply (IH _ _ _ _ k) in H as [H|(s' & l & alts & I & K)]; [|right; exists s', l, alts; split; [now right|exact K]|exact J].
  apply (lines_classes _ _ _ _ _ _ k) in A as [A|(l & alts & K)]; [now left|right; exists s, l, alts; split; [now left|exact K]|exact H].
Qed.
Lemma decls_classes : forall ds E E' k, (forall d, In d ds -> match d with D_block b => b_instances b = [] | _ => True end) -> add_decls E ds = Ok E' -> In k (n_classes E') -> In k (n_classes E) \/ class_in ds k.
Proof.
  induction ds as [|d ds IH]; intros E E' k P H J; cbn [add_decls] in H; [injection H as <-; now left|].
  destruct (add_decl E d) as [E1|] eqn:A; cbn [bind] in H; [|discriminate].
  apply (IH _ _ k) in H as [H|(d' & I & K)]; [|right; exists d'; split; [now right|exact K]|intros d' J'; apply P; now right|exact J].
  assert (X : In k (n_classes E) \/ class_in [d] k).
  2:{ destruct X as [X|(d' & [<-|[]] & K)]; [now left|right; exists d; split; [now left|exact K]]. }
  destruct d as [b|l|n alts|a|n l|n e|n|n m]; cbn [add_decl] in A.
  - unfold add_block in A. destruct (existsb _ _); [discriminate|]. set (E0 := Env _ _ _ _ _ _ _ _) in A. rewrite (P (D_block b) (or_introl eq_refl)) in A. cbn [add_instances bind] in A.
    destruct (add_states E0 _ (b_states b)) as [[b2 E2]|] eqn:S; cbn [bind] in A; [|discriminate]. injection A as <-. cbn [n_classes] in H.
    apply (states_classes _ _ _ _ _ k) in S as [S|(s & l & alts & I & I2 & I3 & I4)]; [now left| |exact H]. right. exists (D_block b). split; [now left|]. exists (s_name s), l, alts.
    split; [exists s; auto|auto].
  - left. clear P IH J. revert E A. induction l as [|s l IHl]; intros E A; cbn [add_tokens] in A; [injection A as <-; exact H|]. destruct (lookup_token E s); [discriminate|]. now apply IHl in A.
  - destruct (stimuli_of E alts []) as [[l E2]|] eqn:S; cbn [bind] in A; [|discriminate]. injection A as <-. cbn [n_classes] in H.
    apply (stimuli_classes _ _ _ _ _ k) in S as [S|S]; [now left| |exact H]. right. exists (D_abbrev n alts). split; [now left|exact S].
  - injection A as <-. now left.
  - injection A as <-. now left.
  - injection A as <-. now left.
  - injection A as <-. now left.
  - injection A as <-. now left.
Qed.

Section Whole.
Context (C : list char_class).
(* References are in range. *)
Definition refs (n : nat) (l : list cstate) : Prop :=
  forall p t q, has l p t q -> In q (names l) /\ match t with TT_EPSILON => True | TT_TOKEN u => u < n | TT_CHARCLASS k => k < length C end.
Definition entry_ok (bl : list cblock) (e : nat * nat) (x : list decl * block_decl * bytes) : Prop :=
  exists m, nth_error bl (fst e) = Some m /\ meaning C (fst (fst x)) (snd (fst x)) (k_states m) /\ name_at m (snd e) (snd x) /\ no_hash (snd x).
Definition last_at (ds : list decl) (x : list decl * block_decl * bytes) : Prop :=
  exists after l s, ds = fst (fst x) ++ D_block (snd (fst x)) :: after /\ (forall c, ~ In (D_block c) after) /\ b_states (snd (fst x)) = l ++ [s] /\ snd x = s_name s.
Record env_ok (E : env) (ds : list decl) : Prop := {
  eo_names : names_ok C E ds;
  eo_nodup : forall m, In m (n_blocks E) -> NoDup (names (k_states m));
  eo_refs : forall m, In m (n_blocks E) -> refs (length (n_tokens E)) (k_states m);
  eo_blocks : forall T m, master (n_blocks E) T m -> exists before D, block_at ds T before D /\ meaning C before D (k_states m);
  eo_blocks2 : forall T before D, block_at ds T before D -> exists m, master (n_blocks E) T m /\ meaning C before D (k_states m);
  eo_entries : Forall2 (fun e x => entry_ok (n_blocks E) (snd e) x) (n_entries E) (rev (entries_from [] ds));
  eo_cur : forall e, n_cur E = Some e -> exists x, last_at ds x /\ entry_ok (n_blocks E) e x }.

Lemma add_states_entries : forall ds D ss E b b' E' G, (forall m, In m (n_blocks E) -> NoDup (names (k_states m))) -> plain ds -> plain_decl (D_block D) ->
  incl ss (b_states D) -> names_ok C E ds -> prefix_of (n_classes E') C -> shape (n_blocks E) b G -> sound C ds D (n_blocks E) G -> add_states E b ss = Ok (b', E') ->
  exists new, n_entries E' = new ++ n_entries E /\
    Forall2 (fun e s => fst (snd e) = length (n_blocks E) /\ name_at b' (snd (snd e)) (s_name s)) new (rev (filter (fun s => match s_entry s with Some _ => true | None => false end) ss)) /\
    (ss = [] -> n_cur E' = n_cur E) /\ (forall l s, ss = l ++ [s] -> exists i, n_cur E' = Some (length (n_blocks E), i) /\ name_at b' i (s_name s)).
Proof.
  intros ds D. induction ss as [|s ss IH]; intros E b b' E' G HB Hp HD I N PC Sh So H; cbn [add_states] in H.
  - injection H as <- <-. exists []. repeat split; [constructor|]. intros [|x l] s E0; discriminate.
  - destruct (lookup_state b (s_name s)) as [b1 i] eqn:L. set (E1 := set_cur E i (s_entry s)) in *.
    destruct (add_lines E1 b1 i (s_lines s)) as [[b2 E2]|] eqn:Al; cbn [bind] in H; [|discriminate].
    destruct (lookup_spec _ _ _ _ (sh_nodup _ _ _ Sh) L) as (D1 & A1 & P1 & _ & H1 & T1 & K1 & K2 & K3).
    assert (Sh1 : shape (n_blocks E) b1 G).
    { constructor; [exact D1|rewrite K2; apply Sh|rewrite K3; apply Sh|intros p t q; rewrite H1; apply Sh|intros p g; rewrite T1; apply Sh]. }
    pose proof (add_lines_grown _ _ _ _ _ _ Al) as Gr2. pose proof (add_states_grown _ _ _ _ _ H) as Gr3.
    assert (PC2 : prefix_of (n_classes E2) C) by (apply prefix_trans with (n_classes E'); [apply Gr3|exact PC]).
    destruct (add_lines_ok C ds D (n_blocks E) HB Hp HD (s_lines s) (s_name s) E1 b1 i b2 E2 G) as (G2 & St2 & Dn); auto.
    { intros l J. exists s. split; [apply I; now left|auto]. }
    pose proof St2 as (Le2 & Sh2 & So2 & N2 & KN2). pose proof (add_lines_quiet _ _ _ _ _ _ Al) as (Q1 & Q2 & _ & _).
    assert (NB : n_blocks E2 = n_blocks E) by apply Gr2. assert (NE2 : names_ok C E2 ds) by (apply names_ok_mono with E1; [exact Gr2|exact N]).
    destruct (add_states_ok C ds D (n_blocks E) HB Hp HD ss E2 b2 b' E' G2) as (G3 & St3 & _); auto; [intros z J; apply I; now right|].
    destruct St3 as (_ & _ & _ & N3 & _).
    destruct (IH E2 b2 b' E' G2) as (new & X1 & X2 & X3 & X4); auto; try (rewrite NB; assumption); [intros z J; apply I; now right|].
    assert (A' : name_at b' i (s_name s)). { apply name_at_mono with b2; [exact N3|]. apply name_at_mono with b1; [exact N2|exact A1]. }
    rewrite NB in *. rewrite X1, Q1. cbn [E1 set_cur n_entries filter]. destruct (s_entry s) as [e|].
    + exists (new ++ [(e, (length (n_blocks E), i))]). rewrite <- app_assoc. cbn [app rev]. split; [reflexivity|]. split; [|split].
      * apply Forall2_app; [exact X2|]. constructor; [|constructor]. cbn [fst snd]. auto.
      * discriminate.
      * intros l s' El. destruct l as [|z l]; cbn [app] in El; injection El as -> El.
        -- subst ss. exists i. rewrite X3, Q2 by reflexivity. split; [reflexivity|exact A'].
        -- now apply (X4 l s').
    + exists new. split; [reflexivity|]. split; [exact X2|]. split; [discriminate|].
      intros l s' El. destruct l as [|z l]; cbn [app] in El; injection El as -> El.
      * subst ss. exists i. rewrite X3, Q2 by reflexivity. split; [reflexivity|exact A'].
      * now apply (X4 l s').
Qed.

Lemma entry_ok_mono : forall bl bl' e x, prefix_of bl bl' -> entry_ok bl e x -> entry_ok bl' e x.
Proof. intros bl bl' e x P (m & E & H). exists m. split; [now apply prefix_nth with bl|exact H]. Qed.
Lemma entries_mono : forall bl bl' le lx, prefix_of bl bl' -> Forall2 (fun (e : bytes * (nat * nat)) x => entry_ok bl (snd e) x) le lx -> Forall2 (fun (e : bytes * (nat * nat)) x => entry_ok bl' (snd e) x) le lx.
Proof. intros bl bl' le lx P H. induction H as [|e x le lx Y _ IH]; constructor; [now apply entry_ok_mono with bl|exact IH]. Qed.
Lemma entries_snoc : forall ds before d, entries_from before (ds ++ [d]) = entries_from before ds ++ entries_from (before ++ ds) [d].
Proof.
  induction ds as [|x ds IH]; intros before d; [now rewrite app_nil_r|]. change ((x :: ds) ++ [d]) with (x :: (ds ++ [d])). cbn [entries_from]. rewrite IH, <- !app_assoc. reflexivity.
Qed.
Lemma block_snoc : forall ds d T before D, block_at (ds ++ [d]) T before D <-> block_at ds T before D \/ (d = D_block D /\ b_name D = T /\ before = ds).
Proof.
  intros ds d T before D. split.
  - intros (after & E & N). destruct after as [|x after _] using rev_ind.
    + apply app_inj_tail in E as [-> ->]. right. auto.
    + replace (before ++ D_block D :: after ++ [x]) with ((before ++ D_block D :: after) ++ [x]) in E by (now rewrite <- app_assoc).
      apply app_inj_tail in E as [-> ->]. left. exists after. auto.
  - intros [(after & -> & N)|(-> & N & ->)].
    + exists (after ++ [d]). split; [now rewrite <- app_assoc|exact N].
    + exists []. auto.
Qed.
Lemma last_snoc : forall ds d x, (forall b, d <> D_block b) -> last_at ds x -> last_at (ds ++ [d]) x.
Proof.
  intros ds d x N (after & l & s & -> & A & R). exists (after ++ [d]), l, s. split; [now rewrite <- app_assoc|]. split; [|exact R].
  intros c J. apply in_app_or in J as [J|[J|[]]]; [exact (A c J)|exact (N c J)].
Qed.
Lemma env_ok_other : forall E E' ds d, (forall b, d <> D_block b) -> env_ok E ds -> names_ok C E' (ds ++ [d]) -> length (n_tokens E) <= length (n_tokens E') ->
  n_blocks E' = n_blocks E -> n_entries E' = n_entries E -> n_cur E' = n_cur E -> env_ok E' (ds ++ [d]).
Proof.
  intros E E' ds d Nb [O1 O2 O3 O4 O5 O6 O7] Nm Tk Bl En Cu. constructor; [exact Nm|rewrite Bl; exact O2| | | | |]; rewrite ?Bl.
  - intros m J p t q H. destruct (O3 m J p t q H) as [X Y]. split; [exact X|]. destruct t; auto. lia.
  - intros T m M. destruct (O4 T m M) as (before & D & BA & Me). exists before, D. split; [apply block_snoc; now left|exact Me].
  - intros T before D BA. apply block_snoc in BA as [BA|(X & _)]; [now apply O5|]. now apply Nb in X.
  - rewrite En, entries_snoc. replace (entries_from ([] ++ ds) [d]) with (@nil (list decl * block_decl * bytes)); [now rewrite app_nil_r|].
    destruct d; try reflexivity. now destruct (Nb b).
  - intros e X. rewrite Cu in X. destruct (O7 e X) as (x & La & Eo). exists x. split; [now apply last_snoc|exact Eo].
Qed.
Lemma stands_token : forall ds x a, stands_for ds x a -> match a with O_token t => t < length (tokens_in ds) | _ => True end.
Proof.
  intros ds x a H. induction H as [ds|ds k|ds t i o|ds s before alts x a (after & -> & _) I S IH|ds s t N E]; try exact Logic.I.
  - destruct a; auto. rewrite tokens_app, app_length. lia.
  - apply nth_error_Some. congruence.
Qed.
Lemma shape_refs : forall E ds D b G, env_ok E ds -> shape (n_blocks E) b G -> sound C ds D (n_blocks E) G -> (forall p t q, has (k_states b) p t q -> In q (names (k_states b))) -> refs (length (n_tokens E)) (k_states b).
Proof.
  intros E ds D b G O Sh So Cl p t q H. split; [now apply (Cl p t q)|]. apply (sh_edges _ _ _ Sh) in H as [H|H].
  - apply (so_dir _ _ _ _ _ So) in H as (x & a & _ & F & R). apply stands_token in F. destruct (eo_names _ _ O) as (NT & _).
    destruct a, t; cbn [repr] in R; try (destruct R; fail); try exact Logic.I; [subst; now rewrite NT|]. apply nth_error_Some. congruence.
  - destruct H as (k & src & T & i & o & d & E1 & [(-> & _)|[(-> & _)|(m & x & y & M & _ & _ & H)]]); try exact Logic.I.
    apply (eo_refs _ _ O) in H; [exact (proj2 H)|]. now apply find_some in M.
Qed.
Lemma env_ok_block : forall E ds D E', plain ds -> plain_decl (D_block D) -> env_ok E ds -> add_block E D = Ok E' -> prefix_of (n_classes E') C -> env_ok E' (ds ++ [D_block D]).
Proof.
  intros E ds D E' Hp HD O H PC. unfold add_block in H. destruct (existsb _ _) eqn:Ex; [discriminate|]. set (E0 := Env _ _ _ _ _ _ _ _) in H.
  rewrite (proj1 HD) in H. cbn [add_instances bind] in H. set (b0 := Cblock (b_name D) [] 1 1) in H.
  destruct (add_states E0 b0 (b_states D)) as [[b2 E2]|] eqn:S; cbn [bind] in H; [|discriminate]. injection H as <-. cbn [n_classes] in PC.
  set (G0 := Ghost [] [] [] []).
  assert (Sh0 : shape (n_blocks E) b0 G0).
  { constructor; cbn [b0 G0 k_states k_subcount k_subblocks g_own g_dir g_inl g_mk length]; try reflexivity; [constructor| |].
    - intros p t q. split; [intros (s & [] & _)|]. intros [[]|(k & src & T & i & o & d & X & _)]. destruct k; discriminate.
    - intros p g. split; [intros (s & [] & _)|]. intros [[]|(k & src & T & i & o & d & m & x & X & _)]. destruct k; discriminate. }
  assert (So0 : sound C ds D (n_blocks E) G0).
  { constructor; cbn [G0 g_own g_dir g_inl g_mk]; [intros [|m]; discriminate|intros p t q []|intros [|k]; discriminate|intros p g []]. }
  assert (N0 : names_ok C E0 ds) by exact (eo_names _ _ O).
  destruct (add_states_ok C ds D (n_blocks E) (eo_nodup _ _ O) Hp HD (b_states D) E0 b0 b2 E2 G0) as (G & St & Dn); auto; [apply incl_refl|].
  destruct (add_states_entries ds D (b_states D) E0 b0 b2 E2 G0) as (new & X1 & X2 & X3 & X4); auto; [apply (eo_nodup _ _ O)|apply incl_refl|].
  destruct St as (_ & Sh & So & _ & KN). destruct (fixup_ok _ _ _ Sh) as (Shf & Pf & Kf & Cl). set (bf := fixup_state_refs b2) in *.
  pose proof (add_states_grown _ _ _ _ _ S) as (GB & GT & GA & GC). cbn [E0 n_blocks n_tokens n_abbrevs n_classes n_entries n_cur] in *.
  assert (Me : meaning C ds D (k_states bf)).
  { apply (block_meaning C ds D (n_blocks E) bf G Hp HD Shf So); [apply (eo_blocks _ _ O)|apply (eo_blocks2 _ _ O)|].
    intros s l (sd & J & <- & K). now apply Dn. }
  assert (PB : prefix_of (n_blocks E) (n_blocks E ++ [bf])) by now exists [bf].
  assert (NN : forall x, In x (b_states D) -> no_hash (s_name x)). { destruct HD as [_ HD']. rewrite Forall_forall in HD'. intros x J. now apply HD' in J. }
  assert (EO : forall i p, name_at b2 i p -> no_hash p -> entry_ok (n_blocks E ++ [bf]) (length (n_blocks E), i) (ds, D, p)).
  { intros i p A Nh. exists bf. cbn [fst snd]. split; [apply nth_snoc; now right|]. split; [exact Me|]. split; [now apply name_at_mono with b2|exact Nh]. }
  assert (FA : forall (f : cblock -> bool) l x, find f (l ++ [x]) = match find f l with Some y => Some y | None => if f x then Some x else None end).
  { intros f l x. induction l as [|y l IHl]; cbn [app find]; [reflexivity|]. destruct (f y); [reflexivity|exact IHl]. }
  constructor; [|cbn [n_blocks n_tokens n_abbrevs n_classes n_entries n_cur]; rewrite ?GB, ?GT ..].
  - change (names_ok C E2 (ds ++ [D_block D])). apply names_ok_other; [exact Logic.I|]. apply names_ok_mono with E; [|apply (eo_names _ _ O)]. repeat split; auto.
  - intros m J. apply in_app_or in J as [J|[<-|[]]]; [now apply (eo_nodup _ _ O)|apply Shf].
  - intros m J. apply in_app_or in J as [J|[<-|[]]]; [now apply (eo_refs _ _ O)|]. now apply shape_refs with ds D G.
  - intros T m M. unfold master in M. rewrite FA in M. destruct (find _ (n_blocks E)) as [m'|] eqn:Fd.
    + injection M as <-. destruct (eo_blocks _ _ O T m' Fd) as (before & D' & BA & Me'). exists before, D'. split; [apply block_snoc; now left|exact Me'].
    + destruct (bytes_eqb (k_name bf) T) eqn:Et; [|discriminate]. injection M as <-. apply L_Mbox.bytes_eqb_iff in Et. exists ds, D. split; [|exact Me].
      apply block_snoc. right. repeat split. rewrite <- Et, Kf, KN. reflexivity.
  - intros T before D' BA. apply block_snoc in BA as [BA|(X & Nm & ->)].
    + destruct (eo_blocks2 _ _ O T before D' BA) as (m & M & Me'). exists m. split; [|exact Me']. unfold master in *. now rewrite FA, M.
    + injection X as <-. exists bf. split; [|exact Me]. unfold master. rewrite FA.
      destruct (find _ (n_blocks E)) as [m'|] eqn:Fd.
      * apply find_some in Fd as [J Et]. assert (Y : existsb (fun m => bytes_eqb (k_name m) (b_name D)) (n_blocks E) = true) by (apply existsb_exists; exists m'; rewrite Nm; auto). congruence.
      * replace (bytes_eqb (k_name bf) T) with true; [reflexivity|]. symmetry. apply L_Mbox.bytes_eqb_iff. rewrite Kf, KN. exact Nm.
  - rewrite X1, entries_snoc, rev_app_distr. apply Forall2_app.
    + cbn [entries_from app]. rewrite app_nil_r, <- map_rev. revert X2. set (fl := rev (filter _ _)).
      assert (Fi : incl fl (b_states D)). { intros z J. apply in_rev in J. now apply filter_In in J. }
      clearbody fl. intros X2. clear X1. induction X2 as [|e s new fl [Y1 Y2] _ IH]; cbn [map]; [constructor|]. constructor; [|apply IH; intros z J; apply Fi; now right].
      destruct e as [nm [bi si]]. cbn [fst snd] in *. subst bi. apply EO; [exact Y2|]. apply NN. apply Fi. now left.
    + apply entries_mono with (n_blocks E); [exact PB|apply (eo_entries _ _ O)].
  - intros e Ec. assert (LS : b_states D = [] \/ exists l s, b_states D = l ++ [s]) by (induction (b_states D) as [|s l _] using rev_ind; [now left|right; eauto]).
    destruct LS as [Es|(l0 & s0 & Es)]; [rewrite X3 in Ec by exact Es; discriminate|].
    destruct (X4 l0 s0 Es) as (i & Ec' & A). rewrite Ec in Ec'. injection Ec' as ->. exists (ds, D, s_name s0). split.
    + exists [], l0, s0. cbn [fst snd]. repeat split; auto. 
    + apply EO; [exact A|]. apply NN. rewrite Es. apply in_or_app. right. now left.
Qed.
End Whole.
