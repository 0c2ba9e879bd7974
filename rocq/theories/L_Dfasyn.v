(* From the description to the scanner. *)
From Coq Require Import Permutation Sorted.
From Verif Require Import Base M_Charclass M_Dfasyn M_Compdfa S_Dfasyn L_Charclass L_Charclass2 L_Charclass3 L_Nfa L_Nfa2 L_Nfa3 L_Compdfa L_Compdfa2 L_Compdfa3 L_Compdfa4 L_Compdfa5 L_Tables.
Local Open Scope nat_scope.

Lemma reduce_sound b classes : Forall class_ok classes -> Forall sound_map (reduce_list b (map make_class classes)).
Proof.
  intros F. apply Forall_forall. intros x I. unfold reduce_list in I. apply in_map_iff in I. destruct I as ((k & y) & E & I). cbn [snd] in E. subst y. apply filter_In in I. destruct I as (I & _). apply in_combine_r in I. apply in_map_iff in I. destruct I as (c & <- & I).
  rewrite Forall_forall in F. destruct (F c I). apply sound_class; assumption.
Qed.
Lemma split_groups ccs m n : Forall sound_map ccs -> split_charclasses ccs = Ok (m, n) -> groups ccs m n.
Proof.
  intros S0 E. destruct ccs as [|x0 ccs0] eqn:EC.
  - destruct (L_Charclass2.split_ok [] S0 (or_introl eq_refl)) as (m' & n' & E' & G). rewrite E in E'. injection E' as -> ->. exact G.
  - rewrite <- EC in *. destruct (existsb (fun x => existsb (low x) (seq 0 256)) ccs) eqn:X.
    + apply existsb_exists in X. destruct X as (x & I & X). apply existsb_exists in X. destruct X as (c & Ic & X). apply in_seq in Ic.
      destruct (L_Charclass2.split_ok ccs S0) as (m' & n' & E' & G); [right; exists c, x; split; [lia|auto]|]. rewrite E in E'. injection E' as -> ->. exact G.
    + exfalso. rewrite split_empty in E; [discriminate|exact S0|congruence|]. intros x c I C. destruct (low x c) eqn:Q; [|reflexivity]. exfalso.
      assert (Y : existsb (fun x => existsb (low x) (seq 0 256)) ccs = true); [|congruence]. apply existsb_exists. exists x. split; [exact I|]. apply existsb_exists. exists c. split; [apply in_seq; lia|exact Q].
Qed.

Lemma stays_in evs ns nt : Forall (sane evs nt (length ns)) ns -> forall ts i, i < length ns -> nrun ns (Z.of_nat i) ts = (-1)%Z \/ exists j, j < length ns /\ nrun ns (Z.of_nat i) ts = Z.of_nat j.
Proof.
  intros G. induction ts as [|t ts IH]; intros i Li; [right; exists i; auto|]. rewrite nrun_cons. destruct (Z.lt_ge_cases t 0) as [Q|Q]; [rewrite nstep_neg by exact Q; left; apply nrun_m1|].
  rewrite nstep_nat by lia. destruct (step_in evs ns nt G i (Z.to_nat t) Li) as [->|(j & Lj & _ & ->)]; [left; apply nrun_m1|apply IH; exact Lj].
Qed.
Record stages (fuel : nat) (qsort : sorter) (ud : bool) (F : nfa_file) (sc : scanner) (m : list Z) (ncc : nat) (eclo : list (list N)) (is_ : list nat) (nodes : list dfa_node) (entries' : list Z) (nodes' : list dfa_node) : Prop := {
  st_def : forall x, In x (r_evs (f_rules F)) -> defattr x <> None;
  st_range : wellformed F;
  st_split : split_charclasses (reduce_list (f_block F) (map make_class (f_classes F))) = Ok (m, ncc);
  st_eclo : generate_epsilon_closure (expand_charclass_transitions (f_ntokens F) (map make_class (f_classes F)) m (f_block F)) = Ok eclo;
  st_build : build_dfa fuel (f_rules F) (expand_charclass_transitions (f_ntokens F) (map make_class (f_classes F)) m (f_block F)) (f_ntokens F + ncc) eclo (f_entries F) = Ok (is_, nodes);
  st_one : Forall (fun d => d_one d = true) nodes;
  st_comp : (if ud then Ok (map Z.of_nat is_, nodes) else compress_dfa qsort (r_evs (f_rules F)) nodes is_) = Ok (entries', nodes');
  st_out : sc = Scanner (f_ntokens F + ncc) (char2tok (f_ntokens F) m) (uncompressed_table nodes') (compressed_tables (f_ntokens F + ncc) nodes' (find_default_states (f_ntokens F + ncc) nodes' nodes' [])) (attr_tables (r_evs (f_rules F)) nodes') entries' }.
Lemma dfasyn_stages fuel qsort ud F sc : dfasyn fuel qsort ud F = Ok sc -> exists m ncc eclo is_ nodes entries' nodes', stages fuel qsort ud F sc m ncc eclo is_ nodes entries' nodes'.
Proof.
  unfold dfasyn. destruct (existsb _ (r_evs (f_rules F))) eqn:Df; [discriminate|]. destruct (negb (in_range _ _ _ _)) eqn:Ra; [discriminate|].
  destruct (split_charclasses _) as [[m ncc]|] eqn:Sp; [|discriminate]. cbn [bind]. destruct (generate_epsilon_closure _) as [eclo|] eqn:Ec; [|discriminate]. cbn [bind]. destruct (build_dfa _ _ _ _ _ _) as [[is_ nodes]|] eqn:Bd; [|discriminate]. cbn [bind].
  destruct (existsb (fun d => negb (d_one d)) nodes) eqn:On; [discriminate|]. destruct (if ud then _ else _) as [[entries' nodes']|] eqn:Cp; [|discriminate]. cbn [bind]. intros E. injection E as <-.
  exists m, ncc, eclo, is_, nodes, entries', nodes'. constructor; auto.
  - intros x I N. assert (Y : existsb (fun x => match defattr x with Some _ => false | None => true end) (r_evs (f_rules F)) = true); [|congruence]. apply existsb_exists. exists x. rewrite N. auto.
  - unfold wellformed. destruct (in_range _ _ _ _); [reflexivity|discriminate].
  - apply Forall_forall. intros d I. destruct (d_one d) eqn:Q; [reflexivity|]. assert (Y : existsb (fun d => negb (d_one d)) nodes = true); [|congruence]. apply existsb_exists. exists d. rewrite Q. auto.
Qed.

Section EndToEnd.
Variables (fuel : nat) (qsort : sorter) (ud : bool) (F : nfa_file) (sc : scanner) (m : list Z) (ncc : nat) (eclo : list (list N)) (is_ : list nat) (nodes : list dfa_node) (entries' : list Z) (nodes' : list dfa_node).
Hypothesis St : stages fuel qsort ud F sc m ncc eclo is_ nodes entries' nodes'.
Hypothesis So : sorts qsort.
Hypothesis Cl : Forall class_ok (f_classes F).
Let nt := f_ntokens F + ncc.
Let evs := r_evs (f_rules F).
Let b1 := expand_charclass_transitions (f_ntokens F) (map make_class (f_classes F)) m (f_block F).
Lemma the_groups : groups (reduce_list (f_block F) (map make_class (f_classes F))) m ncc.
Proof. apply split_groups; [apply reduce_sound; exact Cl|destruct St; assumption]. Qed.
Lemma the_defs : forall x, In x evs -> defattr x <> None. Proof. destruct St; assumption. Qed.
Lemma first_sane : Forall (sane evs nt (length nodes)) nodes.
Proof.
  destruct St as [Df W _ Ec Bd On _ _]. apply Forall_forall. intros d I. pose proof (node_eval F m ncc eclo fuel is_ nodes W Ec Bd On d I) as Ev. destruct (attrs_ok _ _ _ _ _ _ Ev) as (La & _ & _).
  destruct (node_built F m ncc eclo fuel is_ nodes W Ec Bd) as (ne & B & _). apply In_nth_error in I. destruct I as (i & Ei). assert (Li : i < length nodes) by (apply nth_error_Some; congruence).
  destruct (bu_done _ _ _ _ _ _ _ B i d Li Ei) as (Lm & H). split; [exact Lm|]. split; [exact La|]. apply Forall_forall. intros z Hz. apply (In_nth _ _ (-1)%Z) in Hz. destruct Hz as (t & Lt & <-). destruct (d_early d).
  - left. rewrite H. apply nth_repeat.
  - fold nt in Lm. specialize (H t ltac:(lia)). unfold target_ok in H. destruct (snd _); [|left; exact H]. destruct H as (j & -> & Ej). right. assert (j < length (map d_nfas nodes)) by (apply nth_error_Some; congruence). rewrite map_length in H. lia.
Qed.
Lemma entries_first : length is_ = length (f_entries F) /\ Forall (fun i => i < length nodes) is_.
Proof.
  destruct St as [Df W _ Ec Bd On _ _]. assert (Re : forall e, In e (f_entries F) -> e < length b1) by (intros e I; unfold b1; rewrite len_b1; apply wf_entry; assumption).
  destruct (bu F m ncc eclo fuel is_ nodes W Ec Re Bd) as (F2 & _). split; [clear - F2; induction F2; cbn; congruence|]. clear - F2. induction F2 as [|e i es is0 H F2 IH]; constructor; auto. destruct H as (row & E & _). assert (X : i < length (map d_nfas nodes)) by (apply nth_error_Some; congruence). rewrite map_length in X. exact X.
Qed.
(* the automaton that is written *)
Lemma second : Forall (sane evs nt (length nodes')) nodes' /\ length entries' = length (f_entries F) /\
  forall j e i0, nth_error (f_entries F) j = Some e -> nth_error is_ j = Some i0 -> exists e', nth_error entries' j = Some e' /\ (e' = (-1)%Z \/ exists a, e' = Z.of_nat a /\ a < length nodes') /\
    if ud then e' = Z.of_nat i0 /\ nodes' = nodes else forall ts, matched evs nodes nodes' (nrun nodes (Z.of_nat i0) ts) (nrun nodes' e' ts).
Proof.
  pose proof first_sane as G. destruct entries_first as (Le & Fe). destruct St as [Df _ _ _ _ _ Cp _]. destruct ud.
  - injection Cp as <- <-. split; [exact G|]. split; [rewrite map_length; exact Le|]. intros j e i0 Ej Ei. exists (Z.of_nat i0). split; [apply map_nth_error; exact Ei|]. split; [right; exists i0; split; [reflexivity|]; rewrite Forall_forall in Fe; apply Fe; eapply nth_error_In; exact Ei|auto].
  - destruct (compress_ok qsort evs nodes nt is_ So Df G Fe) as (en & ns & E & G' & Ln & _ & M). fold evs in Cp. rewrite Cp in E. injection E as <- <-. split; [exact G'|]. split; [congruence|]. intros j e i0 Ej Ei. destruct (M j i0 Ei) as (e' & E' & R). exists e'. split; [exact E'|]. split; [|exact R].
    specialize (R []). cbn in R. destruct R as [(i & a & _ & _ & _ & -> & La & _)|(-> & _)]; eauto.
Qed.
Lemma minimal : ud = false -> forall a b, a < length nodes' -> b < length nodes' -> a <> b -> apart evs nodes' (Z.of_nat a) (Z.of_nat b).
Proof.
  intros U. pose proof first_sane as G. destruct entries_first as (_ & Fe). destruct St as [Df _ _ _ _ _ Cp _]. rewrite U in Cp. destruct (compress_ok qsort evs nodes nt is_ So Df G Fe) as (en & ns & E & _ & _ & Mn & _). fold evs in Cp. rewrite Cp in E. injection E as <- <-. exact Mn.
Qed.
Lemma sc_states : states sc = length nodes'.
Proof. destruct St as [_ _ _ _ _ _ _ ->]. unfold states. cbn [sc_tables compressed_tables tb_defstate]. rewrite map_length. destruct (default_ok nodes' (f_ntokens F + ncc) nodes' []) as (_ & L); [intros i z E; destruct i; discriminate|]. exact L. Qed.
Lemma next_ok next : next_state sc next -> forall a tk, a < length nodes' -> next (Z.of_nat a) tk = Ok (nstep nodes' (Z.of_nat a) tk).
Proof.
  intros H a tk La. destruct second as (G & _). pose proof sc_states as Ss. unfold next_state, roomy_compressed, roomy in H. rewrite Ss in H. destruct St as [_ _ _ _ _ _ _ ->]. cbn [sc_nt sc_trans sc_tables] in H. fold nt in H.
  destruct H as [(R & ->)|((R & N256 & Sz) & f & Lf & ->)].
  - apply (uncompressed_ok evs nodes' nt G R a tk La).
  - destruct (default_ok nodes' nt nodes' []) as (D & L); [intros i z E; destruct i; discriminate|]. destruct f as [|[|f]]; try lia. unfold compressed_tables in Sz. cbn [tb_token] in Sz. rewrite map_length in Sz.
    apply (compressed_ok evs nodes' nt G R (find_default_states nt nodes' nodes' []) D L N256 Sz f a tk La).
Qed.
Lemma nstep_in a tk : a < length nodes' -> nstep nodes' (Z.of_nat a) tk = (-1)%Z \/ exists b, nstep nodes' (Z.of_nat a) tk = Z.of_nat b /\ b < length nodes'.
Proof.
  intros La. destruct second as (G & _). destruct (Z.lt_ge_cases tk 0) as [Q|Q]; [left; apply nstep_neg; exact Q|]. rewrite nstep_nat by lia. destruct (step_in evs nodes' nt G a (Z.to_nat tk) La) as [X|(j & Lj & _ & X)]; eauto.
Qed.
Lemma token_eq s : token_of sc s = tok (f_ntokens F) m s.
Proof. destruct St as [_ _ _ _ _ _ _ ->]. destruct s; reflexivity. Qed.
Lemma scan_ok next : next_state sc next -> forall w c, (c = (-1)%Z \/ exists a, c = Z.of_nat a /\ a < length nodes') -> scan next sc c w = Ok (nrun nodes' c (map (tok (f_ntokens F) m) w)).
Proof.
  intros H. induction w as [|s w IH]; intros c Hc; cbn [scan map]; [reflexivity|]. destruct Hc as [->|(a & -> & La)].
  - cbn [Z.ltb Z.compare]. rewrite nrun_m1. reflexivity.
  - replace (Z.of_nat a <? 0)%Z with false by lia. rewrite token_eq, (next_ok next H a _ La). cbn [bind]. rewrite nrun_cons. apply IH. destruct (nstep_in a (tok (f_ntokens F) m s) La) as [X|(b & X & Lb)]; eauto.
Qed.
Lemma attr_value a i x : a < length nodes' -> nth_error evs i = Some x -> attr_of sc i (Z.of_nat a) = value evs (node nodes' a) i.
Proof.
  intros La Ex. destruct St as [_ _ _ _ _ _ _ ->]. unfold attr_of, value. cbn [sc_attrs]. rewrite Nat2Z.id, Ex. unfold attr_tables. fold evs.
  assert (E : nth_error (map (fun xi : nat * evaluator => map (fun d => attr_or (defattr (snd xi)) (nth (fst xi) (d_attrs d) None)) nodes') (List.combine (seq 0 (length evs)) evs)) i = Some (map (fun d => attr_or (defattr x) (nth i (d_attrs d) None)) nodes')).
  { rewrite nth_error_map. assert (C : nth_error (List.combine (seq 0 (length evs)) evs) i = Some (i, x)).
    { assert (Gn : forall (l : list evaluator) a k d, nth_error l k = Some d -> nth_error (List.combine (seq a (length l)) l) k = Some (a + k, d)).
      { induction l as [|y l IHl]; intros a0 [|k] d E; cbn in *; try discriminate; [injection E as ->; rewrite Nat.add_0_r; reflexivity|]. rewrite (IHl (S a0) k d E). f_equal. f_equal. lia. }
      apply (Gn evs 0 i x Ex). }
    rewrite C. reflexivity. }
  rewrite (nth_error_nth _ _ [] E). rewrite (nth_indep _ _ ((fun d => attr_or (defattr x) (nth i (d_attrs d) None)) empty_node)) by (rewrite map_length; exact La). rewrite (map_nth (fun d => attr_or (defattr x) (nth i (d_attrs d) None))). reflexivity.
Qed.
(* symbols for tokens *)
Lemma symbol_for t : (0 <= t < Z.of_nat nt)%Z -> exists s, known F [s] /\ tok (f_ntokens F) m s = t.
Proof.
  intros H. destruct (Z.lt_ge_cases t (Z.of_nat (f_ntokens F))) as [Q|Q].
  - exists (Tok (Z.to_nat t)). split; [constructor; [lia|constructor]|]. cbn. lia.
  - destruct (gr_used _ _ _ the_groups (Z.to_nat t - f_ntokens F)) as (c & Lc & Ec); [unfold nt in H; lia|]. exists (Chr c). split; [constructor; [exact Lc|constructor]|]. cbn [tok]. rewrite (char_tok F m ncc the_groups c Lc), Ec. replace (0 <=? _)%Z with true by lia. lia.
Qed.
Lemma word_for ns c ts : (forall a, length (d_map (node ns a)) <= nt) -> nrun ns c ts <> (-1)%Z -> exists u, known F u /\ map (tok (f_ntokens F) m) u = ts.
Proof.
  intros Ln. revert c. induction ts as [|t ts IH]; intros c H; [exists []; split; [constructor|reflexivity]|]. rewrite nrun_cons in H. destruct (Z.eq_dec (nstep ns c t) (-1)) as [Q|Q]; [rewrite Q, nrun_m1 in H; congruence|].
  destruct (IH _ H) as (u & Ku & Eu). assert (Rt : (0 <= t < Z.of_nat nt)%Z).
  { unfold nstep in Q. destruct ((c <? 0)%Z || (t <? 0)%Z) eqn:B; [congruence|]. apply Bool.orb_false_iff in B. destruct B as (B1 & B2). split; [lia|]. destruct (Z.lt_ge_cases t (Z.of_nat nt)) as [|X]; [assumption|]. exfalso. apply Q. apply nth_overflow. specialize (Ln (Z.to_nat c)). lia. }
  destruct (symbol_for t Rt) as (s & Ks & Es). exists (s :: u). split; [inversion Ks; constructor; assumption|]. cbn. congruence.
Qed.
Lemma short_maps ns : Forall (sane evs nt (length ns)) ns -> forall a, length (d_map (node ns a)) <= nt.
Proof. intros G a. destruct (Nat.lt_ge_cases a (length ns)) as [L|L]; [destruct (node_sane evs ns nt G a L) as (A & _); lia|]. unfold node. rewrite nth_overflow by exact L. cbn. lia. Qed.
Lemma run_means j e i0 : nth_error (f_entries F) j = Some e -> nth_error is_ j = Some i0 -> forall w, known F w ->
  let z := nrun nodes (Z.of_nat i0) (map (tok (f_ntokens F) m) w) in
  (exists i, z = Z.of_nat i /\ i < length nodes /\ readable F e w /\ forall k x v, nth_error evs k = Some x -> (value evs (node nodes i) k = Some v <-> has_value F e w x v)) \/ (z = (-1)%Z /\ ~ readable F e w).
Proof.
  intros Ej Ei w K z. destruct St as [Df W _ Ec Bd On _ _]. destruct (run_ok F m ncc eclo fuel is_ nodes Cl the_groups W Ec Bd On j e i0 Ej Ei w K) as [(d & P & Ed & M & R)|X]; [left|right; exact X].
  fold z in P, Ed. exists (Z.to_nat z). split; [lia|]. split; [apply nth_error_Some; congruence|]. split; [exact R|]. intros k x v Ex. assert (Id : In d nodes) by (eapply nth_error_In; exact Ed).
  destruct (node_values F m ncc eclo fuel is_ nodes W Ec Bd On d e w Id M ltac:(apply Forall_forall; exact Df)) as (_ & V). unfold value, node. rewrite (nth_error_nth _ _ empty_node Ed), Ex. apply V. exact Ex.
Qed.
Lemma end_to_end next j e w : next_state sc next -> nth_error (f_entries F) j = Some e -> known F w -> exists e0 s, nth_error (sc_entries sc) j = Some e0 /\ scan next sc e0 w = Ok s /\
  if ud then ((0 <= s)%Z /\ tells F e w sc s) \/ (s = (-1)%Z /\ ~ readable F e w) else ((0 <= s)%Z /\ tells F e w sc s /\ promising F e w) \/ (s = (-1)%Z /\ ~ promising F e w).
Proof.
  intros H Ej K. destruct entries_first as (Le & Fe). destruct (nth_error is_ j) as [i0|] eqn:Ei; [|apply nth_error_None in Ei; assert (j < length (f_entries F)) by (apply nth_error_Some; congruence); lia].
  assert (L0 : i0 < length nodes) by (rewrite Forall_forall in Fe; apply Fe; eapply nth_error_In; exact Ei).
  destruct second as (G & _ & Se). destruct (Se j e i0 Ej Ei) as (e' & E' & He & M). exists e', (nrun nodes' e' (map (tok (f_ntokens F) m) w)).
  split; [destruct St as [_ _ _ _ _ _ _ ->]; exact E'|]. split; [apply scan_ok; assumption|]. pose proof (run_means j e i0 Ej Ei) as RM. set (ts := map (tok (f_ntokens F) m) w) in *.
  assert (App : forall u, nrun nodes (Z.of_nat i0) (map (tok (f_ntokens F) m) (w ++ u)) = nrun nodes (nrun nodes (Z.of_nat i0) ts) (map (tok (f_ntokens F) m) u)) by (intros u; rewrite map_app; unfold nrun; rewrite fold_left_app; reflexivity).
  pose proof attr_value as AV. pose proof the_defs as TD. pose proof first_sane as FS. pose proof word_for as WF. destruct ud eqn:U.
  - destruct M as (-> & Nn). destruct (RM w K) as [(i & Zi & Li & R & V)|X]; [fold ts in Zi; left|fold ts in X; right; rewrite Nn; exact X]. rewrite Nn. split; [lia|]. split; [exact R|]. intros k x v Ex. rewrite Zi, (AV i k x) by (rewrite ?Nn; assumption). rewrite Nn. apply V. exact Ex.
  - assert (Prom : forall i, nrun nodes (Z.of_nat i0) ts = Z.of_nat i -> i < length nodes -> (live evs nodes i <-> promising F e w)).
    { intros i Zi Li. pose proof FS as G1. split.
      - intros (us & k & Rk & Lk & Nd). destruct (WF nodes (Z.of_nat i) us (short_maps nodes G1)) as (u & Ku & Eu); [rewrite Rk; lia|]. destruct (node_sane evs nodes nt G1 k Lk) as (_ & A & _). apply (nondefault_iff evs nodes TD _ A) in Nd. destruct Nd as (q & Lq & Nq).
        assert (Kwu : known F (w ++ u)) by (apply Forall_app; auto). destruct (RM (w ++ u) Kwu) as [(k' & Zk & _ & R & V)|(X & _)]; rewrite App, Zi, Eu, Rk in *; [|lia]. apply Nat2Z.inj in Zk. subst k'.
        destruct (nth_error evs q) as [x|] eqn:Ex; [|apply nth_error_None in Ex; lia]. destruct (value evs (node nodes k) q) as [v|] eqn:Ev.
        + exists u, x, v. split; [exact Ku|]. split; [exact R|]. split; [eapply nth_error_In; exact Ex|]. split; [apply (V q x v Ex); exact Ev|]. unfold default in Nq. rewrite Ex in Nq. congruence.
        + exfalso. unfold value in Ev. rewrite Ex in Ev. pose proof (TD x (nth_error_In _ _ Ex)) as Dx. destruct (nth q (d_attrs (node nodes k)) None); cbn in Ev; congruence.
      - intros (u & x & v & Ku & R & Ix & Hv & Nv). assert (Kwu : known F (w ++ u)) by (apply Forall_app; auto). destruct (RM (w ++ u) Kwu) as [(k & Zk & Lk & _ & V)|(_ & X)]; [|contradiction]. rewrite App, Zi in Zk. exists (map (tok (f_ntokens F) m) u), k. split; [exact Zk|]. split; [exact Lk|].
        destruct (node_sane evs nodes nt G1 k Lk) as (_ & A & _). apply (nondefault_iff evs nodes TD _ A). apply In_nth_error in Ix. destruct Ix as (q & Ex). fold evs in Ex. exists q. split; [apply nth_error_Some; congruence|]. apply (V q x v Ex) in Hv. rewrite Hv. unfold default. rewrite Ex. congruence. }
    specialize (M ts). destruct M as [(i & a & Zi & Li & Lv & Za & La & Al)|(Za & Zi)].
    + left. rewrite Za. split; [lia|]. destruct (RM w K) as [(i' & Zi' & _ & R & V)|(X & _)]; [fold ts in Zi'|fold ts in X; lia]. assert (i' = i) by lia. subst i'. split; [|apply (Prom i Zi Li); exact Lv]. split; [exact R|]. intros k x v Ex. rewrite (AV a k x La Ex). rewrite <- (Al k). apply V. exact Ex.
    + right. split; [exact Za|]. destruct Zi as [Zi|(i & Zi & Li & Dd)].
      * intros (u & x & v & Ku & R & _). assert (Kwu : known F (w ++ u)) by (apply Forall_app; auto). destruct (RM (w ++ u) Kwu) as [(k & Zk & _)|(_ & X)]; [|contradiction]. rewrite App, Zi, nrun_m1 in Zk. lia.
      * intros Pr. apply Dd. apply (Prom i Zi Li). exact Pr.
Qed.
Lemma no_two_alike next a b : ud = false -> next_state sc next -> a < states sc -> b < states sc -> a <> b ->
  exists u i x sa sb, known F u /\ nth_error evs i = Some x /\ scan next sc (Z.of_nat a) u = Ok sa /\ scan next sc (Z.of_nat b) u = Ok sb /\ shown sc x i sa <> shown sc x i sb.
Proof.
  intros U H La Lb N. rewrite sc_states in La, Lb. destruct (minimal U a b La Lb N) as (ts & k & O). destruct second as (G & _ & _).
  assert (Wd : exists u, known F u /\ map (tok (f_ntokens F) m) u = ts).
  { destruct (Z.eq_dec (nrun nodes' (Z.of_nat a) ts) (-1)) as [Q|Q]; [|apply (word_for nodes' (Z.of_nat a) ts (short_maps nodes' G) Q)]. destruct (Z.eq_dec (nrun nodes' (Z.of_nat b) ts) (-1)) as [Q2|Q2]; [|apply (word_for nodes' (Z.of_nat b) ts (short_maps nodes' G) Q2)]. exfalso. apply O. rewrite Q, Q2. reflexivity. }
  destruct Wd as (u & Ku & Eu). assert (Ek : exists x, nth_error evs k = Some x).
  { destruct (nth_error evs k) as [x|] eqn:X; [eauto|]. exfalso. apply O. unfold obs, default, value. rewrite X. destruct (_ <? 0)%Z, (_ <? 0)%Z; reflexivity. }
  destruct Ek as (x & Ex). exists u, k, x, (nrun nodes' (Z.of_nat a) ts), (nrun nodes' (Z.of_nat b) ts). split; [exact Ku|]. split; [exact Ex|]. rewrite <- Eu. split; [apply scan_ok; eauto|]. split; [apply scan_ok; eauto|]. rewrite Eu.
  assert (Sh : forall c, c < length nodes' -> shown sc x k (nrun nodes' (Z.of_nat c) ts) = obs evs nodes' (nrun nodes' (Z.of_nat c) ts) k).
  { intros c Lc. unfold shown, obs, default. rewrite Ex. destruct (stays_in evs nodes' nt G ts c Lc) as [Q|(c' & Lc' & Q)]; rewrite Q; [reflexivity|]. replace (Z.of_nat c' <? 0)%Z with false by lia. rewrite Nat2Z.id. apply (attr_value c' k x Lc' Ex). }
  rewrite !Sh by assumption. exact O.
Qed.
End EndToEnd.
