(* Scanners have room for their states: a list of the sets of states that can come up. *)
From Verif Require Import Base M_Charclass M_Dfasyn M_Compdfa M_Parse M_Blocks S_Dfasyn L_Charclass2 L_Compdfa4 L_Dfasyn L_Outcome.
From Verif Require L_Mbox.

Definition active (b : block) (row : list N) : list (nat * state) := filter (fun js => is_set row (fst js)) (List.combine (seq 0 (length b)) b).
Definition goto (n : nat) (eclo : list (list N)) (act : list (nat * state)) (t : nat) : list N * bool :=
  fold_left (fun (x : list N * bool) (js : nat * state) =>
    if anytrans eclo (snd js) t then
      let m := transmap n eclo (snd js) t in (or_row (fst x) m, snd x || existsb (fun w => negb (w =? 0)%N) m)
    else x) act (repeat 0%N (round_up n), false).
Lemma goto_ok b eclo row t : targets b eclo row t = goto (length b) eclo (active b row) t.
Proof.
  unfold targets, goto, active. cbv zeta. generalize (repeat 0%N (round_up (length b)), false) as x. generalize (List.combine (seq 0 (length b)) b) as l.
  induction l as [|js l IH]; intros x; cbn [fold_left filter]; [reflexivity|]. destruct (is_set row (fst js)); cbn [andb fold_left]; apply IH.
Qed.
Definition mem (row : list N) (L : list (list N)) : bool := existsb (bytes_eqb row) L.
Lemma mem_ok row L : mem row L = true -> In row L.
Proof. intros H. apply existsb_exists in H as (x & I & E). apply L_Mbox.bytes_eqb_iff in E. now subst x. Qed.
Definition closedb (b : block) (eclo : list (list N)) (nt : nat) (L : list (list N)) : bool :=
  forallb (fun row => let act := active b row in forallb (fun t => let x := goto (length b) eclo act t in negb (snd x) || mem (fst x) L) (seq 0 nt)) L.
Section Room.
Variables (R : rules) (b : block) (nt : nat) (eclo : list (list N)) (L : list (list N)).
Hypothesis Cl : closedb b eclo nt L = true.
Lemma closed_step row t : In row L -> t < nt -> snd (targets b eclo row t) = true -> In (fst (targets b eclo row t)) L.
Proof.
  intros I T A. rewrite goto_ok in *. unfold closedb in Cl. rewrite forallb_forall in Cl. specialize (Cl row I). cbv zeta in Cl. rewrite forallb_forall in Cl. specialize (Cl t ltac:(apply in_seq; lia)).
  rewrite A in Cl. now apply mem_ok.
Qed.
Definition fine (nodes : list dfa_node) : Prop := NoDup (map d_nfas nodes) /\ incl (map d_nfas nodes) L.
Lemma newest_none row : forall r i, find_newest row i r = None -> ~ In row (map d_nfas r).
Proof.
  induction r as [|d r IH]; intros i H; [intros []|]. cbn [find_newest] in H. destruct (_ && _ && _) eqn:E; [discriminate|]. cbn [map]. intros [Q|Q]; [|exact (IH _ H Q)].
  rewrite Q, !N.eqb_refl in E. cbn [andb] in E. assert (bytes_eqb row row = true) by (now apply L_Mbox.bytes_eqb_iff). congruence.
Qed.
Lemma add_fine row nodes i nodes' : fine nodes -> In row L -> find_or_add R b nt row nodes = Ok (i, nodes') -> fine nodes'.
Proof.
  intros [D I] J. unfold find_or_add. destruct (find_dfa row nodes) as [k|] eqn:E; [intros H; injection H as <- <-; split; assumption|]. unfold add_dfa. destruct (existsb _ _); [discriminate|].
  destruct (evaluate_attrs _ _ _ _) as [[[vs early] ok]|]; [|discriminate]. cbn [bind]. intros H. injection H as <- <-. unfold fine. rewrite map_app. cbn [map d_nfas]. split.
  - unfold find_dfa in E. apply newest_none in E. rewrite map_rev in E. rewrite <- in_rev in E. rewrite <- (rev_involutive (map d_nfas nodes)). change [row] with (rev [row]). rewrite <- rev_app_distr. apply NoDup_rev. cbn. constructor; [now rewrite <- in_rev|now apply NoDup_rev].
  - intros x X. apply in_app_or in X as [X|[<-|[]]]; auto.
Qed.
Lemma entries_fine : forall es nodes is_ nodes', (forall e, In e es -> In (or_row (repeat 0%N (round_up (length b))) (nth e eclo [])) L) -> fine nodes -> add_entries R b nt eclo es nodes = Ok (is_, nodes') -> fine nodes'.
Proof.
  induction es as [|e es IH]; intros nodes is_ nodes' H Fi; cbn [add_entries]; [intros E; injection E as <- <-; exact Fi|].
  destruct (find_or_add R b nt _ nodes) as [[i n1]|] eqn:E1; [|discriminate]. cbn [bind]. apply add_fine in E1; [|exact Fi|apply H; now left].
  destruct (add_entries R b nt eclo es n1) as [[is1 n2]|] eqn:E2; [|discriminate]. cbn [bind]. intros E. injection E as <- <-. apply (IH _ _ _ (fun e I => H e (or_intror I)) E1 E2).
Qed.
Lemma tokens_fine row : In row L -> forall k t nodes zs nodes', t + k <= nt -> fine nodes -> map_tokens R b nt eclo row k t nodes = Ok (zs, nodes') -> fine nodes' /\ exists ex, map d_nfas nodes' = map d_nfas nodes ++ ex.
Proof.
  intros I. assert (P : forall r nodes i nodes', find_or_add R b nt r nodes = Ok (i, nodes') -> exists ex, nodes' = nodes ++ ex).
  { intros r nodes i nodes'. unfold find_or_add. destruct (find_dfa r nodes); [intros E; injection E as <- <-; exists []; now rewrite app_nil_r|]. unfold add_dfa. destruct (existsb _ _); [discriminate|].
    destruct (evaluate_attrs _ _ _ _) as [[[vs early] ok]|]; [|discriminate]. cbn [bind]. intros E. injection E as <- <-. eauto. }
  induction k as [|k IH]; intros t nodes zs nodes' Lt Fi; cbn [map_tokens]; [intros E; injection E as <- <-; split; [exact Fi|exists []; now rewrite app_nil_r]|].
  pose proof (closed_step row t I ltac:(lia)) as St. destruct (targets b eclo row t) as [r any]. cbn [fst snd] in St. destruct any.
  - destruct (find_or_add R b nt r nodes) as [[i n1]|] eqn:E1; [|discriminate]. cbn [bind]. destruct (P _ _ _ _ E1) as (ex & ->). apply add_fine in E1; [|exact Fi|auto].
    destruct (map_tokens R b nt eclo row k (S t) _) as [[zs1 n2]|] eqn:E2; [|discriminate]. cbn [bind]. intros E. injection E as <- <-. destruct (IH (S t) _ _ _ ltac:(lia) E1 E2) as (Fi2 & ex2 & X). split; [exact Fi2|]. rewrite X, map_app, <- app_assoc. eauto.
  - cbn [bind]. destruct (map_tokens R b nt eclo row k (S t) _) as [[zs1 n2]|] eqn:E2; [|discriminate]. cbn [bind]. intros E. injection E as <- <-. exact (IH (S t) _ _ _ ltac:(lia) Fi E2).
Qed.
Lemma loop_fine : forall fuel next nodes nodes', fine nodes -> build_loop fuel R b nt eclo next nodes = Ok nodes' -> fine nodes'.
Proof.
  induction fuel as [|f IH]; intros next nodes nodes' Fi; cbn [build_loop]; destruct (nth_error nodes next) as [d|] eqn:Ed; try discriminate; try (intros E; injection E as <-; exact Fi).
  destruct (d_early d); [apply IH; exact Fi|]. destruct (map_tokens R b nt eclo (d_nfas d) nt 0 nodes) as [[zs n1]|] eqn:E1; [|discriminate]. cbn [bind]. apply tokens_fine in E1; [|apply Fi, in_map, (nth_error_In _ _ Ed)|lia|exact Fi].
  destruct E1 as (F1 & ex & X). apply IH. unfold fine.
  assert (Y : map d_nfas (set_nth n1 next (set_map d zs)) = map d_nfas n1).
  { assert (Z : nth_error (map d_nfas n1) next = Some (d_nfas d)) by (rewrite X; rewrite nth_error_app1; [now apply map_nth_error|rewrite map_length; apply nth_error_Some; congruence]).
    clear - Z. revert next Z. induction n1 as [|e n1 IH]; intros [|i] E; cbn in *; try discriminate; [injection E as ->; reflexivity|]. rewrite (IH i E). reflexivity. }
  rewrite Y. exact F1.
Qed.
Lemma build_fine fuel entries is_ nodes : (forall e, In e entries -> In (or_row (repeat 0%N (round_up (length b))) (nth e eclo [])) L) -> build_dfa fuel R b nt eclo entries = Ok (is_, nodes) -> length nodes <= length L.
Proof.
  intros H. unfold build_dfa. destruct (add_entries R b nt eclo entries []) as [[i n1]|] eqn:E1; [|discriminate]. cbn [bind]. destruct (build_loop fuel R b nt eclo 0 n1) as [n2|] eqn:E2; [|discriminate]. cbn [bind]. intros E. injection E as <- <-.
  assert (F0 : fine []) by (split; [constructor|intros x []]). apply (entries_fine _ _ _ _ H F0) in E1. apply (loop_fine _ _ _ _ E1) in E2. rewrite <- (map_length d_nfas). destruct E2 as [D I]. now apply NoDup_incl_length.
Qed.
End Room.

Lemma filter_le {A} (f : A -> bool) : forall l, length (filter f l) <= length l.
Proof. induction l as [|x l IH]; cbn; [lia|]. destruct (f x); cbn; lia. Qed.
Lemma compress_le qsort evs nodes entries entries' nodes' : compress_dfa qsort evs nodes entries = Ok (entries', nodes') -> length nodes' <= length nodes.
Proof.
  unfold compress_dfa. destruct nodes as [|d nodes]; [intros E; injection E as <- <-; cbn; lia|]. set (ns := d :: nodes). unfold find_dead_states. destruct (leads_loop _ _ _ _) as [leads|]; [|discriminate]. cbn [bind].
  destruct (assign_initial_classes _ _ _ _) as [sq [eqc last]]. destruct (split_loop _ _ _ _ _ _) as [eqc'|]; [|discriminate]. cbn [bind]. intros E.
  assert (E' : nodes' = snd (compress_states leads (map (fun d => set_map d (map (fun z => if (0 <=? z)%Z && negb (nth (Z.to_nat z) leads false) then (-1)%Z else z) (d_map d))) ns) eqc' entries)).
  { match type of E with Ok ?a = Ok ?b => assert (X : a = b) by congruence; change nodes' with (snd (entries', nodes')); rewrite <- X; reflexivity end. }
  rewrite E'. unfold compress_states. cbn [snd]. rewrite map_length. etransitivity; [apply filter_le|]. rewrite combine_length, seq_length, !map_length. lia.
Qed.
Lemma defaults_length nt nodes : forall rest defs, length (find_default_states nt nodes rest defs) = length defs + length rest.
Proof. induction rest as [|d rest IH]; intros defs; cbn [find_default_states]; [cbn; lia|]. rewrite IH, app_length. cbn. lia. Qed.
Lemma token_count nt nodes defs : length (tb_token (compressed_tables nt nodes defs)) <= length defs * nt.
Proof.
  unfold compressed_tables. cbn [tb_token]. rewrite map_length. transitivity (length (List.combine nodes defs) * nt); [|apply Nat.mul_le_mono_r; rewrite combine_length; lia].
  generalize (List.combine nodes defs) as l. induction l as [|d l IH]; cbn [map concat]; [cbn; lia|]. rewrite app_length. unfold included at 1. rewrite map_length.
  pose proof (filter_le (check_include_char nodes (fst d) (snd d)) (seq 0 nt)) as X. rewrite seq_length in X. cbn [length]. lia.
Qed.
(* the same, with a table of the tokens of each class *)
Definition class_tokens (m : list Z) (k : bitmap) : list nat := filter (cc_test_bit (group_bitmap m k)) (seq 0 256).
Definition by_table (ntokens : nat) (tab : list (list nat)) (none : list nat) (t : trans_type * nat) : list (trans_type * nat) :=
  match fst t with
  | TT_CHARCLASS k =>
    match nth k tab none with
    | [] => [t]
    | i :: is_ => (TT_TOKEN (ntokens + i), snd t) :: rev (map (fun i => (TT_TOKEN (ntokens + i), snd t)) is_)
    end
  | _ => [t]
  end.
Definition expand_fast (ntokens : nat) (classes : list bitmap) (m : list Z) (b : block) : block :=
  let none := class_tokens m clear_all in let tab := map (class_tokens m) classes in
  map (fun s => State (flat_map (by_table ntokens tab none) (transitions s)) (tags s)) b.
Lemma expand_fast_ok ntokens classes m b : expand_charclass_transitions ntokens classes m b = expand_fast ntokens classes m b.
Proof.
  unfold expand_charclass_transitions, expand_fast. cbv zeta. apply map_ext. intros s. f_equal. assert (E : forall t, expand_transition ntokens classes m t = by_table ntokens (map (class_tokens m) classes) (class_tokens m clear_all) t); [|generalize (transitions s) as l; induction l as [|t l IH]; cbn [flat_map]; [reflexivity|now rewrite E, IH]].
  intros [[|t|k] d]; [reflexivity|reflexivity|]. unfold expand_transition, by_table. cbn [fst snd]. rewrite (map_nth (class_tokens m) classes clear_all k). unfold class_tokens. reflexivity.
Qed.
(* the list and the tables are small, too *)
Definition roomb (F : nfa_file) (L : list (list N)) : bool :=
  let cs := map make_class (f_classes F) in
  match split_charclasses (reduce_list (f_block F) cs) with
  | Err _ => true
  | Ok (m, ncc) =>
    let b := expand_fast (f_ntokens F) cs m (f_block F) in
    match generate_epsilon_closure b with
    | Err _ => true
    | Ok eclo =>
      let nt := f_ntokens F + ncc in
      forallb (fun e => mem (or_row (repeat 0%N (round_up (length b))) (nth e eclo [])) L) (f_entries F) && closedb b eclo nt L &&
      (nt <=? 256) && (Z.of_nat (length L) <? 32768)%Z && (N.of_nat (length L) * N.of_nat nt <? 65536)%N
    end
  end.
Lemma has_room fuel qsort ud F L sc : roomb F L = true -> dfasyn fuel qsort ud F = Ok sc -> roomy_compressed sc.
Proof.
  intros C H. destruct (dfasyn_stages _ _ _ _ _ H) as (m & ncc & eclo & is_ & nodes & en & nodes' & [_ _ Sp Ec Bd _ Cp ->]). unfold roomb in C. cbv zeta in C. rewrite Sp in C. rewrite <- expand_fast_ok, Ec in C.
  apply andb_prop in C as [C C5]. apply andb_prop in C as [C C4]. apply andb_prop in C as [C C3]. apply andb_prop in C as [C1 C2]. apply Nat.leb_le in C3. apply Z.ltb_lt in C4. apply N.ltb_lt in C5. rewrite forallb_forall in C1.
  assert (B : length nodes <= length L). { refine (build_fine _ _ _ _ _ C2 _ _ _ _ _ Bd). intros e I. apply mem_ok, C1, I. }
  assert (B' : length nodes' <= length L). { destruct ud; [injection Cp as _ <-; exact B|]. apply compress_le in Cp. lia. }
  unfold roomy_compressed, roomy, states. cbn [sc_tables sc_nt]. set (nt := f_ntokens F + ncc) in *. set (defs := find_default_states nt nodes' nodes' []).
  assert (Dl : length defs = length nodes') by (unfold defs; rewrite defaults_length; reflexivity).
  split; [|split; [exact C3|]].
  - unfold compressed_tables. cbn [tb_defstate]. rewrite map_length, Dl. lia.
  - pose proof (token_count nt nodes' defs) as X. rewrite Dl in X. assert (length nodes' * nt <= length L * nt) by (now apply Nat.mul_le_mono_r). lia.
Qed.
Lemma roomb_stack F L stack : roomb (with_stack stack F) L = roomb F L.
Proof. reflexivity. Qed.
(* both kinds of table are then as they should be *)
Lemma next_uncompressed fuel qsort ud F L sc : roomb F L = true -> dfasyn fuel qsort ud F = Ok sc -> next_state sc (next_state_uncompressed (sc_nt sc) (sc_trans sc)).
Proof. intros C H. left. split; [|reflexivity]. apply (has_room _ _ _ _ _ _ C H). Qed.
Lemma next_compressed fuel qsort ud F L sc k : 2 <= k -> roomb F L = true -> dfasyn fuel qsort ud F = Ok sc -> next_state sc (next_state_compressed k (sc_tables sc)).
Proof. intros K C H. right. split; [exact (has_room _ _ _ _ _ _ C H)|]. eauto. Qed.

(* finding the list *)
Fixpoint explore (fuel : nat) (b : block) (eclo : list (list N)) (nt : nat) (todo seen : list (list N)) : list (list N) :=
  match fuel, todo with
  | S f, row :: todo' =>
    let act := active b row in
    let '(todo2, seen2) := fold_left (fun ts t => let x := goto (length b) eclo act t in if snd x && negb (mem (fst x) (snd ts)) then (fst x :: fst ts, fst x :: snd ts) else ts) (seq 0 nt) (todo', seen) in
    explore f b eclo nt todo2 seen2
  | _, _ => seen
  end.
Definition row_list (fuel : nat) (F : nfa_file) : list (list N) :=
  let cs := map make_class (f_classes F) in
  match split_charclasses (reduce_list (f_block F) cs) with
  | Err _ => []
  | Ok (m, ncc) =>
    let b := expand_fast (f_ntokens F) cs m (f_block F) in
    match generate_epsilon_closure b with
    | Err _ => []
    | Ok eclo => let s := map (fun e => or_row (repeat 0%N (round_up (length b))) (nth e eclo [])) (f_entries F) in explore fuel b eclo (f_ntokens F + ncc) s s
    end
  end.
