(* Tokens of characters; a sorting procedure; small descriptions for the examples. *)
From Coq Require Import Permutation Sorted.
From Verif Require Import Base M_Charclass M_Dfasyn M_Compdfa S_Dfasyn L_Charclass L_Charclass2 L_Charclass3 L_Nfa L_Nfa2 L_Nfa3 L_Compdfa L_Dfasyn.
Local Open Scope nat_scope.

Fixpoint insert (cmp : nat -> nat -> comparison) (x : nat) (l : list nat) : list nat :=
  match l with [] => [x] | y :: r => match cmp x y with Gt => y :: insert cmp x r | _ => x :: l end end.
Definition isort : sorter := fun cmp => fold_right (insert cmp) [].
Lemma insert_perm cmp x l : Permutation (x :: l) (insert cmp x l).
Proof. induction l as [|y l IH]; cbn; auto. destruct (cmp x y); auto. eapply perm_trans; [apply perm_swap|]. constructor. exact IH. Qed.
Lemma isort_perm cmp l : Permutation l (isort cmp l).
Proof. induction l as [|x l IH]; cbn; auto. eapply perm_trans; [constructor; exact IH|]. apply insert_perm. Qed.
Lemma insert_sorted cmp D : an_order D cmp -> forall l x, In x D -> incl l D -> StronglySorted (fun i j => cmp i j <> Gt) l -> StronglySorted (fun i j => cmp i j <> Gt) (insert cmp x l).
Proof.
  intros O. induction l as [|y l IH]; intros x Ix Il So; cbn; [repeat constructor|]. inversion So as [|? ? S1 F1]; subst. assert (Iy : In y D) by (apply Il; left; reflexivity).
  destruct (cmp x y) eqn:E.
  1,2: constructor; [exact So|]; constructor; [congruence|]; rewrite Forall_forall in *; intros z Hz; apply (proj2 O x y z Ix Iy); [apply Il; right; exact Hz|congruence|apply F1; exact Hz].
  constructor; [apply IH; auto; intros z Hz; apply Il; right; exact Hz|]. rewrite Forall_forall in *. intros z Hz. apply (Permutation_in z (Permutation_sym (insert_perm cmp x l))) in Hz. destruct Hz as [<-|Hz]; [|apply F1; exact Hz]. rewrite (proj1 O x y Ix Iy), E. discriminate.
Qed.
Lemma isort_sorts : sorts isort.
Proof.
  intros cmp l O. split; [apply isort_perm|]. assert (G : forall l', incl l' l -> StronglySorted (fun i j => cmp i j <> Gt) (isort cmp l')).
  { induction l' as [|x l' IH]; intros Il; cbn; [constructor|]. apply (insert_sorted cmp l O); [apply Il; left; reflexivity| |apply IH; intros z Hz; apply Il; right; exact Hz].
    intros z Hz. apply Il. right. apply (Permutation_in z (Permutation_sym (isort_perm cmp l')) Hz). }
  apply G. apply incl_refl.
Qed.

Lemma reduce_back b cs x : In x (reduce_list b cs) -> exists k, nth_error cs k = Some x /\ mark_used b k = true.
Proof.
  unfold reduce_list. intros I. apply in_map_iff in I. destruct I as ((k & y) & E & I). cbn [snd] in E. subst y. apply filter_In in I. destruct I as (I & U). cbn [fst] in U. apply combine_seq_in in I. destruct I as (_ & I). rewrite Nat.sub_0_r in I. exists k. auto.
Qed.
Lemma used_back b k : mark_used b k = true -> exists p q, edge b p (TT_CHARCLASS k) q.
Proof.
  unfold mark_used. intros U. apply existsb_exists in U. destruct U as (st & I & U). apply existsb_exists in U. destruct U as ((y & q) & I2 & U). apply In_nth_error in I. destruct I as (p & E). exists p, q, st. split; [exact E|].
  destruct y as [|t|k']; cbn in U; try discriminate. apply Nat.eqb_eq in U. subst k'. exact I2.
Qed.
Lemma used_lows F : Forall class_ok (f_classes F) -> forall c (P : bool -> Prop), c < 256 -> (forall x, In x (reduce_list (f_block F) (map make_class (f_classes F))) -> P (low x c)) <-> (forall k, used F k -> P (in_class c k)).
Proof.
  intros Cl c P C. assert (LowK : forall k, In k (f_classes F) -> low (make_class k) c = in_class c k).
  { intros k I. rewrite Forall_forall in Cl. destruct (Cl k I) as (Ck & _). apply (proj1 (proj2 (make_class_bits k Ck)) c C). }
  split.
  - intros H k (i & Ek & p & q & Eg). rewrite <- (LowK k (nth_error_In _ _ Ek)). apply H. apply (reduce_in _ _ i); [apply map_nth_error; exact Ek|]. eapply used_edge. exact Eg.
  - intros H x I. apply reduce_back in I. destruct I as (i & Ex & U). rewrite nth_error_map in Ex. destruct (nth_error (f_classes F) i) as [k|] eqn:Ek; [|discriminate]. cbn in Ex. injection Ex as <-. rewrite (LowK k (nth_error_In _ _ Ek)). apply H. apply used_back in U. destruct U as (p & q & Eg). exists i. eauto.
Qed.
Lemma tokens_ok fuel qsort ud F sc : dfasyn fuel qsort ud F = Ok sc -> Forall class_ok (f_classes F) -> forall c, c < 256 ->
  (token_of sc (Chr c) = (-1)%Z <-> forall k, used F k -> in_class c k = false) /\
  (token_of sc (Chr c) = (-1)%Z \/ (Z.of_nat (f_ntokens F) <= token_of sc (Chr c) < Z.of_nat (sc_nt sc))%Z) /\
  forall d, d < 256 -> (token_of sc (Chr c) = token_of sc (Chr d) <-> forall k, used F k -> in_class c k = in_class d k).
Proof.
  intros E Cl c C. apply dfasyn_stages in E. destruct E as (m & ncc & eclo & is_ & nodes & entries' & nodes' & St).
  pose proof (the_groups _ _ _ _ _ _ _ _ _ _ _ _ St Cl) as G. pose proof (token_eq _ _ _ _ _ _ _ _ _ _ _ _ St) as Te.
  assert (Tc : forall c, c < 256 -> tok (f_ntokens F) m (Chr c) = if (0 <=? nth c m (-1))%Z then (nth c m (-1) + Z.of_nat (f_ntokens F))%Z else nth c m (-1)%Z) by (intros c' C'; apply (char_tok F m ncc G c' C')).
  pose proof (gr_range _ _ _ G) as R.
  assert (None_ : forall c, c < 256 -> (nth c m (-1)%Z = (-1)%Z <-> forall k, used F k -> in_class c k = false)).
  { intros c' C'. rewrite (gr_none _ _ _ G c' C'). apply (used_lows F Cl c' (fun b => b = false) C'). }
  assert (M1 : forall c, c < 256 -> (token_of sc (Chr c) = (-1)%Z <-> nth c m (-1)%Z = (-1)%Z)).
  { intros c' C'. rewrite Te, Tc by exact C'. specialize (R c' C'). destruct (0 <=? nth c' m (-1))%Z eqn:Q; lia. }
  split; [rewrite M1 by exact C; apply None_; exact C|]. split.
  - rewrite Te, Tc by exact C. specialize (R c C). destruct St as [_ _ _ _ _ _ _ ->]. cbn [sc_nt]. destruct (0 <=? nth c m (-1))%Z eqn:Q; [right|left]; lia.
  - intros d D. assert (Eqm : token_of sc (Chr c) = token_of sc (Chr d) <-> nth c m (-1)%Z = nth d m (-1)%Z).
    { rewrite !Te, !Tc by assumption. pose proof (R c C). pose proof (R d D). destruct (0 <=? nth c m (-1))%Z eqn:Q, (0 <=? nth d m (-1))%Z eqn:Q2; lia. }
    rewrite Eqm. destruct (Z.eq_dec (nth c m (-1)%Z) (-1)) as [Z1|Z1].
    + rewrite Z1. pose proof (proj1 (None_ c C) Z1) as Nc. split.
      * intros Zd. symmetry in Zd. pose proof (proj1 (None_ d D) Zd) as Nd. intros k U. rewrite Nc, Nd by exact U. reflexivity.
      * intros H. symmetry. apply (None_ d D). intros k U. rewrite <- H by exact U. apply Nc. exact U.
    + split.
      * intros Zd k (i & Ek & p & q & Eg). symmetry in Zd. apply (proj1 (gr_alike _ _ _ G c d C D Z1)) with (x := make_class k) in Zd.
        -- rewrite Forall_forall in Cl. destruct (Cl k (nth_error_In _ _ Ek)) as (Ck & _). rewrite (proj1 (proj2 (make_class_bits k Ck)) c C), (proj1 (proj2 (make_class_bits k Ck)) d D) in Zd. exact Zd.
        -- apply (reduce_in _ _ i); [apply map_nth_error; exact Ek|]. eapply used_edge. exact Eg.
      * intros H. symmetry. apply (gr_alike _ _ _ G c d C D Z1). intros x I. apply reduce_back in I. destruct I as (i & Ex & U). rewrite nth_error_map in Ex. destruct (nth_error (f_classes F) i) as [k|] eqn:Ek; [|discriminate]. cbn in Ex. injection Ex as <-.
        rewrite Forall_forall in Cl. destruct (Cl k (nth_error_In _ _ Ek)) as (Ck & _). rewrite (proj1 (proj2 (make_class_bits k Ck)) c C), (proj1 (proj2 (make_class_bits k Ck)) d D). apply H. apply used_back in U. destruct U as (p & q & Eg). exists i. eauto.
Qed.

(* Numbers and words: [0-9]+ is a number, a letter and letters and digits after it are a word; and something that leads
   nowhere. *)
Definition digit : simple_class := Build_simple_class false [Cc_range 48 57].
Definition letter : simple_class := Build_simple_class false [Cc_range 97 122; Cc_char 95].
Definition words_nfa : nfa_file :=
  Nfa 0 [Cc_simple digit; Cc_simple letter; Cc_diff (Build_simple_class false [Cc_range 35 37]) (Build_simple_class false [Cc_char 36])]
    [State [(TT_CHARCLASS 0, 1); (TT_CHARCLASS 1, 3); (TT_CHARCLASS 2, 4)] [];
     State [(TT_EPSILON, 2); (TT_CHARCLASS 0, 5)] [];
     State [] [bs "NUMBER"];
     State [(TT_CHARCLASS 0, 3); (TT_CHARCLASS 1, 3)] [bs "WORD"];
     State [(TT_CHARCLASS 2, 4)] [];
     State [(TT_CHARCLASS 0, 1)] [bs "NUMBER"]]
    [0]
    (Rules [Evaluator [(bs "is_number", E_TAG (bs "NUMBER"), false); (bs "is_word", E_AND (E_TAG (bs "WORD")) (E_NOT (E_TAG (bs "NUMBER"))), false)] (Some (bs "nothing"))] [] 5).
Lemma digit_ok : class_ok (Cc_simple digit).
Proof. split; [repeat constructor|]. intros c C. unfold misread. cbn [caret digit andb]. apply andb_false_r. Qed.
Lemma words_classes : Forall class_ok (f_classes words_nfa).
Proof.
  repeat (apply Forall_cons || apply Forall_nil).
  - exact digit_ok.
  - split; [repeat constructor|]. intros c C. unfold misread. cbn [caret letter andb]. apply andb_false_r.
  - split; [split; repeat constructor|]. intros c C. unfold misread. cbn [caret orb andb]. apply andb_false_r.
Qed.
(* A description with 300 tokens: number 5 leads to A, number 261 to B. *)
Definition many_nfa : nfa_file :=
  Nfa 300 [] [State [(TT_TOKEN 5, 1); (TT_TOKEN 261, 2)] []; State [] [bs "A"]; State [] [bs "B"]] [0]
    (Rules [Evaluator [(bs "a", E_TAG (bs "A"), false); (bs "b", E_TAG (bs "B"), false)] (Some (bs "none"))] [] 5).
Lemma class_exact k c : class_chars k -> never_misread k -> c < 256 -> cc_test_bit (make_class k) c = in_class c k.
Proof. intros H M C. rewrite (class_test k c H C), (M c C). apply orb_false_r. Qed.
Lemma no_chars F fuel qsort ud : (forall x, In x (r_evs (f_rules F)) -> defattr x <> None) -> Forall class_ok (f_classes F) -> (exists k, used F k) -> (forall k c, used F k -> c < 256 -> in_class c k = false) -> dfasyn fuel qsort ud F = Err E_oob.
Proof.
  intros Df Cl (k & i & Ek & p & q & Eg) H. unfold dfasyn. destruct (existsb _ (r_evs (f_rules F))) eqn:X.
  { exfalso. apply existsb_exists in X. destruct X as (x & I & X). specialize (Df x I). destruct (defattr x); congruence. }
  destruct (negb _); [reflexivity|]. rewrite split_empty; [reflexivity|apply reduce_sound; exact Cl| |].
  - intros E. assert (I : In (make_class k) (reduce_list (f_block F) (map make_class (f_classes F)))) by (apply (reduce_in _ _ i); [apply map_nth_error; exact Ek|eapply used_edge; exact Eg]). rewrite E in I. contradiction.
  - intros x c I C. apply (proj2 (used_lows F Cl c (fun b => b = false) C) (fun k0 U => H k0 c U C) x I).
Qed.
Lemma scanner_ok fuel qsort F sc next j e w : dfasyn fuel qsort true F = Ok sc -> Forall class_ok (f_classes F) -> next_state sc next -> nth_error (f_entries F) j = Some e -> known F w ->
  exists e0 s, nth_error (sc_entries sc) j = Some e0 /\ scan next sc e0 w = Ok s /\ (((0 <= s)%Z /\ tells F e w sc s) \/ (s = (-1)%Z /\ ~ readable F e w)).
Proof.
  intros E Cl H Ej K. assert (E' : dfasyn fuel isort true F = Ok sc) by exact E. apply dfasyn_stages in E'. destruct E' as (m & ncc & eclo & is_ & nodes & entries' & nodes' & St).
  apply (end_to_end _ _ _ _ _ _ _ _ _ _ _ _ St isort_sorts Cl next j e w H Ej K).
Qed.
Lemma compressed_scanner_ok fuel qsort F sc next j e w : sorts qsort -> dfasyn fuel qsort false F = Ok sc -> Forall class_ok (f_classes F) -> next_state sc next -> nth_error (f_entries F) j = Some e -> known F w ->
  exists e0 s, nth_error (sc_entries sc) j = Some e0 /\ scan next sc e0 w = Ok s /\ (((0 <= s)%Z /\ tells F e w sc s /\ promising F e w) \/ (s = (-1)%Z /\ ~ promising F e w)).
Proof.
  intros So E Cl H Ej K. apply dfasyn_stages in E. destruct E as (m & ncc & eclo & is_ & nodes & entries' & nodes' & St). apply (end_to_end _ _ _ _ _ _ _ _ _ _ _ _ St So Cl next j e w H Ej K).
Qed.
Lemma compressed_minimal fuel qsort F sc next a b : sorts qsort -> dfasyn fuel qsort false F = Ok sc -> Forall class_ok (f_classes F) -> next_state sc next -> a < states sc -> b < states sc -> a <> b ->
  exists u i x sa sb, known F u /\ nth_error (r_evs (f_rules F)) i = Some x /\ scan next sc (Z.of_nat a) u = Ok sa /\ scan next sc (Z.of_nat b) u = Ok sb /\ shown sc x i sa <> shown sc x i sb.
Proof.
  intros So E Cl H La Lb N. apply dfasyn_stages in E. destruct E as (m & ncc & eclo & is_ & nodes & entries' & nodes' & St). apply (no_two_alike _ _ _ _ _ _ _ _ _ _ _ _ St So Cl next a b eq_refl H La Lb N).
Qed.
Lemma tables_agree fuel qsort ud F sc : sorts qsort -> dfasyn fuel qsort ud F = Ok sc -> Forall class_ok (f_classes F) -> roomy_compressed sc -> forall fl a tk, 2 <= fl -> a < states sc ->
  exists z, next_state_uncompressed (sc_nt sc) (sc_trans sc) (Z.of_nat a) tk = Ok z /\ next_state_compressed fl (sc_tables sc) (Z.of_nat a) tk = Ok z /\ (-1 <= z < Z.of_nat (states sc))%Z.
Proof.
  intros So E Cl R fl a tk Lf La. apply dfasyn_stages in E. destruct E as (m & ncc & eclo & is_ & nodes & entries' & nodes' & St). rewrite (sc_states _ _ _ _ _ _ _ _ _ _ _ _ St) in La.
  exists (L_Nfa3.nstep nodes' (Z.of_nat a) tk). split; [eapply next_ok; eauto; left; split; [apply R|reflexivity]|]. split; [eapply next_ok; eauto; right; split; [exact R|eauto]|].
  rewrite (sc_states _ _ _ _ _ _ _ _ _ _ _ _ St). edestruct nstep_in as [X|X]; eauto; [|destruct X as (b & -> & Lb)]; [rewrite X|]; lia.
Qed.
(* [^_], which should be all characters but _; and a-z without a-z. *)
Definition not_underscore : char_class := Cc_simple (Build_simple_class true [Cc_char 95]).
Definition no_letter : char_class := Cc_diff letter letter.
Definition empty_nfa : nfa_file :=
  Nfa 3 [no_letter] [State [(TT_CHARCLASS 0, 1); (TT_TOKEN 1, 1)] []; State [] [bs "A"]] [0] (Rules [Evaluator [(bs "a", E_TAG (bs "A"), false)] (Some (bs "none"))] [] 5).
Lemma not_underscore_refuted : exists k c, class_chars k /\ c < 256 /\ in_class c k = false /\ cc_test_bit (make_class k) c = true.
Proof. exists not_underscore, 95. split; [repeat constructor|]. split; [lia|]. split; vm_compute; reflexivity. Qed.
(* All characters between 32 and 127 but _. *)
Definition most : char_class := Cc_diff (Build_simple_class false [Cc_range 127 32]) (Build_simple_class false [Cc_char 95]).
Lemma most_ok : class_ok most.
Proof. split; [split; repeat constructor; lia|]. intros c C. unfold misread, most. cbn [caret orb andb]. apply andb_false_r. Qed.
Lemma empty_ok : (forall x, In x (r_evs (f_rules empty_nfa)) -> defattr x <> None) /\ Forall class_ok (f_classes empty_nfa) /\ (exists k, used empty_nfa k) /\ (forall k c, used empty_nfa k -> c < 256 -> in_class c k = false).
Proof.
  split; [intros x [<-|[]]; discriminate|]. split; [|split].
  - constructor; [|constructor]. split; [split; repeat constructor|]. intros c C. unfold misread, no_letter, letter. cbn [caret orb andb]. apply andb_false_r.
  - exists no_letter, 0. split; [reflexivity|]. exists 0, 1. exists (State [(TT_CHARCLASS 0, 1); (TT_TOKEN 1, 1)] []). split; [reflexivity|left; reflexivity].
  - intros k c (i & E & _) _. destruct i as [|[|i]]; [|discriminate|discriminate]. cbn in E. injection E as <-. unfold in_class, no_letter. apply andb_negb_r.
Qed.
Definition words_scanner (ud : bool) : scanner := match dfasyn 20 isort ud words_nfa with Ok sc => sc | Err _ => Scanner 0 [] [] (Tables [] [] [] []) [] [] end.
Lemma words_scanner_ok ud : dfasyn 20 isort ud words_nfa = Ok (words_scanner ud).
Proof. destruct ud; vm_compute; reflexivity. Qed.
Lemma words_roomy ud : roomy_compressed (words_scanner ud).
Proof. destruct ud; vm_compute; repeat split; lia. Qed.
Lemma words_next ud : next_state (words_scanner ud) (next_state_compressed 2 (sc_tables (words_scanner ud))).
Proof. right. split; [apply words_roomy|]. exists 2. auto. Qed.
Lemma too_many_tokens : exists F sc, dfasyn 20 isort true F = Ok sc /\ Forall class_ok (f_classes F) /\ roomy sc /\ (N.of_nat (length (tb_token (sc_tables sc))) < 65536)%N /\
  exists tk, 0 <= tk < sc_nt sc /\ next_state_uncompressed (sc_nt sc) (sc_trans sc) 0 (Z.of_nat tk) = Ok 2%Z /\ next_state_compressed 2 (sc_tables sc) 0 (Z.of_nat tk) = Ok (-1)%Z.
Proof.
  exists many_nfa. destruct (dfasyn 20 isort true many_nfa) as [sc|] eqn:E; [|vm_compute in E; discriminate]. exists sc. vm_compute in E. injection E as <-. split; [reflexivity|]. split; [constructor|]. split; [vm_compute; reflexivity|]. split; [vm_compute; reflexivity|].
  exists 261. split; [cbn [sc_nt]; lia|]. split; vm_compute; reflexivity.
Qed.
Definition answer (ud : bool) (w : list nat) : option bytes :=
  match scan (next_state_compressed 2 (sc_tables (words_scanner ud))) (words_scanner ud) 0%Z (map Chr w) with
  | Ok s => if (s <? 0)%Z then None else attr_of (words_scanner ud) 0 s
  | Err _ => None
  end.
