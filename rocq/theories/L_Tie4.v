(* Tables of scanners, and when they are made. *)
From Verif Require Import Base M_Charclass M_Dfasyn M_Compdfa M_Parse M_Blocks M_Tables S_Dfasyn S_Blocks L_Charclass2 L_Dfasyn L_Dfasyn2 L_Blocks6 L_Blocks8 L_Outcome L_Tie L_Tie2.

Lemma char_table fuel qsort ud F sc c : dfasyn fuel qsort ud F = Ok sc -> Forall class_ok (f_classes F) -> (c < 256)%N -> char_token sc c = Ok (token_of sc (Chr (N.to_nat c))).
Proof.
  intros H C L. destruct (dfasyn_stages _ _ _ _ _ H) as (m & ncc & eclo & is_ & nodes & en & nodes' & S). pose proof (the_groups _ _ _ _ _ _ _ _ _ _ _ _ S C) as G.
  destruct S as [_ _ _ _ _ _ _ ->]. destruct G as [G _ _ _ _]. unfold char_token, token_of. cbn [sc_char2tok].
  destruct (nth_error (char2tok (f_ntokens F) m) (N.to_nat c)) as [t|] eqn:E; [now rewrite (nth_error_nth _ _ _ E)|].
  apply nth_error_None in E. unfold char2tok in E. rewrite map_length in E. lia.
Qed.
Lemma attr_table sc i z v : attr_of sc i z = Some v -> attr_at sc i z = Ok v.
Proof.
  unfold attr_of, attr_at. set (l := nth i (sc_attrs sc) []). intros H. destruct (nth_error l (Z.to_nat z)) as [x|] eqn:E.
  - rewrite (nth_error_nth _ _ _ E) in H. now subst x.
  - rewrite nth_overflow in H; [discriminate|]. now apply nth_error_None.
Qed.
(* there is always a value *)
Lemma some_value (ds before : list decl) b p sc i s g w : default_of ds g <> None -> (forall v, attr_of sc i s = Some v <-> shows ds before b p g w v) ->
  exists v, attr_at sc i s = Ok v /\ shows ds before b p g w v.
Proof.
  intros D H. destruct (attr_of sc i s) as [v|] eqn:E; [exists v; split; [now apply attr_table|now apply H]|]. exfalso.
  assert (N : forall n, In n (names ds g) -> ~ sees before b p w n).
  { intros n I Z. assert (X : @None bytes = Some n); [|discriminate]. apply H. left. auto. }
  destruct (default_of ds g) as [v|] eqn:Ed; [|congruence]. assert (X : @None bytes = Some v); [|discriminate]. apply H. right. auto.
Qed.

Lemma compile_stack ds stack0 F0 stack : compile stack0 ds = Ok F0 -> compile stack ds = Ok (with_stack stack F0).
Proof.
  intros Co. unfold compile in *. destruct (add_decls empty_env ds) as [E|]; [|discriminate]. cbn [bind] in *. unfold nfa_of in *. cbv zeta in *. destruct (n_entries E) as [|x l].
  - destruct (n_cur E) as [[u i]|]; [|discriminate]. injection Co as <-. reflexivity.
  - injection Co as <-. reflexivity.
Qed.
(* ---- dfasyn makes the scanner ---- *)
Section Makes.
Variables (ds : list decl) (stack0 : nat) (F0 : nfa_file) (gs : list (option bytes)) (before : list decl) (b : block_decl) (p : bytes).
Hypothesis Pl : plain ds.
Hypothesis Co : compile stack0 ds = Ok F0.
Hypothesis Cl : forallb class_okb (all_classes ds) = true.
Hypothesis Ch : forallb (fun k => existsb (fun c => in_class c k) (seq 0 256)) (all_classes ds) = true.
Hypothesis Rl : f_rules F0 = Rules (map (attribute ds) gs) [] stack0.
Hypothesis Si : forall g, In g gs -> forallb simple_line (attrs (attribute ds g)) = true.
Hypothesis De : forall g, In g gs -> default_of ds g <> None.
Hypothesis Nd : forall g, In g gs -> NoDup (names ds g).
Hypothesis St : starts ds 0 before b p.
Hypothesis One : length (entries_from [] ds) <= 1.
Hypothesis Un : forall g w m n, In g gs -> knownw ds w -> In m (names ds g) -> In n (names ds g) -> sees before b p w m -> sees before b p w n -> m = n.
Lemma is_well_made : well_made F0.
Proof.
  destruct (references_of_description _ _ _ Pl Co) as (R & _ & K). constructor.
  - intros x I. rewrite Rl in I. cbn [r_evs] in I. apply in_map_iff in I as (g & <- & I). exact (De g I).
  - exact R.
  - exact (classes_fine stack0 ds F0 Pl Co Cl).
  - intros k (i & I & _). apply nth_error_In in I. apply K, class_in_all in I. rewrite forallb_forall in Ch. specialize (Ch k I). apply existsb_exists in Ch as (c & C & X). exists c.
    split; [apply in_seq in C; lia|exact X].
  - rewrite Rl. cbn [r_defs]. exists (fun _ => 0). discriminate.
Qed.
Lemma is_faultless : faultless F0.
Proof.
  destruct (scanner_for_each _ _ _ Pl Co _ _ _ _ St) as (e & En & Mn). intros e' w I K _.
  assert (E1 : f_entries F0 = [e]).
  { destruct (f_entries F0) as [|e1 [|e2 r]] eqn:E; [discriminate|cbn in En; congruence|]. exfalso.
    destruct (meaning_of_description stack0 ds F0 Pl Co 1 e2) as (x & y & z & S & _); [rewrite E; reflexivity|].
    unfold starts in S. destruct (entries_from [] ds) as [|a [|c l]] eqn:Q; [destruct S; discriminate|discriminate|cbn in One; lia]. }
  rewrite E1 in I. destruct I as [<-|[]]. split.
  - intros (x & l1 & a & l2 & c & l3 & I & E & A & C). rewrite Rl in I. cbn [r_evs] in I. apply in_map_iff in I as (g & <- & I).
    assert (Ia : In a (attrs (attribute ds g))) by (rewrite E; apply in_or_app; right; now left).
    assert (Ic : In c (attrs (attribute ds g))) by (rewrite E; apply in_or_app; right; right; apply in_or_app; right; now left).
    apply (applies_simple stack0 ds F0 gs before b p Rl Si e Mn g a w I Ia) in A. apply (applies_simple stack0 ds F0 gs before b p Rl Si e Mn g c w I Ic) in C.
    assert (X : fst (fst a) = fst (fst c)).
    { apply (Un g w _ _ I); [now apply (known_w stack0 ds F0 Pl Co)| | |exact A|exact C]; unfold names; now apply (in_map (fun x => fst (fst x))). }
    specialize (Nd g I). unfold names in Nd. rewrite E, map_app in Nd. cbn [map] in Nd. rewrite map_app in Nd. cbn [map] in Nd. rewrite <- X in Nd.
    apply NoDup_remove_2 in Nd. apply Nd. apply in_or_app. right. apply in_or_app. right. now left.
  - intros (tag & _ & N). apply N. rewrite Rl. reflexivity.
Qed.
Theorem scanner_made : exists d0 f0, forall stack fuel qsort ud, d0 <= stack -> f0 <= fuel -> sorts qsort -> exists F sc, compile stack ds = Ok F /\ dfasyn fuel qsort ud F = Ok sc.
Proof.
  destruct (outcome F0 is_well_made) as (d0 & f0 & H). exists d0, f0. intros stack fuel qsort ud A B C. exists (with_stack stack F0).
  destruct (H stack fuel qsort ud A B C) as [[_ [sc S]]|[(e & w & I & K & R & M) _]]; [exists sc; split; [exact (compile_stack _ _ _ _ Co)|exact S]|].
  exfalso. destruct (is_faultless e w I K R). destruct M; contradiction.
Qed.
End Makes.
