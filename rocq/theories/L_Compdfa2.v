(* States that lead nowhere, and states that behave alike. *)
From Coq Require Import Permutation Sorted.
From Verif Require Import Base M_Charclass M_Dfasyn M_Compdfa S_Dfasyn L_Charclass L_Charclass2 L_Nfa2 L_Nfa3 L_Compdfa.
From Verif Require L_Update L_TokTable L_Mbox.
Local Open Scope nat_scope.

Definition trues (l : list bool) : nat := length (filter (fun x => x) l).
Lemma trues_set l : forall i, i < length l -> nth i l false = false -> trues (set_nth l i true) = S (trues l).
Proof.
  unfold trues. induction l as [|x l IH]; intros [|i] L E; cbn in *; try lia; [subst x; reflexivity|]. destruct x; cbn; rewrite IH by (auto; lia); reflexivity.
Qed.
Lemma trues_le l : trues l <= length l. Proof. apply filter_le. Qed.

(* the least a state needs *)
Definition sane (evs : list evaluator) (nt n : nat) (d : dfa_node) : Prop :=
  length (d_map d) = nt /\ length (d_attrs d) = length evs /\ Forall (fun z => z = (-1)%Z \/ (0 <= z < Z.of_nat n)%Z) (d_map d).
Definition value (evs : list evaluator) (d : dfa_node) (i : nat) : option bytes := match nth_error evs i with Some x => attr_or (defattr x) (nth i (d_attrs d) None) | None => None end.
Definition alike (evs : list evaluator) (d e : dfa_node) : Prop := forall i, value evs d i = value evs e i.
Definition default (evs : list evaluator) (i : nat) : option bytes := match nth_error evs i with Some x => defattr x | None => None end.
Lemma nrun_neg nodes ts : forall cur, (cur < 0)%Z -> ts <> [] -> nrun nodes cur ts = (-1)%Z.
Proof.
  destruct ts as [|t ts]; [congruence|]. intros cur H _. cbn [nrun fold_left]. unfold nrun. cbn [fold_left]. unfold nstep at 2. replace (cur <? 0)%Z with true by lia. cbn [orb].
  induction ts as [|u ts IH]; [reflexivity|]. cbn [fold_left]. unfold nstep at 2. cbn. exact IH.
Qed.
Lemma nrun_m1 nodes ts : nrun nodes (-1) ts = (-1)%Z.
Proof. destruct ts; [reflexivity|]. apply nrun_neg; [lia|discriminate]. Qed.

Section Dead.
Variables (evs : list evaluator) (nodes : list dfa_node) (nt : nat).
Hypothesis defs : forall x, In x evs -> defattr x <> None.
Hypothesis good : Forall (sane evs nt (length nodes)) nodes.
Let n := length nodes.

Lemma node_sane i : i < n -> sane evs nt n (node nodes i).
Proof. intros L. unfold node. rewrite Forall_forall in good. apply good. apply nth_In. exact L. Qed.
Lemma nondefault_iff d : length (d_attrs d) = length evs -> (nondefault evs d = true <-> exists i, i < length evs /\ value evs d i <> default evs i).
Proof.
  intros L. unfold nondefault. rewrite existsb_exists. split.
  - intros ((x & v) & Ix & H). cbn [fst snd] in H. apply In_nth_error in Ix. destruct Ix as (i & E).
    assert (X : nth_error evs i = Some x /\ nth_error (d_attrs d) i = Some v).
    { clear - E. revert E. generalize (d_attrs d) as l. revert i. induction evs as [|y evs' IH]; intros [|i] [|w l] E; cbn in *; try discriminate; [injection E as -> ->; auto|]. apply IH. exact E. }
    destruct X as (X1 & X2). exists i. split; [apply nth_error_Some; congruence|]. unfold value, default. rewrite X1. rewrite (nth_error_nth _ _ None X2).
    destruct v as [v|]; [|discriminate]. destruct (defattr x) as [w|]; [|discriminate]. cbn [attr_or]. intros Q. injection Q as ->. rewrite L_TokTable.bytes_eqb_refl in H. discriminate.
  - intros (i & Li & H). destruct (nth_error evs i) as [x|] eqn:X; [|apply nth_error_None in X; lia]. destruct (nth_error (d_attrs d) i) as [v|] eqn:V; [|apply nth_error_None in V; lia].
    exists (x, v). split.
    + clear - X V. revert X V. generalize (d_attrs d) as l. revert i. induction evs as [|y evs' IH]; intros [|i] [|w l] X V; cbn in *; try discriminate; [injection X as ->; injection V as ->; auto|]. right. eapply IH; eauto.
    + unfold value, default in H. rewrite X, (nth_error_nth _ _ None V) in H. cbn [fst snd]. pose proof (defs x (nth_error_In _ _ X)) as Dx. destruct v as [v|]; cbn [attr_or] in H; [|congruence]. destruct (defattr x) as [w|]; [|congruence].
      destruct (bytes_eqb w v) eqn:Q; [|reflexivity]. apply L_Mbox.bytes_eqb_iff in Q. congruence.
Qed.

Definition live (i : nat) : Prop := exists ts k, nrun nodes (Z.of_nat i) ts = Z.of_nat k /\ k < n /\ nondefault evs (node nodes k) = true.
Lemma live_here i : i < n -> nondefault evs (node nodes i) = true -> live i.
Proof. intros L H. exists [], i. auto. Qed.
Lemma live_step i t j : i < n -> t < nt -> nth t (d_map (node nodes i)) (-1)%Z = Z.of_nat j -> live j -> live i.
Proof.
  intros L T E (ts & k & R & Lk & H). exists (Z.of_nat t :: ts), k. split; [|auto]. unfold nrun in *. cbn [fold_left]. unfold nstep at 2.
  replace (Z.of_nat i <? 0)%Z with false by lia. replace (Z.of_nat t <? 0)%Z with false by lia. cbn [orb]. rewrite !Nat2Z.id, E. exact R.
Qed.
Lemma step_in i t : i < n -> let z := nth t (d_map (node nodes i)) (-1)%Z in z = (-1)%Z \/ exists j, j < n /\ t < nt /\ z = Z.of_nat j.
Proof.
  intros L z. destruct (node_sane i L) as (A & _ & C). destruct (Nat.lt_ge_cases t nt) as [Q|Q].
  - rewrite Forall_forall in C. destruct (C z) as [X|X]; [apply nth_In; lia|auto|]. right. exists (Z.to_nat z). repeat split; [lia|exact Q|lia].
  - left. apply nth_overflow. lia.
Qed.

(* one round *)
Definition closed_at (leads : list bool) (i : nat) : Prop :=
  nth i leads false = true \/ (nondefault evs (node nodes i) = false /\ forall t j, t < nt -> nth t (d_map (node nodes i)) (-1)%Z = Z.of_nat j -> nth j leads false = false).
Definition sound_leads (leads : list bool) : Prop := length leads = n /\ forall i, nth i leads false = true -> i < n /\ live i.
Lemma round_ok : forall l leads any, (forall i d, In (i, d) l -> i < n /\ d = node nodes i) -> sound_leads leads ->
  forall r, fold_left (fun (la : list bool * bool) (id : nat * dfa_node) =>
    if nth (fst id) (fst la) false then la else
    if nondefault evs (snd id) || existsb (fun z => (0 <=? z)%Z && nth (Z.to_nat z) (fst la) false) (d_map (snd id)) then (set_nth (fst la) (fst id) true, true) else la) l (leads, any) = r ->
  sound_leads (fst r) /\ trues leads <= trues (fst r) /\ ((any = false /\ snd r = true) -> trues leads < trues (fst r)) /\ (any = true -> snd r = true) /\
  (snd r = false -> fst r = leads /\ forall i d, In (i, d) l -> closed_at leads i).
Proof.
  induction l as [|[i d] l IH]; intros leads any I S0 r E; cbn [fold_left fst snd] in E.
  - subst r. cbn [fst snd]. split; [exact S0|]. split; [lia|]. split; [intros [-> X]; discriminate|]. split; [auto|]. intros _. split; [reflexivity|]. intros i d [].
  - destruct (I i d (or_introl eq_refl)) as (Li & ->). assert (I' : forall i d, In (i, d) l -> i < n /\ d = node nodes i) by (intros; apply I; right; assumption).
    destruct (nth i leads false) eqn:Q.
    + apply IH in E; auto. destruct E as (A & B & C & D & F). split; [exact A|]. split; [exact B|]. split; [exact C|]. split; [exact D|]. intros X. destruct (F X) as (F1 & F2). split; [exact F1|]. intros j e [J|J]; [assert (Ej : j = i) by congruence; rewrite Ej; left; exact Q|apply (F2 j e J)].
    + destruct (nondefault evs (node nodes i) || existsb (fun z => (0 <=? z)%Z && nth (Z.to_nat z) leads false) (d_map (node nodes i))) eqn:Y.
      * assert (Lv : live i).
        { apply Bool.orb_true_iff in Y. destruct Y as [Y|Y]; [apply live_here; assumption|]. apply existsb_exists in Y. destruct Y as (z & Iz & Hz). apply andb_prop in Hz. destruct Hz as (Z1 & Z2).
          apply (In_nth _ _ (-1)%Z) in Iz. destruct Iz as (t & Lt & Et). destruct S0 as (_ & S1). apply S1 in Z2. destruct (node_sane i Li) as (Ln & _ & _). apply (live_step i t (Z.to_nat z)); [exact Li|lia|rewrite Et; lia|apply Z2]. }
        assert (S' : sound_leads (set_nth leads i true)).
        { destruct S0 as (Sl & S1). split; [rewrite cc_set_len; exact Sl|]. intros j J. rewrite cc_set_nth in J by lia. destruct (Nat.eqb_spec i j) as [Ej|Nj]; [rewrite <- Ej; auto|apply S1; exact J]. }
        apply IH in E; auto. destruct S0 as (Sl & _). rewrite trues_set in E by (auto; lia). destruct E as (A & B & C & D & F). split; [exact A|]. split; [lia|]. split; [lia|]. split; [intros _; auto|]. intros X. rewrite D in X by reflexivity. discriminate.
      * apply IH in E; auto. destruct E as (A & B & C & D & F). split; [exact A|]. split; [exact B|]. split; [exact C|]. split; [exact D|]. intros X. destruct (F X) as (F1 & F2). split; [exact F1|]. intros j e [J|J]; [|apply (F2 j e J)]. assert (Ej : j = i) by congruence. rewrite Ej. clear Ej J j e.
        apply Bool.orb_false_iff in Y. destruct Y as (Y1 & Y2). right. split; [exact Y1|]. intros t j Lt Et. destruct (nth j leads false) eqn:Qj; [|reflexivity]. exfalso.
        assert (X' : existsb (fun z => (0 <=? z)%Z && nth (Z.to_nat z) leads false) (d_map (node nodes i)) = true); [|congruence].
        apply existsb_exists. exists (Z.of_nat j). split; [rewrite <- Et; apply nth_In; destruct (node_sane i Li); lia|]. rewrite Nat2Z.id, Qj. lia.
Qed.
Lemma in_states i d : In (i, d) (List.combine (seq 0 (length nodes)) nodes) <-> i < n /\ d = node nodes i.
Proof.
  rewrite L_Nfa2.combine_seq_in, Nat.sub_0_r. unfold node. split.
  - intros (_ & E). split; [apply nth_error_Some; congruence|]. symmetry. apply nth_error_nth. exact E.
  - intros (L & ->). split; [lia|]. apply nth_error_nth'. exact L.
Qed.
Lemma loop_ok : forall fuel leads, sound_leads leads -> n < fuel + trues leads -> exists leads', leads_loop fuel evs nodes leads = Ok leads' /\ sound_leads leads' /\ forall i, i < n -> closed_at leads' i.
Proof.
  induction fuel as [|fuel IH]; intros leads S0 Fu.
  - exfalso. pose proof (trues_le leads). destruct S0. lia.
  - cbn [leads_loop]. destruct (leads_round evs nodes leads) as [leads1 any] eqn:E. unfold leads_round in E.
    apply round_ok in E; [|intros i d Hi; apply in_states; exact Hi|exact S0]. cbn [fst snd] in E. destruct E as (A & B & C & _ & F). destruct any.
    + apply IH; [exact A|]. specialize (C (conj eq_refl eq_refl)). lia.
    + destruct (F eq_refl) as (-> & F2). exists leads. split; [reflexivity|]. split; [exact S0|]. intros i Li. apply (F2 i (node nodes i)). apply in_states. auto.
Qed.
Lemma live_closed leads : (forall i, i < n -> closed_at leads i) -> forall i, i < n -> live i -> nth i leads false = true.
Proof.
  intros Cl i Li (ts & k & R & Lk & H). revert i Li R. induction ts as [|t ts IH]; intros i Li R; cbn in R.
  - assert (i = k) by lia. subst k. destruct (Cl i Li) as [X|[X _]]; [exact X|congruence].
  - unfold nrun in R. cbn [fold_left] in R. unfold nstep at 2 in R. replace (Z.of_nat i <? 0)%Z with false in R by lia. cbn [orb] in R. destruct (t <? 0)%Z eqn:Q.
    { exfalso. pose proof (nrun_m1 nodes ts) as X. unfold nrun in X. rewrite X in R. lia. }
    rewrite Nat2Z.id in R. destruct (step_in i (Z.to_nat t) Li) as [X|(j & Lj & Lt & X)].
    { exfalso. rewrite X in R. pose proof (nrun_m1 nodes ts) as Y. unfold nrun in Y. rewrite Y in R. lia. }
    rewrite X in R. specialize (IH j Lj R). destruct (Cl i Li) as [C|[_ C]]; [exact C|]. rewrite (C _ _ Lt X) in IH. discriminate.
Qed.
Definition cut (leads : list bool) (z : Z) : Z := if (0 <=? z)%Z && negb (nth (Z.to_nat z) leads false) then (-1)%Z else z.
Definition pruned (leads : list bool) : list dfa_node := map (fun d => set_map d (map (cut leads) (d_map d))) nodes.
Lemma dead_ok : exists leads, find_dead_states evs nodes = Ok (leads, pruned leads) /\ length leads = n /\ (forall i, i < n -> (nth i leads false = true <-> live i)).
Proof.
  unfold find_dead_states. destruct (loop_ok (S (length nodes)) (repeat false (length nodes))) as (leads & E & (S1 & S2) & C).
  - split; [apply repeat_length|]. intros i H. rewrite nth_repeat in H. discriminate.
  - fold n. lia.
  - rewrite E. cbn [bind]. exists leads. split; [reflexivity|]. split; [exact S1|]. intros i Li. split; [intros H; apply S2; exact H|]. apply live_closed; assumption.
Qed.
Lemma live_dec leads i : (nth i leads false = true <-> live i) -> live i \/ ~ live i.
Proof. intros H. destruct (nth i leads false); [left; apply H; reflexivity|right; intros X; apply H in X; discriminate]. Qed.
Lemma dead_default i : i < n -> ~ live i -> forall k, value evs (node nodes i) k = default evs k.
Proof.
  intros L D k. destruct (Nat.lt_ge_cases k (length evs)) as [Q|Q].
  - destruct (nondefault evs (node nodes i)) eqn:E; [exfalso; apply D; apply live_here; assumption|]. destruct (node_sane i L) as (_ & A & _).
    assert (X : ~ exists i0, i0 < length evs /\ value evs (node nodes i) i0 <> default evs i0) by (rewrite <- (nondefault_iff _ A); congruence).
    assert (Dec : value evs (node nodes i) k = default evs k \/ value evs (node nodes i) k <> default evs k).
    { destruct (value evs (node nodes i) k) as [v|], (default evs k) as [w|]; auto; try (right; discriminate). destruct (bytes_eqb v w) eqn:Y; [left; apply L_Mbox.bytes_eqb_iff in Y; congruence|right; intros Z; injection Z as ->; rewrite L_TokTable.bytes_eqb_refl in Y; discriminate]. }
    destruct Dec as [Dec|Dec]; [exact Dec|]. exfalso. apply X. exists k. auto.
  - unfold value, default. apply nth_error_None in Q. rewrite Q. reflexivity.
Qed.
End Dead.
