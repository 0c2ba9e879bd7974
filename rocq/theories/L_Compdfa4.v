(* The compressed automaton does what the first one does, and has no two states that behave alike. *)
From Coq Require Import Permutation Sorted.
From Verif Require Import Base M_Charclass M_Dfasyn M_Compdfa S_Dfasyn L_Charclass L_Charclass2 L_Nfa2 L_Nfa3 L_Compdfa L_Compdfa2 L_Compdfa3.
Local Open Scope nat_scope.

Section Filter.
Context {A : Type} (f : A -> bool).
Definition place (l : list A) (r : nat) : nat := length (filter f (firstn r l)).
Lemma place_S l : forall r x, nth_error l r = Some x -> place l (S r) = place l r + (if f x then 1 else 0).
Proof.
  unfold place. induction l as [|y l IH]; intros [|r] x E; cbn in *; try discriminate.
  - injection E as ->. destruct (f x); reflexivity.
  - specialize (IH r x E). destruct (f y); cbn [length]; cbn in IH; rewrite IH; reflexivity.
Qed.
Lemma place_nth l : forall r x, nth_error l r = Some x -> f x = true -> nth_error (filter f l) (place l r) = Some x.
Proof.
  unfold place. induction l as [|y l IH]; intros [|r] x E F; cbn in *; try discriminate.
  - injection E as ->. rewrite F. reflexivity.
  - destruct (f y); cbn; apply IH; assumption.
Qed.
Lemma place_inv l : forall k x, nth_error (filter f l) k = Some x -> exists r, nth_error l r = Some x /\ f x = true /\ place l r = k.
Proof.
  unfold place. induction l as [|y l IH]; intros k x E; cbn in E; [destruct k; discriminate|]. destruct (f y) eqn:F.
  - destruct k as [|k]; cbn in E; [injection E as <-; exists 0; auto|]. destruct (IH k x E) as (r & A1 & B & C). exists (S r). split; [exact A1|]. split; [exact B|]. cbn. rewrite F. cbn. lia.
  - destruct (IH k x E) as (r & A1 & B & C). exists (S r). split; [exact A1|]. split; [exact B|]. cbn. rewrite F. exact C.
Qed.
End Filter.
Lemma find_seq (f : nat -> bool) : forall k a j, find f (seq a k) = Some j -> a <= j < a + k /\ f j = true /\ forall i, a <= i < j -> f i = false.
Proof.
  induction k as [|k IH]; intros a j E; cbn in E; [discriminate|]. destruct (f a) eqn:F.
  - injection E as <-. split; [lia|]. split; [exact F|]. intros; lia.
  - apply IH in E. destruct E as (B & C & H). split; [lia|]. split; [exact C|]. intros i Hi. destruct (Nat.eq_dec i a) as [->|X]; [exact F|apply H; lia].
Qed.
Lemma rep_ok eqc i : i < length eqc -> rep_of eqc i <= i /\ nth (rep_of eqc i) eqc 0 = nth i eqc 0 /\ forall k, k < rep_of eqc i -> nth k eqc 0 <> nth i eqc 0.
Proof.
  intros L. unfold rep_of. destruct (find (fun j => nth j eqc 0 =? nth i eqc 0) (seq 0 (length eqc))) as [j|] eqn:E.
  - apply find_seq in E. destruct E as (A & B & C). apply Nat.eqb_eq in B. split; [|split; [exact B|intros k Hk; specialize (C k ltac:(lia)); lia]].
    destruct (Nat.le_gt_cases j i) as [X|X]; [exact X|]. specialize (C i ltac:(lia)). rewrite Nat.eqb_refl in C. discriminate.
  - exfalso. assert (X : (nth i eqc 0 =? nth i eqc 0) = false) by (apply (find_none _ _ E i); apply in_seq; lia). rewrite Nat.eqb_refl in X. discriminate.
Qed.
Lemma rep_class eqc i j : i < length eqc -> j < length eqc -> nth i eqc 0 = nth j eqc 0 -> rep_of eqc i = rep_of eqc j.
Proof. intros Li Lj E. unfold rep_of. rewrite E. destruct (find (fun j0 => nth j0 eqc 0 =? nth j eqc 0) (seq 0 (length eqc))) eqn:X; [reflexivity|]. exfalso. assert (Y : (nth j eqc 0 =? nth j eqc 0) = false) by (apply (find_none _ _ X j); apply in_seq; lia). rewrite Nat.eqb_refl in Y. discriminate. Qed.

Lemma nrun_cons ns c t ts : nrun ns c (t :: ts) = nrun ns (nstep ns c t) ts. Proof. reflexivity. Qed.
Lemma nstep_nat ns i t : (0 <= t)%Z -> nstep ns (Z.of_nat i) t = nth (Z.to_nat t) (d_map (node ns i)) (-1)%Z.
Proof. intros H. unfold nstep. replace (Z.of_nat i <? 0)%Z with false by lia. replace (t <? 0)%Z with false by lia. cbn [orb]. rewrite Nat2Z.id. reflexivity. Qed.
Lemma nstep_neg ns c t : (t < 0)%Z -> nstep ns c t = (-1)%Z.
Proof. intros H. unfold nstep. replace (t <? 0)%Z with true by lia. rewrite Bool.orb_true_r. reflexivity. Qed.

Section Merge.
Variables (evs : list evaluator) (nodes : list dfa_node) (nt : nat) (leads : list bool) (eqc : list nat).
Hypothesis defs : forall x, In x evs -> defattr x <> None.
Hypothesis good : Forall (sane evs nt (length nodes)) nodes.
Let n := length nodes.
Let liv := live evs nodes.
Hypothesis leads_len : length leads = n.
Hypothesis leads_ok : forall i, i < n -> (nth i leads false = true <-> liv i).
Let nodes1 := pruned nodes leads.

Lemma len1 : length nodes1 = n. Proof. unfold nodes1, pruned. apply map_length. Qed.
Lemma node1 i : i < n -> node nodes1 i = set_map (node nodes i) (map (cut leads) (d_map (node nodes i))).
Proof. intros L. unfold node, nodes1, pruned. rewrite (nth_indep _ _ (set_map empty_node (map (cut leads) (d_map empty_node)))) by (rewrite map_length; exact L). apply (map_nth (fun d => set_map d (map (cut leads) (d_map d)))). Qed.
Lemma cut_m1 : cut leads (-1) = (-1)%Z. Proof. reflexivity. Qed.
Lemma step1 i t : i < n -> nth t (d_map (node nodes1 i)) (-1)%Z = cut leads (nth t (d_map (node nodes i)) (-1)%Z).
Proof. intros L. rewrite (node1 i L). cbn [set_map d_map]. rewrite <- cut_m1 at 1. apply map_nth. Qed.
Lemma value1 i k : i < n -> value evs (node nodes1 i) k = value evs (node nodes i) k.
Proof. intros L. rewrite (node1 i L). reflexivity. Qed.
Lemma sane1 : Forall (sane evs nt (length nodes1)) nodes1.
Proof.
  rewrite len1. unfold nodes1, pruned. rewrite Forall_map. eapply Forall_impl; [|exact good]. intros d (A & B & C). split; [cbn [set_map d_map]; rewrite map_length; exact A|]. split; [exact B|].
  cbn [set_map d_map]. rewrite Forall_map. eapply Forall_impl; [|exact C]. intros z Hz. cbv beta. unfold cut. destruct ((0 <=? z)%Z && negb (nth (Z.to_nat z) leads false)); [left; reflexivity|exact Hz].
Qed.
Lemma live_run : forall ts i k, i < n -> nrun nodes (Z.of_nat i) ts = Z.of_nat k -> k < n -> liv k -> liv i.
Proof.
  intros ts i k Li R Lk (us & m & R' & Lm & H). exists (ts ++ us), m. split; [|auto]. unfold nrun in *. rewrite fold_left_app, R. exact R'.
Qed.
Lemma run_in : forall ts i, i < n -> nrun nodes (Z.of_nat i) ts = (-1)%Z \/ exists j, j < n /\ nrun nodes (Z.of_nat i) ts = Z.of_nat j.
Proof.
  induction ts as [|t ts IH]; intros i Li; [right; exists i; auto|]. rewrite nrun_cons. destruct (Z.lt_ge_cases t 0) as [Q|Q]; [rewrite nstep_neg by exact Q; left; apply nrun_m1|].
  rewrite nstep_nat by lia. destruct (step_in evs nodes nt good i (Z.to_nat t) Li) as [->|(j & Lj & _ & ->)]; [left; apply nrun_m1|apply IH; exact Lj].
Qed.
Lemma run1 : forall ts i k, i < n -> nrun nodes (Z.of_nat i) ts = Z.of_nat k -> k < n -> liv k -> nrun nodes1 (Z.of_nat i) ts = Z.of_nat k.
Proof.
  induction ts as [|t ts IH]; intros i k Li R Lk Hk; [exact R|]. rewrite nrun_cons in *. destruct (Z.lt_ge_cases t 0) as [Q|Q]; [rewrite nstep_neg in * by exact Q; rewrite nrun_m1 in R; lia|].
  rewrite nstep_nat in * by lia. rewrite step1 by exact Li. destruct (step_in evs nodes nt good i (Z.to_nat t) Li) as [X|(j & Lj & _ & X)]; rewrite X in *; [rewrite nrun_m1 in R; lia|].
  assert (Hj : liv j) by (eapply live_run; eauto). apply leads_ok in Hj; [|exact Lj]. unfold cut. rewrite Nat2Z.id, Hj. cbn [negb]. rewrite Bool.andb_false_r. apply IH; auto.
Qed.
Lemma live_apart z : (0 <= z < Z.of_nat n)%Z -> liv (Z.to_nat z) -> apart evs nodes1 z (-1).
Proof.
  intros R (ts & k & Rk & Lk & H). exists ts. rewrite Z2Nat.id in Rk by lia.
  destruct (node_sane evs nodes nt good k Lk) as (_ & A & _). apply (nondefault_iff evs nodes defs _ A) in H. destruct H as (m & _ & Hm). exists m.
  assert (Lvk : liv k). { exists [], k. split; [reflexivity|]. split; [exact Lk|]. apply (nondefault_iff evs nodes defs _ A). exists m. split; [|exact Hm]. destruct (Nat.lt_ge_cases m (length evs)) as [|X]; [assumption|]. exfalso. apply Hm. unfold value, default. apply nth_error_None in X. rewrite X. reflexivity. }
  replace z with (Z.of_nat (Z.to_nat z)) in * by lia. rewrite (run1 ts (Z.to_nat z) k) by (auto; lia). rewrite nrun_m1. unfold obs. replace (Z.of_nat k <? 0)%Z with false by lia. rewrite Nat2Z.id, value1 by exact Lk. exact Hm.
Qed.
Lemma all_live1 i z : In i (seq 0 (length nodes1)) -> In z (d_map (node nodes1 i)) -> (0 <= z)%Z -> apart evs nodes1 z (-1).
Proof.
  intros Ii Iz Hz. rewrite len1 in Ii. apply in_seq in Ii. assert (Li : i < n) by lia. apply (In_nth _ _ (-1)%Z) in Iz. destruct Iz as (t & Lt & Et). rewrite (step1 i t Li) in Et.
  destruct (step_in evs nodes nt good i t Li) as [X|(j & Lj & _ & X)]; rewrite X in Et; unfold cut in Et; [cbn in Et; lia|].
  rewrite Nat2Z.id in Et. replace (0 <=? Z.of_nat j)%Z with true in Et by lia. cbn [andb] in Et. destruct (nth j leads false) eqn:Q; cbn [negb] in Et; [|lia]. subst z. apply live_apart; [lia|]. rewrite Nat2Z.id. apply leads_ok; assumption.
Qed.

(* the partition is there *)
Variable last : nat.
Hypothesis P : part evs nodes1 eqc last.
Hypothesis stable : forall a b, a < n -> b < n -> nth a eqc 0 = nth b eqc 0 -> same_maps nodes1 eqc a b.
Lemma eqc_len : length eqc = n. Proof. rewrite (pa_len _ _ _ _ P). apply len1. Qed.
Lemma class_step a b t : a < n -> b < n -> nth a eqc 0 = nth b eqc 0 -> class_of eqc (nth t (d_map (node nodes1 a)) (-1)%Z) = class_of eqc (nth t (d_map (node nodes1 b)) (-1)%Z).
Proof. intros La Lb E. apply stable in E; auto. unfold same_maps in E. rewrite <- !(map_nth (class_of eqc)). congruence. Qed.
Lemma dead_step a t : a < n -> ~ liv a -> nth t (d_map (node nodes1 a)) (-1)%Z = (-1)%Z.
Proof.
  intros La Da. rewrite step1 by exact La. destruct (step_in evs nodes nt good a t La) as [X|(j & Lj & Lt & X)]; rewrite X; [reflexivity|]. unfold cut. rewrite Nat2Z.id. destruct (nth j leads false) eqn:Q; [|destruct (0 <=? Z.of_nat j)%Z eqn:Y; [reflexivity|lia]].
  exfalso. apply Da. apply leads_ok in Q; [|exact Lj]. apply (live_step evs nodes nt a t j); auto.
Qed.
Lemma class_live a b : a < n -> b < n -> nth a eqc 0 = nth b eqc 0 -> liv a -> liv b.
Proof.
  intros La Lb E Ha. destruct (live_dec evs nodes leads b (leads_ok b Lb)) as [Hb|Hb]; [exact Hb|]. exfalso.
  destruct Ha as (ts & k & R & Lk & Hk). destruct ts as [|t ts].
  - cbn in R. assert (a = k) by lia. subst k. destruct (node_sane evs nodes nt good a La) as (_ & A & _). apply (nondefault_iff evs nodes defs _ A) in Hk. destruct Hk as (m & _ & Hm). apply Hm.
    pose proof (pa_alike _ _ _ _ P a b) as X. rewrite len1 in X. specialize (X La Lb E m). rewrite !value1 in X by assumption. rewrite X. apply (dead_default evs nodes nt defs good b Lb Hb).
  - rewrite nrun_cons in R. destruct (Z.lt_ge_cases t 0) as [Q|Q]; [rewrite nstep_neg in R by exact Q; rewrite nrun_m1 in R; lia|]. rewrite nstep_nat in R by lia.
    destruct (step_in evs nodes nt good a (Z.to_nat t) La) as [X|(j & Lj & _ & X)]; rewrite X in R; [rewrite nrun_m1 in R; lia|].
    assert (Hj : liv j). { exists ts, k. auto. }
    pose proof (class_step a b (Z.to_nat t) La Lb E) as C. rewrite (dead_step b _ Lb Hb), step1, X in C by exact La. apply leads_ok in Hj; [|exact Lj]. unfold cut in C. rewrite Nat2Z.id, Hj in C. cbn [negb] in C. rewrite Bool.andb_false_r in C. unfold class_of in C. replace (0 <=? Z.of_nat j)%Z with true in C by lia. cbn in C. lia.
Qed.
Lemma rep_facts i : i < n -> rep_of eqc i <= i /\ rep_of eqc i < n /\ nth (rep_of eqc i) eqc 0 = nth i eqc 0 /\ rep_of eqc (rep_of eqc i) = rep_of eqc i.
Proof.
  intros L. assert (L' : i < length eqc) by (rewrite eqc_len; exact L). destruct (rep_ok eqc i L') as (A & B & _). split; [exact A|]. split; [lia|]. split; [exact B|]. apply rep_class; [lia|exact L'|exact B].
Qed.
Lemma lead_rep i : i < n -> nth (rep_of eqc i) leads false = nth i leads false.
Proof.
  intros L. destruct (rep_facts i L) as (_ & Lr & E & _). apply Bool.eq_iff_eq_true. rewrite !leads_ok by assumption. split; apply class_live; auto.
Qed.

(* the new numbers *)
Let L := List.combine (seq 0 n) nodes1.
Let sel := fun id : nat * dfa_node => nth (fst id) leads false && (rep_of eqc (fst id) =? fst id).
Lemma L_nth i : i < n -> nth_error L i = Some (i, node nodes1 i).
Proof.
  intros Li. unfold L, node. assert (E : nth_error nodes1 i = Some (nth i nodes1 empty_node)) by (apply nth_error_nth'; rewrite len1; exact Li). revert E. generalize (nth i nodes1 empty_node) as d.
  assert (G : forall (l : list dfa_node) a k d, nth_error l k = Some d -> nth_error (List.combine (seq a (length l)) l) k = Some (a + k, d)).
  { induction l as [|x l IH]; intros a [|k] d E; cbn in *; try discriminate; [injection E as ->; rewrite Nat.add_0_r; reflexivity|]. rewrite (IH (S a) k d E). f_equal. f_equal. lia. }
  intros d E. rewrite <- len1. apply (G nodes1 0 i d E).
Qed.
Lemma L_in r x : nth_error L r = Some x -> r < n /\ x = (r, node nodes1 r).
Proof.
  intros E. assert (Lr : r < n). { assert (X : r < length L) by (apply nth_error_Some; congruence). unfold L in X. rewrite combine_length, seq_length, len1 in X. lia. }
  split; [exact Lr|]. rewrite (L_nth r Lr) in E. congruence.
Qed.
Definition idx (i : nat) : Z := if nth i leads false then Z.of_nat (place sel L (rep_of eqc i)) else (-1)%Z.
Lemma new_indices_ok : forall k i acc, i + k = n -> length acc = i -> (forall a, a < i -> nth a acc (-1)%Z = idx a) ->
  length (new_indices leads eqc k i (place sel L i) acc) = n /\ forall a, a < n -> nth a (new_indices leads eqc k i (place sel L i) acc) (-1)%Z = idx a.
Proof.
  induction k as [|k IH]; intros i acc E La H; cbn [new_indices].
  - split; [lia|]. intros a Ha. apply H. lia.
  - assert (Li : i < n) by lia. pose proof (place_S sel L i _ (L_nth i Li)) as PS. unfold sel in PS at 3. cbn [fst] in PS.
    assert (Step : forall z, idx i = z -> length (acc ++ [z]) = S i /\ forall a, a < S i -> nth a (acc ++ [z]) (-1)%Z = idx a).
    { intros z Hz. split; [rewrite app_length; cbn; lia|]. intros a Ha. destruct (Nat.eq_dec a i) as [->|X]; [rewrite app_nth2, La, Nat.sub_diag by lia; cbn; congruence|rewrite app_nth1 by lia; apply H; lia]. }
    destruct (nth i leads false) eqn:Q; cbn [negb andb] in *.
    + destruct (rep_of eqc i =? i) eqn:R.
      * replace (S (place sel L i)) with (place sel L (S i)) by lia. assert (Z : idx i = Z.of_nat (place sel L i)) by (unfold idx; rewrite Q; apply Nat.eqb_eq in R; rewrite R; reflexivity).
        destruct (Step _ Z) as (S1 & S2). apply IH; auto; lia.
      * rewrite Nat.add_0_r in PS. rewrite <- PS. apply Nat.eqb_neq in R. destruct (rep_facts i Li) as (R1 & R2 & R3 & R4).
        assert (Z : idx i = nth (rep_of eqc i) acc (-1)%Z). { rewrite H by lia. unfold idx. rewrite Q, lead_rep, Q, R4 by exact Li. reflexivity. }
        destruct (Step _ Z) as (S1 & S2). apply IH; auto; lia.
    + rewrite Nat.add_0_r in PS. rewrite <- PS. assert (Z : idx i = (-1)%Z) by (unfold idx; rewrite Q; reflexivity). destruct (Step _ Z) as (S1 & S2). apply IH; auto; lia.
Qed.
Let ni := new_indices leads eqc n 0 0 [].
Lemma ni_ok i : i < n -> nth i ni (-1)%Z = idx i.
Proof. intros Li. unfold ni. apply (proj2 (new_indices_ok n 0 [] ltac:(lia) eq_refl ltac:(intros; lia))). exact Li. Qed.
Variable entries : list nat.
Let entries' := fst (compress_states leads nodes1 eqc entries).
Let nodes' := snd (compress_states leads nodes1 eqc entries).
Let renum := fun z => if (0 <=? z)%Z then nth (Z.to_nat z) ni (-1)%Z else z.
Lemma nodes'_eq : nodes' = map (fun id => set_map (snd id) (map renum (d_map (snd id)))) (filter sel L).
Proof. unfold nodes', compress_states. cbn [fst snd]. unfold renum, ni, L. rewrite len1. reflexivity. Qed.
Lemma sel_iff r : r < n -> (sel (r, node nodes1 r) = true <-> nth r leads false = true /\ rep_of eqc r = r).
Proof. intros _. unfold sel. cbn [fst]. rewrite Bool.andb_true_iff, Nat.eqb_eq. reflexivity. Qed.
Lemma new_node r : r < n -> sel (r, node nodes1 r) = true -> place sel L r < length nodes' /\ node nodes' (place sel L r) = set_map (node nodes1 r) (map renum (d_map (node nodes1 r))).
Proof.
  intros Lr S_. assert (E : nth_error nodes' (place sel L r) = Some (set_map (node nodes1 r) (map renum (d_map (node nodes1 r))))).
  { rewrite nodes'_eq. rewrite nth_error_map, (place_nth sel L r _ (L_nth r Lr) S_). reflexivity. }
  split; [apply nth_error_Some; congruence|]. unfold node at 1. apply nth_error_nth. exact E.
Qed.
Lemma new_from a : a < length nodes' -> exists r, r < n /\ sel (r, node nodes1 r) = true /\ place sel L r = a.
Proof.
  intros La. rewrite nodes'_eq, map_length in La. destruct (nth_error (filter sel L) a) as [x|] eqn:E; [|apply nth_error_None in E; lia]. apply place_inv in E. destruct E as (r & A & B & C). apply L_in in A. destruct A as (Lr & ->). exists r. auto.
Qed.
Lemma idx_live i : i < n -> liv i -> exists a, idx i = Z.of_nat a /\ a < length nodes' /\ a = place sel L (rep_of eqc i) /\ sel (rep_of eqc i, node nodes1 (rep_of eqc i)) = true.
Proof.
  intros Li Hi. exists (place sel L (rep_of eqc i)). destruct (rep_facts i Li) as (R1 & R2 & R3 & R4). assert (Q : nth i leads false = true) by (apply leads_ok; assumption).
  assert (Se : sel (rep_of eqc i, node nodes1 (rep_of eqc i)) = true) by (apply sel_iff; [exact R2|]; rewrite lead_rep by exact Li; auto).
  split; [unfold idx; rewrite Q; reflexivity|]. split; [apply (new_node _ R2 Se)|]. auto.
Qed.
Lemma idx_dead i : i < n -> ~ liv i -> idx i = (-1)%Z.
Proof. intros Li Hi. unfold idx. destruct (nth i leads false) eqn:Q; [|reflexivity]. exfalso. apply Hi. apply leads_ok; assumption. Qed.

(* the two automata side by side *)
Definition sim (z z' : Z) : Prop :=
  (exists i, z = Z.of_nat i /\ i < n /\ liv i /\ z' = idx i) \/ (z' = (-1)%Z /\ (z = (-1)%Z \/ exists i, z = Z.of_nat i /\ i < n /\ ~ liv i)).
Lemma sim_start i : i < n -> sim (Z.of_nat i) (idx i).
Proof.
  intros Li. destruct (live_dec evs nodes leads i (leads_ok i Li)) as [H|H]; [left; exists i; auto|]. right. split; [apply idx_dead; assumption|]. right. exists i. auto.
Qed.
Lemma renum_m1 : renum (-1) = (-1)%Z. Proof. reflexivity. Qed.
Lemma sim_step z z' t : sim z z' -> sim (nstep nodes z t) (nstep nodes' z' t).
Proof.
  intros S0. destruct (Z.lt_ge_cases t 0) as [Q|Q]; [rewrite !nstep_neg by exact Q; right; auto|].
  destruct S0 as [(i & -> & Li & Hi & ->)|(-> & Hz)].
  - destruct (idx_live i Li Hi) as (a & -> & La & -> & Se). rewrite !nstep_nat by lia. destruct (rep_facts i Li) as (R1 & R2 & R3 & R4). rewrite (proj2 (new_node _ R2 Se)). cbn [set_map d_map].
    rewrite <- renum_m1 at 2. rewrite (map_nth renum). pose proof (class_step _ _ (Z.to_nat t) R2 Li R3) as C. rewrite (step1 i (Z.to_nat t) Li) in C.
    destruct (step_in evs nodes nt good i (Z.to_nat t) Li) as [X|(j & Lj & _ & X)]; rewrite X in *.
    + right. split; [|auto]. assert (Y : nth (Z.to_nat t) (d_map (node nodes1 (rep_of eqc i))) (-1)%Z = (-1)%Z); [|rewrite Y; reflexivity].
      rewrite step1 in * by exact R2. destruct (step_in evs nodes nt good (rep_of eqc i) (Z.to_nat t) R2) as [Y|(j & Lj & _ & Y)]; rewrite Y in *; [reflexivity|]. unfold cut in *. rewrite Nat2Z.id in *. destruct (nth j leads false); [|destruct (0 <=? Z.of_nat j)%Z eqn:W; [reflexivity|lia]].
      cbn [negb] in *. rewrite Bool.andb_false_r in *. unfold class_of in C. replace (0 <=? Z.of_nat j)%Z with true in C by lia. cbn in C. lia.
    + destruct (live_dec evs nodes leads j (leads_ok j Lj)) as [H|H].
      * left. exists j. split; [reflexivity|]. split; [exact Lj|]. split; [exact H|]. assert (Q' : nth j leads false = true) by (apply leads_ok; assumption). unfold cut in C at 1. rewrite Nat2Z.id, Q' in C. cbn [negb] in C. rewrite Bool.andb_false_r in C.
        rewrite step1 in * by exact R2. destruct (step_in evs nodes nt good (rep_of eqc i) (Z.to_nat t) R2) as [Y|(j' & Lj' & _ & Y)]; rewrite Y in *.
        { unfold cut, class_of in C. cbn [Z.leb andb] in C. replace (0 <=? Z.of_nat j)%Z with true in C by lia. cbn in C. lia. }
        unfold cut in *. rewrite !Nat2Z.id in *. destruct (nth j' leads false) eqn:Q2; cbn [negb] in *; [|rewrite Bool.andb_true_r in *; replace (0 <=? Z.of_nat j')%Z with true in * by lia; unfold class_of in C; replace (0 <=? Z.of_nat j)%Z with true in C by lia; cbn in C; lia].
        rewrite Bool.andb_false_r in *. unfold class_of in C. replace (0 <=? Z.of_nat j)%Z with true in C by lia. replace (0 <=? Z.of_nat j')%Z with true in C by lia. rewrite !Nat2Z.id in C. apply Nat2Z.inj in C.
        unfold renum. replace (0 <=? Z.of_nat j')%Z with true by lia. rewrite Nat2Z.id, ni_ok by exact Lj'. unfold idx. rewrite Q', Q2. f_equal. f_equal. apply rep_class; rewrite ?eqc_len; auto.
      * right. split; [|right; exists j; auto]. assert (Q' : nth j leads false = false) by (destruct (nth j leads false) eqn:W; [exfalso; apply H, leads_ok; assumption|reflexivity]).
        assert (Y : nth (Z.to_nat t) (d_map (node nodes1 (rep_of eqc i))) (-1)%Z = (-1)%Z); [|rewrite Y; reflexivity].
        unfold cut in C at 1. rewrite Nat2Z.id, Q' in C. cbn [negb] in C. rewrite Bool.andb_true_r in C. replace (0 <=? Z.of_nat j)%Z with true in C by lia.
        rewrite step1 in * by exact R2. destruct (step_in evs nodes nt good (rep_of eqc i) (Z.to_nat t) R2) as [Y|(j' & Lj' & _ & Y)]; rewrite Y in *; [reflexivity|]. unfold cut in *. rewrite Nat2Z.id in *. destruct (nth j' leads false); [|destruct (0 <=? Z.of_nat j')%Z eqn:W; [reflexivity|lia]].
        cbn [negb] in *. rewrite Bool.andb_false_r in *. unfold class_of in C. replace (0 <=? Z.of_nat j')%Z with true in C by lia. cbn in C. lia.
  - right. split; [reflexivity|]. destruct Hz as [->|(i & -> & Li & Hi)]; [left; reflexivity|]. rewrite nstep_nat by lia.
    destruct (step_in evs nodes nt good i (Z.to_nat t) Li) as [X|(j & Lj & Lt & X)]; rewrite X; [left; reflexivity|]. right. exists j. split; [reflexivity|]. split; [exact Lj|]. intros Hj. apply Hi. apply (live_step evs nodes nt i (Z.to_nat t) j); auto.
Qed.
Lemma sim_run ts : forall z z', sim z z' -> sim (nrun nodes z ts) (nrun nodes' z' ts).
Proof. induction ts as [|t ts IH]; intros z z' H; [exact H|]. rewrite !nrun_cons. apply IH. apply sim_step. exact H. Qed.
Lemma sim_obs z z' k : sim z z' -> obs evs nodes z k = obs evs nodes' z' k.
Proof.
  intros [(i & -> & Li & Hi & ->)|(-> & [->|(i & -> & Li & Hi)])]; unfold obs.
  - destruct (idx_live i Li Hi) as (a & -> & La & -> & Se). destruct (rep_facts i Li) as (R1 & R2 & R3 & R4). replace (Z.of_nat i <? 0)%Z with false by lia. replace (Z.of_nat _ <? 0)%Z with false by lia. rewrite !Nat2Z.id, (proj2 (new_node _ R2 Se)).
    transitivity (value evs (node nodes1 (rep_of eqc i)) k); [|reflexivity]. rewrite <- (value1 i) by exact Li. pose proof (pa_alike _ _ _ _ P i (rep_of eqc i)) as X. rewrite len1 in X. apply (X Li R2 (eq_sym R3)).
  - reflexivity.
  - cbn [Z.ltb Z.compare]. replace (Z.of_nat i <? 0)%Z with false by lia. rewrite Nat2Z.id. apply (dead_default evs nodes nt defs good i Li Hi).
Qed.
Lemma new_sane : Forall (sane evs nt (length nodes')) nodes'.
Proof.
  apply Forall_forall. intros d Hd. apply (In_nth _ _ empty_node) in Hd. destruct Hd as (a & La & Ea). destruct (new_from a La) as (r & Lr & Se & Pr). destruct (new_node r Lr Se) as (_ & N). rewrite Pr in N. unfold node in N at 1. rewrite Ea in N. clear Ea. subst d.
  pose proof sane1 as G. rewrite Forall_forall in G. destruct (G (node nodes1 r)) as (A & B & C); [unfold node; apply nth_In; rewrite len1; exact Lr|]. split; [cbn [set_map d_map]; rewrite map_length; exact A|]. split; [exact B|].
  cbn [set_map d_map]. rewrite Forall_map. eapply Forall_impl; [|exact C]. intros z Hz. cbv beta. unfold renum. rewrite len1 in Hz. destruct Hz as [->|Hz]; [left; reflexivity|]. replace (0 <=? z)%Z with true by lia. rewrite ni_ok by lia.
  destruct (live_dec evs nodes leads (Z.to_nat z) (leads_ok (Z.to_nat z) ltac:(lia))) as [H|H].
  - destruct (idx_live (Z.to_nat z) ltac:(lia) H) as (b & -> & Lb & _). right. lia.
  - left. apply idx_dead; [lia|exact H].
Qed.
Lemma new_apart a b : a < length nodes' -> b < length nodes' -> a <> b -> apart evs nodes' (Z.of_nat a) (Z.of_nat b).
Proof.
  intros La Lb Nab. destruct (new_from a La) as (r & Lr & Sr & Pr). destruct (new_from b Lb) as (s & Ls & Ss & Ps). destruct (proj1 (sel_iff r Lr) Sr) as (Vr & Rr), (proj1 (sel_iff s Ls) Ss) as (Vs & Rs).
  assert (C : nth r eqc 0 <> nth s eqc 0). { intros E. apply Nab. apply rep_class in E; rewrite ?eqc_len; auto. congruence. }
  assert (Ir : idx r = Z.of_nat a) by (unfold idx; rewrite Vr, Rr; congruence). assert (Is : idx s = Z.of_nat b) by (unfold idx; rewrite Vs, Rs; congruence).
  pose proof (pa_apart _ _ _ _ P r s) as X. rewrite len1 in X. destruct (X Lr Ls C) as (ts & k & H). exists ts, k. rewrite <- Ir, <- Is.
  rewrite <- (sim_obs _ _ k (sim_run ts _ _ (sim_start r Lr))), <- (sim_obs _ _ k (sim_run ts _ _ (sim_start s Ls))).
  (* the first automaton and the one without dead states *)
  assert (Y : forall i, i < n -> obs evs nodes1 (nrun nodes1 (Z.of_nat i) ts) k = obs evs nodes (nrun nodes (Z.of_nat i) ts) k); [|rewrite !Y in H by assumption; exact H].
  clear - good leads_ok leads_len defs. intros i Li. destruct (run_in ts i Li) as [Q|(j & Lj & Q)].
  - assert (Z1 : nrun nodes1 (Z.of_nat i) ts = (-1)%Z).
    { revert i Li Q. induction ts as [|t ts IH]; intros i Li Q; [cbn in Q; lia|]. rewrite nrun_cons in *. destruct (Z.lt_ge_cases t 0) as [T|T]; [rewrite nstep_neg by exact T; apply nrun_m1|]. rewrite nstep_nat in * by lia. rewrite step1 by exact Li.
      destruct (step_in evs nodes nt good i (Z.to_nat t) Li) as [X|(j & Lj & _ & X)]; rewrite X in *; [apply nrun_m1|]. unfold cut. destruct ((0 <=? Z.of_nat j)%Z && negb (nth (Z.to_nat (Z.of_nat j)) leads false)); [apply nrun_m1|apply IH; assumption]. }
    rewrite Q, Z1. reflexivity.
  - destruct (live_dec evs nodes leads j (leads_ok j Lj)) as [H|H].
    + rewrite (run1 ts i j Li Q Lj H), Q. unfold obs. replace (Z.of_nat j <? 0)%Z with false by lia. rewrite Nat2Z.id. apply value1. exact Lj.
    + rewrite Q. unfold obs at 2. replace (Z.of_nat j <? 0)%Z with false by lia. rewrite Nat2Z.id, (dead_default evs nodes nt defs good j Lj H).
      assert (Z1 : nrun nodes1 (Z.of_nat i) ts = (-1)%Z \/ nrun nodes1 (Z.of_nat i) ts = Z.of_nat j).
      { revert i Li Q. induction ts as [|t ts IH]; intros i Li Q; [right; exact Q|]. rewrite nrun_cons in *. destruct (Z.lt_ge_cases t 0) as [T|T]; [rewrite nstep_neg by exact T; left; apply nrun_m1|]. rewrite nstep_nat in * by lia. rewrite step1 by exact Li.
        destruct (step_in evs nodes nt good i (Z.to_nat t) Li) as [X|(j' & Lj' & _ & X)]; rewrite X in *; [left; apply nrun_m1|]. unfold cut. destruct ((0 <=? Z.of_nat j')%Z && negb (nth (Z.to_nat (Z.of_nat j')) leads false)); [left; apply nrun_m1|apply IH; assumption]. }
      destruct Z1 as [->| ->]; [reflexivity|]. unfold obs. replace (Z.of_nat j <? 0)%Z with false by lia. rewrite Nat2Z.id, value1 by exact Lj. apply (dead_default evs nodes nt defs good j Lj H).
Qed.
Lemma new_entries : entries' = map (fun e => nth e ni (-1)%Z) entries.
Proof. unfold entries', compress_states. cbn [fst]. unfold ni. rewrite len1. reflexivity. Qed.
Lemma entry_idx : Forall (fun e => e < n) entries -> entries' = map idx entries.
Proof. intros F. rewrite new_entries. apply map_ext_in. intros e He. rewrite Forall_forall in F. apply ni_ok. apply F. exact He. Qed.
End Merge.
