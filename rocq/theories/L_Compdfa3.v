(* The final partition: states in one class behave alike, states in two do not. *)
From Coq Require Import Permutation Sorted.
From Verif Require Import Base M_Charclass M_Dfasyn M_Compdfa S_Dfasyn L_Charclass L_Charclass2 L_Nfa2 L_Nfa3 L_Compdfa L_Compdfa2.
From Verif Require L_Update L_TokTable L_Mbox.
Local Open Scope nat_scope.

Lemma bytes_order : total_order bytes_cmp.
Proof.
  split; [intros; apply L_Update.cmp_anti|]. intros x y z. apply L_Update.cmp_trans.
Qed.
Lemma opt_order : total_order opt_cmp.
Proof.
  split.
  - intros [x|] [y|]; cbn; auto. apply (proj1 bytes_order).
  - intros [x|] [y|] [z|]; cbn; try congruence. apply (proj2 bytes_order).
Qed.
Lemma opt_cmp_eq x y : opt_cmp x y = Eq -> x = y.
Proof. destruct x, y; cbn; try discriminate; auto. intros H. apply L_Update.cmp_eq in H. congruence. Qed.
Lemma opt_cmp_refl x : opt_cmp x x = Eq.
Proof. destruct x; cbn; auto. apply L_Update.cmp_refl. Qed.
Definition vals (evs : list evaluator) (a : list (option bytes)) : list (option bytes) := map (fun xv => attr_or (defattr (fst xv)) (snd xv)) (List.combine evs a).
Lemma attrs_cmp_list evs : forall a b, length a = length evs -> length b = length evs -> attrs_cmp evs a b = list_cmp opt_cmp (vals evs a) (vals evs b).
Proof.
  induction evs as [|x evs IH]; intros [|v a] [|w b] A B; cbn in *; try lia; auto. destruct (opt_cmp (attr_or (defattr x) v) (attr_or (defattr x) w)); cbn; auto. apply IH; lia.
Qed.
Lemma vals_nth evs : forall a i, length a = length evs -> nth i (vals evs a) None = match nth_error evs i with Some x => attr_or (defattr x) (nth i a None) | None => None end.
Proof. induction evs as [|x evs IH]; intros [|v a] [|i] A; cbn in A; try lia; try reflexivity. cbn [nth_error nth]. unfold vals. cbn [List.combine map nth]. apply IH. lia. Qed.
Lemma vals_alike evs d e : length (d_attrs d) = length evs -> length (d_attrs e) = length evs -> (vals evs (d_attrs d) = vals evs (d_attrs e) <-> alike evs d e).
Proof.
  intros A B. unfold alike, value. split.
  - intros E i. rewrite <- !vals_nth by assumption. congruence.
  - intros H. apply (nth_ext _ _ None None); [unfold vals; rewrite !map_length, !combine_length; lia|]. intros i _. rewrite !vals_nth by assumption. apply H.
Qed.
Lemma maps_cmp_list eqc : forall a b, length a = length b -> maps_cmp eqc a b = list_cmp Z.compare (map (class_of eqc) a) (map (class_of eqc) b).
Proof. induction a as [|x a IH]; intros [|y b] L; cbn in *; try lia; auto. destruct (class_of eqc x ?= class_of eqc y)%Z; cbn; auto. Qed.
Lemma class_sig_eq nodes eqc i j : map (class_of eqc) (d_map (node nodes i)) = map (class_of eqc) (d_map (node nodes j)) -> class_sig nodes eqc i = class_sig nodes eqc j.
Proof.
  unfold class_sig. generalize 0%N as s. generalize (d_map (node nodes i)) as a, (d_map (node nodes j)) as b. induction a as [|x a IH]; intros [|y b] s E; cbn in *; try discriminate; auto. injection E as E1 E2.
  unfold class_of in E1. destruct (0 <=? x)%Z, (0 <=? y)%Z; try lia; [|apply IH; exact E2]. apply Nat2Z.inj in E1. rewrite E1. apply IH. exact E2.
Qed.

Section Classes.
Variables (evs : list evaluator) (nodes : list dfa_node) (nt : nat) (qsort : sorter).
Hypothesis good : Forall (sane evs nt (length nodes)) nodes.
Hypothesis sort : sorts qsort.
Let n := length nodes.
Let D := seq 0 n.
Lemma D_in i : In i D <-> i < n. Proof. unfold D. rewrite in_seq. lia. Qed.
Lemma D_sane i : In i D -> sane evs nt n (node nodes i).
Proof. intros L. apply D_in in L. unfold node. rewrite Forall_forall in good. apply good. apply nth_In. exact L. Qed.
Lemma initial_order : an_order D (initial_compare evs nodes).
Proof.
  apply (order_ext D (fun i j => list_cmp opt_cmp (vals evs (d_attrs (node nodes i))) (vals evs (d_attrs (node nodes j))))).
  - intros i j Ii Ij. unfold initial_compare. symmetry. apply attrs_cmp_list; [apply (D_sane i Ii)|apply (D_sane j Ij)].
  - apply (keyed (list_cmp opt_cmp) (fun i => vals evs (d_attrs (node nodes i)))). apply list_order, opt_order.
Qed.
Lemma initial_eq i j : In i D -> In j D -> (initial_compare evs nodes i j = Eq <-> alike evs (node nodes i) (node nodes j)).
Proof.
  intros Ii Ij. destruct (D_sane i Ii) as (_ & A & _), (D_sane j Ij) as (_ & B & _). unfold initial_compare. rewrite attrs_cmp_list by assumption. rewrite (list_cmp_eq opt_cmp opt_cmp_eq opt_cmp_refl). apply vals_alike; assumption.
Qed.
Lemma general_order eqc : an_order D (general_compare nodes eqc).
Proof.
  apply (order_ext D (fun i j => then_ (Nat.compare (nth i eqc 0) (nth j eqc 0)) (then_ (N.compare (class_sig nodes eqc i) (class_sig nodes eqc j)) (list_cmp Z.compare (map (class_of eqc) (d_map (node nodes i))) (map (class_of eqc) (d_map (node nodes j))))))).
  - intros i j Ii Ij. destruct (D_sane i Ii) as (A & _), (D_sane j Ij) as (B & _). unfold general_compare. rewrite maps_cmp_list by congruence. destruct (nth i eqc 0 ?= nth j eqc 0), (class_sig nodes eqc i ?= class_sig nodes eqc j)%N; reflexivity.
  - apply lex_order; [apply (keyed Nat.compare (fun i => nth i eqc 0)), nat_order|]. apply lex_order; [apply (keyed N.compare (class_sig nodes eqc)), N_order|]. apply (keyed (list_cmp Z.compare) (fun i => map (class_of eqc) (d_map (node nodes i)))), list_order, Z_order.
Qed.
Definition same_maps (eqc : list nat) (i j : nat) : Prop := map (class_of eqc) (d_map (node nodes i)) = map (class_of eqc) (d_map (node nodes j)).
Lemma general_eq eqc i j : In i D -> In j D -> (general_compare nodes eqc i j = Eq <-> nth i eqc 0 = nth j eqc 0 /\ same_maps eqc i j).
Proof.
  intros Ii Ij. destruct (D_sane i Ii) as (A & _), (D_sane j Ij) as (B & _). unfold general_compare. rewrite maps_cmp_list by congruence. split.
  - destruct (Nat.compare_spec (nth i eqc 0) (nth j eqc 0)) as [E|E|E]; try discriminate. destruct (class_sig nodes eqc i ?= class_sig nodes eqc j)%N; try discriminate. intros H. split; [exact E|].
    apply (list_cmp_eq Z.compare) in H; [exact H|intros; apply Z.compare_eq; assumption|apply Z.compare_refl].
  - intros (E & H). rewrite E, Nat.compare_refl, (class_sig_eq _ _ _ _ H), N.compare_refl. apply (list_cmp_eq Z.compare); [intros; apply Z.compare_eq; assumption|apply Z.compare_refl|exact H].
Qed.

(* what is to be told apart *)
Definition obs (ns : list dfa_node) (z : Z) (k : nat) : option bytes := if (z <? 0)%Z then default evs k else value evs (node ns (Z.to_nat z)) k.
Definition apart (ns : list dfa_node) (x y : Z) : Prop := exists ts k, obs ns (nrun ns x ts) k <> obs ns (nrun ns y ts) k.
Hypothesis all_live : forall i z, In i D -> In z (d_map (node nodes i)) -> (0 <= z)%Z -> apart nodes z (-1).

(* the state of the refinement *)
Record part (eqc : list nat) (last : nat) : Prop := {
  pa_len : length eqc = n;
  pa_range : forall a, a < n -> nth a eqc 0 <= last;
  pa_used : forall v, v <= last -> exists a, a < n /\ nth a eqc 0 = v;
  pa_alike : forall a b, a < n -> b < n -> nth a eqc 0 = nth b eqc 0 -> alike evs (node nodes a) (node nodes b);
  pa_apart : forall a b, a < n -> b < n -> nth a eqc 0 <> nth b eqc 0 -> apart nodes (Z.of_nat a) (Z.of_nat b) }.
Lemma part_last eqc last : part eqc last -> last < n.
Proof.
  intros [A B C _ _]. assert (L : S last <= length (seq 0 n)); [|rewrite seq_length in L; exact L].
  assert (Q : length (seq 0 (S last)) <= length (map (fun a => nth a eqc 0) (seq 0 n))).
  { apply NoDup_incl_length; [apply seq_NoDup|]. intros v Hv. apply in_seq in Hv. destruct (C v ltac:(lia)) as (a & La & Ea). apply in_map_iff. exists a. split; [exact Ea|apply in_seq; lia]. }
  rewrite map_length, !seq_length in Q. rewrite seq_length. lia.
Qed.
Lemma sorted_list cmp sq : an_order D cmp -> Permutation D sq -> Permutation D (qsort cmp sq) /\ StronglySorted (fun i j => cmp i j <> Gt) (qsort cmp sq) /\ NoDup (qsort cmp sq) /\ (forall i, In i (qsort cmp sq) <-> i < n).
Proof.
  intros O P. assert (O' : an_order sq cmp).
  { destruct O as (O1 & O2). assert (Inc : forall i, In i sq -> In i D) by (intros i Hi; apply (Permutation_in i (Permutation_sym P) Hi)). split; [intros i j Hi Hj; apply O1; auto|intros i j k Hi Hj Hk; apply (O2 i j k); auto]. }
  destruct (sort cmp sq O') as (A & B). assert (Q : Permutation D (qsort cmp sq)) by (eapply Permutation_trans; eauto). split; [exact Q|]. split; [exact B|]. split.
  - eapply Permutation_NoDup; [exact Q|apply seq_NoDup].
  - intros i. rewrite <- D_in. split; intros Hi; [apply (Permutation_in i (Permutation_sym Q) Hi)|apply (Permutation_in i Q Hi)].
Qed.
Lemma initial_ok : 0 < n -> exists sq eqc last, assign_initial_classes qsort evs nodes D = (sq, (eqc, last)) /\ Permutation D sq /\ part eqc last.
Proof.
  intros Pos. unfold assign_initial_classes. destruct (sorted_list (initial_compare evs nodes) D initial_order (Permutation_refl _)) as (P & So & Nd & I). destruct (qsort (initial_compare evs nodes) D) as [|i l] eqn:Q.
  - exfalso. apply (I 0). exact Pos.
  - destruct (number_classes (initial_compare evs nodes) i l 0 (set_nth (repeat 0 (length nodes)) i 0)) as [eqc last] eqn:E. exists (i :: l), eqc, last. split; [reflexivity|]. split; [exact P|].
    assert (Z0 : forall k, nth k (set_nth (repeat 0 (length nodes)) i 0) 0 = 0).
    { intros k. rewrite cc_set_nth; [destruct (i =? k); [reflexivity|apply nth_repeat]|]. rewrite repeat_length. apply (I i). left. reflexivity. }
    apply (number_ok (initial_compare evs nodes) D initial_order) in E; [|intros x Hx; apply D_in, I; exact Hx|exact So|exact Nd|intros x Hx; rewrite cc_set_len, repeat_length; apply I; exact Hx|apply Z0].
    rewrite cc_set_len, repeat_length in E. destruct E as (A & _ & _ & R & Eq_ & U). split.
    + exact A.
    + intros a La. apply (R a). apply I. exact La.
    + intros v Hv. destruct (U v ltac:(lia)) as (a & Ia & Ea). exists a. split; [apply I; exact Ia|exact Ea].
    + intros a b La Lb H. apply initial_eq; try (apply D_in; assumption). apply Eq_; try (apply I; assumption). exact H.
    + intros a b La Lb H. assert (Na : ~ alike evs (node nodes a) (node nodes b)).
      { intros X. apply H. apply Eq_; try (apply I; assumption). apply initial_eq; try (apply D_in; assumption). exact X. }
      assert (Ex : exists k, k < length evs /\ value evs (node nodes a) k <> value evs (node nodes b) k).
      { destruct (existsb (fun k => match opt_cmp (value evs (node nodes a) k) (value evs (node nodes b) k) with Eq => false | _ => true end) (seq 0 (length evs))) eqn:Y.
        - apply existsb_exists in Y. destruct Y as (k & Ik & Hk). exists k. apply in_seq in Ik. split; [lia|]. intros Z. rewrite Z, opt_cmp_refl in Hk. discriminate.
        - exfalso. apply Na. intros k. destruct (Nat.lt_ge_cases k (length evs)) as [Lk|Lk].
          + destruct (opt_cmp (value evs (node nodes a) k) (value evs (node nodes b) k)) eqn:Z; [apply opt_cmp_eq; exact Z| |];
              (assert (W : existsb (fun k => match opt_cmp (value evs (node nodes a) k) (value evs (node nodes b) k) with Eq => false | _ => true end) (seq 0 (length evs)) = true); [|congruence]);
              apply existsb_exists; exists k; (split; [apply in_seq; lia|rewrite Z; reflexivity]).
          + unfold value. apply nth_error_None in Lk. rewrite Lk. reflexivity. }
      destruct Ex as (k & _ & Hk). exists [], k. unfold obs, nrun. cbn [fold_left]. replace (Z.of_nat a <? 0)%Z with false by lia. replace (Z.of_nat b <? 0)%Z with false by lia. rewrite !Nat2Z.id. exact Hk.
Qed.
Lemma apart_sym x y : apart nodes x y -> apart nodes y x.
Proof. intros (ts & k & H). exists ts, k. congruence. Qed.
Lemma apart_step i j t : i < n -> j < n -> t < nt -> apart nodes (nth t (d_map (node nodes i)) (-1)%Z) (nth t (d_map (node nodes j)) (-1)%Z) -> apart nodes (Z.of_nat i) (Z.of_nat j).
Proof.
  intros Li Lj Lt (ts & k & H). exists (Z.of_nat t :: ts), k. unfold nrun in *. cbn [fold_left].
  assert (E : forall a, nstep nodes (Z.of_nat a) (Z.of_nat t) = nth t (d_map (node nodes a)) (-1)%Z).
  { intros a. unfold nstep. replace (Z.of_nat a <? 0)%Z with false by lia. replace (Z.of_nat t <? 0)%Z with false by lia. cbn [orb]. rewrite !Nat2Z.id. reflexivity. }
  rewrite !E. exact H.
Qed.
Lemma maps_apart eqc last i j : part eqc last -> i < n -> j < n -> ~ same_maps eqc i j -> apart nodes (Z.of_nat i) (Z.of_nat j).
Proof.
  intros P Li Lj H. destruct (D_sane i (proj2 (D_in i) Li)) as (Ai & _ & Bi), (D_sane j (proj2 (D_in j) Lj)) as (Aj & _ & Bj). rewrite Forall_forall in Bi, Bj.
  set (diff := fun t => negb (class_of eqc (nth t (d_map (node nodes i)) (-1)%Z) =? class_of eqc (nth t (d_map (node nodes j)) (-1)%Z))%Z).
  destruct (existsb diff (seq 0 nt)) eqn:Y.
  - apply existsb_exists in Y. destruct Y as (t & It & Ht). apply in_seq in It. unfold diff in Ht. apply (apart_step i j t); auto; [lia|].
    assert (Hi : In (nth t (d_map (node nodes i)) (-1)%Z) (d_map (node nodes i))) by (apply nth_In; lia). assert (Hj : In (nth t (d_map (node nodes j)) (-1)%Z) (d_map (node nodes j))) by (apply nth_In; lia).
    pose proof (Bi _ Hi) as Ri. pose proof (Bj _ Hj) as Rj. revert Ht Hi Hj Ri Rj. generalize (nth t (d_map (node nodes i)) (-1)%Z) as x, (nth t (d_map (node nodes j)) (-1)%Z) as y. intros x y Ht Hi Hj Ri Rj. unfold class_of in Ht.
    destruct Ri as [->|Ri], Rj as [->|Rj].
    + discriminate.
    + apply apart_sym. apply (all_live j); auto; [apply D_in; exact Lj|lia].
    + apply (all_live i); auto; [apply D_in; exact Li|lia].
    + replace (0 <=? x)%Z with true in Ht by lia. replace (0 <=? y)%Z with true in Ht by lia. replace x with (Z.of_nat (Z.to_nat x)) by lia. replace y with (Z.of_nat (Z.to_nat y)) by lia. apply (pa_apart _ _ P); lia.
  - exfalso. apply H. unfold same_maps. apply (nth_ext _ _ (class_of eqc (-1)%Z) (class_of eqc (-1)%Z)); [rewrite !map_length; lia|]. intros t Ht. rewrite map_length in Ht. rewrite !(map_nth (class_of eqc)).
    destruct (diff t) eqn:Q; [|unfold diff in Q; lia]. exfalso. assert (W : existsb diff (seq 0 nt) = true) by (apply existsb_exists; exists t; split; [apply in_seq; lia|exact Q]). congruence.
Qed.
Lemma split_ok eqc last sq : 0 < n -> part eqc last -> Permutation D sq -> exists sq' eqc' last' had, split_classes qsort nodes sq eqc last = (sq', (eqc', last', had)) /\ Permutation D sq' /\ part eqc' last' /\
  (if had then last < last' else forall a b, a < n -> b < n -> nth a eqc' 0 = nth b eqc' 0 -> same_maps eqc' a b).
Proof.
  intros Pos P Psq. unfold split_classes. destruct (sorted_list (general_compare nodes eqc) sq (general_order eqc) Psq) as (P' & So & Nd & I). destruct (qsort (general_compare nodes eqc) sq) as [|i l] eqn:Q.
  - exfalso. apply (I 0). exact Pos.
  - destruct (split_pass nodes eqc i l eqc last false) as [[eqc' last'] had] eqn:E. exists (i :: l), eqc', last', had. split; [reflexivity|]. split; [exact P'|].
    pose proof (general_order eqc) as GO. apply (split_pass_ok nodes eqc D last GO) in E; [|intros a Ha; apply (pa_range _ _ P); apply D_in; exact Ha|intros x Hx; apply D_in, I; exact Hx|exact So|exact Nd|intros x Hx; rewrite (pa_len _ _ P); apply I; exact Hx|lia|left; reflexivity].
    destruct E as (A & B & C & Tri & Ee & U & V & H). rewrite (pa_len _ _ P) in A.
    assert (Ni : nth i eqc' 0 = nth i eqc 0) by (apply C; inversion Nd; assumption).
    assert (Tr : forall a, a < n -> nth a eqc' 0 = nth a eqc 0 \/ last < nth a eqc' 0 <= last').
    { intros a La. apply I in La. destruct La as [<-|Ia]; [auto|]. destruct (Tri a Ia) as [[T1 T2]|[T|[T _]]]; auto. left. apply gc_class in T2. congruence. }
    assert (Eab : forall a b, a < n -> b < n -> (nth a eqc' 0 = nth b eqc' 0 <-> nth a eqc 0 = nth b eqc 0 /\ same_maps eqc a b)).
    { intros a b La Lb. rewrite (Ee a b) by (apply I; assumption). apply general_eq; apply D_in; assumption. }
    split; [split|].
    + exact A.
    + intros a La. pose proof (pa_range _ _ P a La). destruct (Tr a La); lia.
    + intros v Hv. destruct (Nat.le_gt_cases v last) as [L|L].
      * destruct (pa_used _ _ P v L) as (a & La & Ea). destruct (Nat.eq_dec (nth a eqc 0) (nth i eqc 0)) as [X|X]; [exists i; split; [apply I; left; reflexivity|congruence]|].
        pose proof La as Ia. apply I in Ia. destruct Ia as [<-|Ia]; [congruence|]. destruct (V a Ia X) as (b & Ib & Eb). exists b. split; [apply I; right; exact Ib|congruence].
      * destruct (U v ltac:(lia)) as (a & Ia & Ea). exists a. split; [apply I; right; exact Ia|exact Ea].
    + intros a b La Lb X. apply (Eab a b La Lb) in X. apply (pa_alike _ _ P); auto. apply X.
    + intros a b La Lb X. destruct (Nat.eq_dec (nth a eqc 0) (nth b eqc 0)) as [Y|Y]; [|apply (pa_apart _ _ P); assumption]. apply (maps_apart eqc last a b P La Lb). intros Z. apply X. apply Eab; auto.
    + destruct had.
      * destruct (proj1 H eq_refl) as [X|X]; [discriminate|exact X].
      * assert (Ll : last' = last). { destruct (Nat.lt_ge_cases last last') as [X|X]; [|lia]. assert (Y : false = true) by (apply H; right; exact X). discriminate. }
        assert (Same : forall a, a < n -> nth a eqc' 0 = nth a eqc 0) by (intros a La; destruct (Tr a La); lia).
        intros a b La Lb X. apply (Eab a b La Lb) in X. destruct X as (_ & X). unfold same_maps in *.
        assert (Cl : forall c, c < n -> map (class_of eqc') (d_map (node nodes c)) = map (class_of eqc) (d_map (node nodes c))).
        { intros c Lc. apply map_ext_in. intros z Hz. destruct (D_sane c (proj2 (D_in c) Lc)) as (_ & _ & Bc). rewrite Forall_forall in Bc. destruct (Bc z Hz) as [->|R]; [reflexivity|]. unfold class_of. replace (0 <=? z)%Z with true by lia. f_equal. apply Same. lia. }
        rewrite !Cl by assumption. exact X.
Qed.
Lemma refine_ok : 0 < n -> forall fuel sq eqc last, part eqc last -> Permutation D sq -> n < fuel + last + 1 -> exists eqc' last', split_loop fuel qsort nodes sq eqc last = Ok eqc' /\ part eqc' last' /\
  forall a b, a < n -> b < n -> nth a eqc' 0 = nth b eqc' 0 -> same_maps eqc' a b.
Proof.
  intros Pos. induction fuel as [|fuel IH]; intros sq eqc last P Psq Fu.
  - exfalso. apply part_last in P. lia.
  - cbn [split_loop]. destruct (split_ok eqc last sq Pos P Psq) as (sq' & eqc' & last' & had & E & Psq' & P' & H). rewrite E. destruct had.
    + apply (IH sq' eqc' last'); auto. lia.
    + exists eqc', last'. split; [reflexivity|]. split; [exact P'|exact H].
Qed.
End Classes.
