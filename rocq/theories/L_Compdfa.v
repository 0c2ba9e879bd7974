(* Partitions: giving equal states the same number, and refining that. *)
From Coq Require Import Permutation Sorted.
From Verif Require Import Base M_Charclass M_Dfasyn M_Compdfa S_Dfasyn L_Charclass L_Charclass2.
From Verif Require L_Update.
Local Open Scope nat_scope.

(* orders *)
Definition total_order {A} (cmp : A -> A -> comparison) : Prop :=
  (forall x y, cmp y x = CompOpp (cmp x y)) /\ (forall x y z, cmp x y <> Gt -> cmp y z <> Gt -> cmp x z <> Gt).
Lemma keyed {A} (cmp : A -> A -> comparison) (f : nat -> A) l : total_order cmp -> an_order l (fun i j => cmp (f i) (f j)).
Proof. intros [A1 A2]. split; eauto. Qed.
Lemma an_order_eq l cmp i j k : an_order l cmp -> In i l -> In j l -> In k l -> cmp i j = Eq -> cmp i k = cmp j k.
Proof.
  intros [A T] I J K E. assert (E' : cmp j i = Eq) by (rewrite (A i j) by assumption; rewrite E; reflexivity).
  destruct (cmp j k) eqn:X.
  - assert (Y : cmp i k <> Gt) by (apply (T i j k); auto; congruence). assert (X' : cmp k j = Eq) by (rewrite (A j k) by assumption; rewrite X; reflexivity).
    assert (Z : cmp k i <> Gt) by (apply (T k j i); auto; congruence). rewrite (A i k) in Z by assumption. destruct (cmp i k); cbn in *; congruence.
  - assert (Y : cmp i k <> Gt) by (apply (T i j k); auto; congruence). destruct (cmp i k) eqn:Q; auto; [|congruence].
    assert (Z : cmp k i = Eq) by (rewrite (A i k) by assumption; rewrite Q; reflexivity). assert (cmp k j <> Gt) by (apply (T k i j); auto; congruence). rewrite (A j k) in H by assumption. rewrite X in H. cbn in H. congruence.
  - destruct (cmp i k) eqn:Q; auto; exfalso; assert (cmp j k <> Gt) by (apply (T j i k); auto; congruence); congruence.
Qed.
Lemma an_order_lt l cmp i j k : an_order l cmp -> In i l -> In j l -> In k l -> cmp i j <> Gt -> cmp i j <> Eq -> cmp j k <> Gt -> cmp i k <> Eq.
Proof.
  intros O I J K G E H Q. assert (Q' : cmp k i = Eq) by (rewrite (proj1 O i k) by assumption; rewrite Q; reflexivity).
  assert (X : cmp j i <> Gt) by (apply (proj2 O j k i); auto; congruence). rewrite (proj1 O i j) in X by assumption. destruct (cmp i j); cbn in *; congruence.
Qed.
Definition then_ (a b : comparison) : comparison := match a with Eq => b | c => c end.
Lemma lex_order l c1 c2 : an_order l c1 -> an_order l c2 -> an_order l (fun i j => then_ (c1 i j) (c2 i j)).
Proof.
  intros O1 O2. split.
  - intros i j I J. rewrite (proj1 O1 i j), (proj1 O2 i j) by assumption. destruct (c1 i j); reflexivity.
  - intros i j k I J K. destruct (c1 i j) eqn:E1; cbn; [|intros _|congruence].
    + rewrite (an_order_eq l c1 i j k O1 I J K E1). destruct (c1 j k); cbn; [|auto|auto]. apply (proj2 O2); assumption.
    + destruct (c1 j k) eqn:E2; cbn; [|intros _|congruence].
      * intros _. assert (E3 : c1 k j = Eq) by (rewrite (proj1 O1 j k) by assumption; rewrite E2; reflexivity).
        pose proof (an_order_eq l c1 k j i O1 K J I E3) as X. rewrite (proj1 O1 i k), (proj1 O1 i j), E1 in X by assumption. cbn in X. destruct (c1 i k); cbn in *; congruence.
      * assert (X : c1 i k <> Gt) by (apply (proj2 O1 i j k); auto; congruence). assert (Y : c1 i k <> Eq) by (apply (an_order_lt l c1 i j k); auto; congruence). destruct (c1 i k); cbn; congruence.
Qed.
Lemma order_ext l c1 c2 : (forall i j, In i l -> In j l -> c1 i j = c2 i j) -> an_order l c1 -> an_order l c2.
Proof.
  intros E [A T]. split.
  - intros i j I J. rewrite <- !E by assumption. auto.
  - intros i j k I J K. rewrite <- !E by assumption. apply T; assumption.
Qed.
Lemma nat_order : total_order Nat.compare.
Proof. split; [intros; apply Nat.compare_antisym|]. intros x y z. rewrite !Nat.compare_le_iff. lia. Qed.
Lemma N_order : total_order N.compare.
Proof. split; [intros; apply N.compare_antisym|]. intros x y z. rewrite !N.compare_le_iff. lia. Qed.
Lemma Z_order : total_order Z.compare.
Proof. split; [intros; apply Z.compare_antisym|]. intros x y z. rewrite !Z.compare_le_iff. lia. Qed.
Fixpoint list_cmp {A} (cmp : A -> A -> comparison) (a b : list A) : comparison :=
  match a, b with
  | [], [] => Eq
  | [], _ :: _ => Lt
  | _ :: _, [] => Gt
  | x :: a', y :: b' => then_ (cmp x y) (list_cmp cmp a' b')
  end.
Lemma total_eq {A} (cmp : A -> A -> comparison) x y z : total_order cmp -> cmp x y = Eq -> cmp x z = cmp y z.
Proof.
  intros [Ha T] E. assert (E' : cmp y x = Eq) by (rewrite (Ha x y), E; reflexivity).
  destruct (cmp y z) eqn:X.
  - assert (Y : cmp x z <> Gt) by (apply (T x y z); congruence). assert (X' : cmp z y = Eq) by (rewrite (Ha y z), X; reflexivity).
    assert (Z : cmp z x <> Gt) by (apply (T z y x); congruence). rewrite (Ha x z) in Z. destruct (cmp x z); cbn in *; congruence.
  - assert (Y : cmp x z <> Gt) by (apply (T x y z); congruence). destruct (cmp x z) eqn:Q; auto; [|congruence].
    assert (Z : cmp z x = Eq) by (rewrite (Ha x z), Q; reflexivity). assert (H : cmp z y <> Gt) by (apply (T z x y); congruence). rewrite (Ha y z), X in H. cbn in H. congruence.
  - destruct (cmp x z) eqn:Q; auto; exfalso; assert (cmp y z <> Gt) by (apply (T y x z); congruence); congruence.
Qed.
Lemma list_order {A} (cmp : A -> A -> comparison) : total_order cmp -> total_order (list_cmp cmp).
Proof.
  intros O. split.
  - induction x as [|a x IH]; intros [|b y]; cbn; auto. rewrite (proj1 O a b), IH. destruct (cmp a b); reflexivity.
  - induction x as [|a x IH]; intros [|b y] [|c z]; cbn; try congruence. destruct (cmp a b) eqn:E1; cbn; [|intros _|congruence].
    + rewrite (total_eq cmp a b c O E1). destruct (cmp b c); cbn; try congruence. apply IH.
    + destruct (cmp b c) eqn:E2; cbn; [|intros _|congruence].
      * intros _. assert (E3 : cmp c b = Eq) by (rewrite (proj1 O b c), E2; reflexivity). pose proof (total_eq cmp c b a O E3) as X. rewrite (proj1 O a c), (proj1 O a b), E1 in X. cbn in X. destruct (cmp a c); cbn in *; congruence.
      * assert (X : cmp a c <> Gt) by (apply (proj2 O a b c); congruence). destruct (cmp a c) eqn:Q; cbn; try congruence. exfalso.
        assert (E3 : cmp c a = Eq) by (rewrite (proj1 O a c), Q; reflexivity). assert (Y : cmp b a <> Gt) by (apply (proj2 O b c a); congruence). rewrite (proj1 O a b), E1 in Y. cbn in Y. congruence.
Qed.
Lemma list_cmp_eq {A} (cmp : A -> A -> comparison) : (forall x y, cmp x y = Eq -> x = y) -> (forall x, cmp x x = Eq) -> forall a b, list_cmp cmp a b = Eq <-> a = b.
Proof.
  intros E R. induction a as [|x a IH]; intros [|y b]; cbn; try (split; congruence). split.
  - destruct (cmp x y) eqn:Q; cbn; try discriminate. intros H. apply E in Q. apply IH in H. congruence.
  - intros H. injection H as <- <-. rewrite R. cbn. apply IH. reflexivity.
Qed.

(* numbering *)
Section Number.
Variables (cmp : nat -> nat -> comparison) (D : list nat).
Hypothesis ord : an_order D cmp.
Lemma number_ok : forall l prev last eqc, incl (prev :: l) D -> StronglySorted (fun i j => cmp i j <> Gt) (prev :: l) -> NoDup (prev :: l) -> (forall i, In i (prev :: l) -> i < length eqc) -> nth prev eqc 0 = last ->
  forall e' last', number_classes cmp prev l last eqc = (e', last') ->
  length e' = length eqc /\ (forall k, ~ In k l -> nth k e' 0 = nth k eqc 0) /\ last <= last' /\ (forall a, In a (prev :: l) -> last <= nth a e' 0 <= last') /\
  (forall a b, In a (prev :: l) -> In b (prev :: l) -> (nth a e' 0 = nth b e' 0 <-> cmp a b = Eq)) /\ (forall v, last <= v <= last' -> exists a, In a (prev :: l) /\ nth a e' 0 = v).
Proof.
  assert (refl : forall a, In a D -> cmp a a = Eq).
  { intros a Ia. pose proof (proj1 ord a a Ia Ia) as X. destruct (cmp a a); auto; discriminate. }
  induction l as [|i l IH]; intros prev last eqc Inc So Nd Lt Pv e' last' E; cbn [number_classes] in E.
  - injection E as <- <-. split; [reflexivity|]. split; [auto|]. split; [lia|]. split; [intros a [<-|[]]; lia|]. split.
    + intros a b [<-|[]] [<-|[]]. split; [|reflexivity]. intros _. apply refl, Inc. left. reflexivity.
    + intros v V. exists prev. split; [left; reflexivity|lia].
  - set (last1 := match cmp prev i with Eq => last | _ => S last end) in *.
    assert (Li : i < length eqc) by (apply Lt; right; left; reflexivity).
    inversion So as [|? ? So' Fp]; subst. inversion Nd as [|? ? Np Nd']; subst.
    assert (Inc' : incl (i :: l) D) by (intros x Ix; apply Inc; right; exact Ix).
    apply (IH i last1 (set_nth eqc i last1)) in E; [|exact Inc'|exact So'|exact Nd'|intros x Ix; rewrite cc_set_len; apply Lt; right; exact Ix|rewrite cc_set_nth, Nat.eqb_refl by exact Li; reflexivity].
    destruct E as (A & B & C & Dd & Ee & U). rewrite cc_set_len in A.
    assert (Ii : In i D) by (apply Inc'; left; reflexivity). assert (Ip : In prev D) by (apply Inc; left; reflexivity).
    assert (Pi : prev <> i) by (intros ->; apply Np; left; reflexivity).
    assert (Pe : nth prev e' 0 = nth prev eqc 0).
    { rewrite B; [|intros X; apply Np; right; exact X]. rewrite cc_set_nth by exact Li. replace (i =? prev) with false by lia. reflexivity. }
    assert (Ie : nth i e' 0 = last1).
    { rewrite B; [|inversion Nd'; assumption]. rewrite cc_set_nth, Nat.eqb_refl by exact Li. reflexivity. }
    rewrite Forall_forall in Fp.
    assert (Pib : cmp prev i <> Gt) by (apply Fp; left; reflexivity).
    assert (K : forall b, In b (i :: l) -> (nth prev e' 0 = nth b e' 0 <-> cmp prev b = Eq)).
    { intros b Ib. pose proof (Dd b Ib) as Rb. assert (Idb : In b D) by (apply Inc'; exact Ib). rewrite Pe. unfold last1 in *. destruct (cmp prev i) eqn:Q; [| |congruence].
      - rewrite (an_order_eq D cmp prev i b ord Ip Ii Idb Q). rewrite <- (Ee i b (or_introl eq_refl) Ib). rewrite Ie. lia.
      - split; [lia|]. intros X. exfalso. revert X. apply (an_order_lt D cmp prev i b ord Ip Ii Idb); try congruence.
        destruct Ib as [<-|Ib]; [rewrite refl by exact Ii; discriminate|]. inversion So' as [|? ? _ Fi]; subst. rewrite Forall_forall in Fi. apply Fi. exact Ib. }
    assert (L1 : nth prev eqc 0 <= last1) by (unfold last1; destruct (cmp prev i); lia).
    split; [exact A|]. split.
    { intros k Nk. rewrite B by (intros X; apply Nk; right; exact X). rewrite cc_set_nth by exact Li. destruct (Nat.eqb_spec i k) as [->|N]; [exfalso; apply Nk; left; reflexivity|reflexivity]. }
    split; [lia|]. split.
    { intros a [<-|Ia]; [rewrite Pe; lia|]. specialize (Dd a Ia). lia. }
    split.
    { intros a b [<-|Ia] [<-|Ib].
      - split; [|reflexivity]. intros _. apply refl. exact Ip.
      - apply K. exact Ib.
      - split; intros X; [symmetry in X; apply (K a Ia) in X|]; [rewrite (proj1 ord prev a Ip (Inc' _ Ia)), X; reflexivity|]. symmetry. apply (K a Ia). rewrite (proj1 ord a prev (Inc' _ Ia) Ip), X. reflexivity.
      - apply Ee; assumption. }
    { intros v V. destruct (Nat.le_gt_cases last1 v) as [Q|Q].
      - destruct (U v ltac:(lia)) as (a & Ia & Ea). exists a. split; [right; exact Ia|exact Ea].
      - exists prev. split; [left; reflexivity|]. rewrite Pe. unfold last1 in Q. destruct (cmp prev i); lia. }
Qed.
End Number.

(* refining *)
Section Split.
Variables (nodes : list dfa_node) (eqc : list nat) (D : list nat) (last0 : nat).
Let gc := general_compare nodes eqc.
Hypothesis ord : an_order D gc.
Hypothesis bound : forall a, In a D -> nth a eqc 0 <= last0.
Lemma gc_class a b : gc a b = Eq -> nth a eqc 0 = nth b eqc 0.
Proof. unfold gc, general_compare. destruct (nth a eqc 0 ?= nth b eqc 0) eqn:E; try discriminate. intros _. apply Nat.compare_eq. exact E. Qed.
Lemma gc_le a b : gc a b <> Gt -> nth a eqc 0 <= nth b eqc 0.
Proof. unfold gc, general_compare. destruct (nth a eqc 0 ?= nth b eqc 0) eqn:E; intros H; [apply Nat.compare_eq in E; lia|apply nat_compare_lt in E; lia|congruence]. Qed.
Lemma gc_refl a : In a D -> gc a a = Eq.
Proof. intros Ia. pose proof (proj1 ord a a Ia Ia) as X. destruct (gc a a); auto; discriminate. Qed.
Lemma split_pass_ok : forall l prev neqc last had, incl (prev :: l) D -> StronglySorted (fun i j => gc i j <> Gt) (prev :: l) -> NoDup (prev :: l) -> (forall i, In i (prev :: l) -> i < length neqc) ->
  last0 <= last -> (nth prev neqc 0 = nth prev eqc 0 \/ last0 < nth prev neqc 0 <= last) ->
  forall n' last' had', split_pass nodes eqc prev l neqc last had = (n', last', had') ->
  length n' = length neqc /\ last <= last' /\ (forall k, ~ In k l -> nth k n' 0 = nth k neqc 0) /\
  (forall a, In a l -> (nth a n' 0 = nth prev neqc 0 /\ gc prev a = Eq) \/ last < nth a n' 0 <= last' \/ (nth a n' 0 = nth a eqc 0 /\ nth a eqc 0 <> nth prev eqc 0)) /\
  (forall a b, In a (prev :: l) -> In b (prev :: l) -> (nth a n' 0 = nth b n' 0 <-> gc a b = Eq)) /\
  (forall v, last < v <= last' -> exists a, In a l /\ nth a n' 0 = v) /\ (forall a, In a l -> nth a eqc 0 <> nth prev eqc 0 -> exists b, In b l /\ nth b n' 0 = nth a eqc 0) /\
  (had' = true <-> had = true \/ last < last').
Proof.
  induction l as [|i l IH]; intros prev neqc last had Inc So Nd Lt L0 Cp n' last' had' E; cbn [split_pass] in E.
  - injection E as <- <- <-. split; [reflexivity|]. split; [lia|]. split; [auto|]. split; [intros a []|]. split.
    + intros a b [<-|[]] [<-|[]]. split; [|reflexivity]. intros _. apply gc_refl, Inc. left. reflexivity.
    + split; [intros; lia|]. split; [intros a []|]. split; [auto|]. intros [H|H]; [exact H|lia].
  - assert (Li : i < length neqc) by (apply Lt; right; left; reflexivity).
    inversion So as [|? ? So' Fp]; subst. inversion Nd as [|? ? Np Nd']; subst.
    assert (Inc' : incl (i :: l) D) by (intros x Ix; apply Inc; right; exact Ix).
    assert (Ii : In i D) by (apply Inc'; left; reflexivity). assert (Ip : In prev D) by (apply Inc; left; reflexivity).
    assert (Pi : prev <> i) by (intros ->; apply Np; left; reflexivity).
    rewrite Forall_forall in Fp. assert (Pib : gc prev i <> Gt) by (apply Fp; left; reflexivity). pose proof (gc_le _ _ Pib) as Pil.
    assert (Ib_le : forall b, In b (i :: l) -> gc i b <> Gt).
    { intros b [<-|Ib]; [rewrite gc_refl by exact Ii; discriminate|]. inversion So' as [|? ? _ Fi]; subst. rewrite Forall_forall in Fi. apply Fi. exact Ib. }
    pose proof (bound prev Ip) as Bp. pose proof (bound i Ii) as Bi.
    (* the three cases *)
    assert (X : exists c last1 had1, split_pass nodes eqc i l (set_nth neqc i c) last1 had1 = (n', last', had') /\ last <= last1 /\ (c = nth i eqc 0 \/ last0 < c <= last1) /\ (had1 = true <-> had = true \/ last < last1) /\
      ((nth i eqc 0 = nth prev eqc 0 /\ gc prev i = Eq /\ c = nth prev neqc 0 /\ last1 = last) \/ (nth i eqc 0 = nth prev eqc 0 /\ gc prev i <> Eq /\ c = S last /\ last1 = S last) \/ (nth prev eqc 0 < nth i eqc 0 /\ c = nth i eqc 0 /\ last1 = last))).
    { destruct (Nat.eqb_spec (nth i eqc 0) (nth prev eqc 0)) as [Q|Q].
      - fold gc in E. pose proof (proj1 ord prev i Ip Ii) as Ai. destruct (gc i prev) eqn:Z.
        + exists (nth prev neqc 0), last, had. split; [exact E|]. split; [lia|]. split; [destruct Cp as [Cp|Cp]; [left; congruence|right; exact Cp]|]. split; [split; [auto|intros [H|H]; [exact H|lia]]|].
          left. repeat split; auto. destruct (gc prev i); cbn in Ai; congruence.
        + exists (S last), (S last), true. split; [exact E|]. split; [lia|]. split; [right; lia|]. split; [split; [right; lia|auto]|]. right. left. repeat split; auto. destruct (gc prev i); cbn in Ai; congruence.
        + exists (S last), (S last), true. split; [exact E|]. split; [lia|]. split; [right; lia|]. split; [split; [right; lia|auto]|]. right. left. repeat split; auto. destruct (gc prev i); cbn in Ai; congruence.
      - exists (nth i eqc 0), last, had. split; [exact E|]. split; [lia|]. split; [auto|]. split; [split; [auto|intros [H|H]; [exact H|lia]]|]. right. right. repeat split; auto. lia. }
    clear E. destruct X as (c & last1 & had1 & E & L1 & Cc & Hd & Cases).
    apply (IH i (set_nth neqc i c) last1 had1) in E; [|exact Inc'|exact So'|exact Nd'|intros x Ix; rewrite cc_set_len; apply Lt; right; exact Ix|lia|rewrite cc_set_nth, Nat.eqb_refl by exact Li; exact Cc].
    rewrite cc_set_len in E. rewrite cc_set_nth, Nat.eqb_refl in E by exact Li. destruct E as (A & B & C & Tri & Ee & U & V & H).
    assert (Pn : nth prev n' 0 = nth prev neqc 0).
    { rewrite C; [|intros X; apply Np; right; exact X]. rewrite cc_set_nth by exact Li. replace (i =? prev) with false by lia. reflexivity. }
    assert (In_ : nth i n' 0 = c).
    { rewrite C; [|inversion Nd'; assumption]. rewrite cc_set_nth, Nat.eqb_refl by exact Li. reflexivity. }
    assert (Tri' : forall a, In a (i :: l) -> (nth a n' 0 = c /\ gc i a = Eq) \/ last1 < nth a n' 0 <= last' \/ (nth a n' 0 = nth a eqc 0 /\ nth i eqc 0 < nth a eqc 0)).
    { intros a [<-|Ia]; [left; split; [exact In_|apply gc_refl; exact Ii]|]. destruct (Tri a Ia) as [T|[T|[T T']]]; auto. right. right. split; [exact T|]. pose proof (gc_le _ _ (Ib_le a (or_intror Ia))). lia. }
    assert (K : forall b, In b (i :: l) -> (nth prev n' 0 = nth b n' 0 <-> gc prev b = Eq)).
    { intros b Ib. assert (Idb : In b D) by (apply Inc'; exact Ib). pose proof (bound b Idb) as Bb. rewrite Pn. specialize (Tri' b Ib). pose proof (gc_le _ _ (Ib_le b Ib)) as Lb.
      destruct Cases as [(Q1 & Q2 & -> & ->)|[(Q1 & Q2 & -> & ->)|(Q1 & -> & ->)]].
      - rewrite (an_order_eq D gc prev i b ord Ip Ii Idb Q2). rewrite <- (Ee i b (or_introl eq_refl) Ib). rewrite In_. reflexivity.
      - assert (N : gc prev b <> Eq) by (apply (an_order_lt D gc prev i b ord Ip Ii Idb); auto).
        split; [|tauto]. intros X. exfalso. destruct Tri' as [[T1 T2]|[T|[T1 T2]]]; lia.
      - assert (N : gc prev b <> Eq) by (intros X; apply gc_class in X; lia). split; [|tauto]. intros X. exfalso. destruct Tri' as [[T1 T2]|[T|[T1 T2]]]; lia. }
    split; [exact A|]. split; [lia|]. split.
    { intros k Nk. rewrite C by (intros X; apply Nk; right; exact X). rewrite cc_set_nth by exact Li. destruct (Nat.eqb_spec i k) as [->|N]; [exfalso; apply Nk; left; reflexivity|reflexivity]. }
    split.
    { intros a Ia. specialize (Tri' a Ia). pose proof (gc_le _ _ (Ib_le a Ia)) as La. assert (Ida : In a D) by (apply Inc'; exact Ia). destruct Cases as [(Q1 & Q2 & -> & ->)|[(Q1 & Q2 & -> & ->)|(Q1 & -> & ->)]].
      - destruct Tri' as [[T1 T2]|[T|[T1 T2]]]; [left; split; [exact T1|]; rewrite (an_order_eq D gc prev i a ord Ip Ii Ida Q2); exact T2|right; left; exact T|right; right; split; [exact T1|lia]].
      - destruct Tri' as [[T1 T2]|[T|[T1 T2]]]; [right; left; lia|right; left; lia|right; right; split; [exact T1|lia]].
      - destruct Tri' as [[T1 T2]|[T|[T1 T2]]]; [right; right; apply gc_class in T2; split; lia|right; left; lia|right; right; split; [exact T1|lia]]. }
    split.
    { intros a b [<-|Ia] [<-|Ib].
      - split; [|reflexivity]. intros _. apply gc_refl. exact Ip.
      - apply K. exact Ib.
      - split; intros X; [symmetry in X; apply (K a Ia) in X|]; [rewrite (proj1 ord prev a Ip (Inc' _ Ia)), X; reflexivity|]. symmetry. apply (K a Ia). rewrite (proj1 ord a prev (Inc' _ Ia) Ip), X. reflexivity.
      - apply Ee; assumption. }
    split.
    { intros v Hv. destruct (Nat.le_gt_cases v last1) as [Q|Q].
      - exists i. split; [left; reflexivity|]. rewrite In_. destruct Cases as [(Q1 & Q2 & -> & ->)|[(Q1 & Q2 & -> & ->)|(Q1 & -> & ->)]]; lia.
      - destruct (U v ltac:(lia)) as (a & Ia & Ea). exists a. split; [right; exact Ia|exact Ea]. }
    split.
    { intros a Ia Na. destruct (Nat.eq_dec (nth a eqc 0) (nth i eqc 0)) as [Q|Q].
      - exists i. split; [left; reflexivity|]. rewrite In_. destruct Cases as [(Q1 & Q2 & -> & ->)|[(Q1 & Q2 & -> & ->)|(Q1 & -> & ->)]]; lia.
      - destruct Ia as [<-|Ia]; [lia|]. destruct (V a Ia Q) as (b & Ib & Eb). exists b. split; [right; exact Ib|exact Eb]. }
    rewrite H, Hd. split; [intros [[X|X]|X]; auto; right; lia|intros [X|X]; auto]. destruct (Nat.lt_ge_cases last last1); [auto|right; lia].
Qed.
End Split.
