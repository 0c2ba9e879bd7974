(* Sorting and looking up the messages found on disc. *)
From Coq Require Import Permutation Sorted.
From Verif Require Import Base M_Encoding M_TokTable M_DbFile M_Tokens M_Update S_Update L_TokTable.
Local Open Scope N_scope.

Lemma cmp_refl a : bytes_cmp a a = Eq.
Proof. induction a; [reflexivity|]. cbn. now rewrite N.compare_refl. Qed.
Lemma cmp_eq a : forall b, bytes_cmp a b = Eq -> a = b.
Proof.
  induction a as [|x a IH]; intros [|y b]; cbn; try discriminate; [reflexivity|].
  destruct (N.compare_spec x y); try discriminate. subst. intros E. f_equal. now apply IH.
Qed.
Lemma cmp_lt a : forall b, bytes_cmp a b = Lt <-> lex a b.
Proof.
  induction a as [|x a IH]; intros [|y b]; cbn.
  - split; [discriminate|intros H; inversion H].
  - split; [constructor|reflexivity].
  - split; [discriminate|intros H; inversion H].
  - destruct (N.compare_spec x y).
    + subst. rewrite IH. split; [intros L; now apply Lex_same|intros L; inversion L; subst; [lia|assumption]].
    + split; [intros _; now apply Lex_less|reflexivity].
    + split; [discriminate|intros L; inversion L; subst; lia].
Qed.
Lemma cmp_anti a : forall b, bytes_cmp a b = CompOpp (bytes_cmp b a).
Proof.
  induction a as [|x a IH]; intros [|y b]; try reflexivity. cbn. rewrite N.compare_antisym.
  destruct (y ?= x); cbn; auto.
Qed.
Lemma lex_trans a b c : lex a b -> lex b c -> lex a c.
Proof.
  intros H; revert c. induction H; intros cc H2; inversion H2; subst; try (now constructor).
  - apply Lex_less. lia.
  - apply Lex_same. auto.
Qed.
Lemma lex_irrefl a : ~ lex a a.
Proof. intros H. apply cmp_lt in H. rewrite cmp_refl in H. discriminate. Qed.

Lemma mcmp_eq a b : message_compare a b = Eq -> a = b.
Proof. destruct a as [[] p], b as [[] q]; unfold message_compare; cbn; try discriminate; intros E; apply cmp_eq in E; congruence. Qed.
Lemma mcmp_refl a : message_compare a a = Eq.
Proof. destruct a as [[] p]; unfold message_compare; cbn; apply cmp_refl. Qed.
Lemma mcmp_lt a b : message_compare a b = Lt <-> before a b.
Proof.
  destruct a as [[] p], b as [[] q]; unfold message_compare, before; cbn; rewrite ?cmp_lt; intuition congruence.
Qed.
Lemma mcmp_anti a b : message_compare a b = CompOpp (message_compare b a).
Proof. destruct a as [[] p], b as [[] q]; unfold message_compare; cbn; try reflexivity; apply cmp_anti. Qed.
Lemma before_trans a b c : before a b -> before b c -> before a c.
Proof. unfold before. intros [[A B]|[A B]] [[C D]|[C D]]; try congruence; [left|left|right]; intuition (try congruence). eapply lex_trans; eauto. Qed.
Lemma before_irrefl a : ~ before a a.
Proof. intros [[A B]|[A B]]; [congruence|now apply lex_irrefl in B]. Qed.

(* ---- sorting, for any comparison that is a total order ---- *)
Section Sort.
Context {A : Type} (cmp : A -> A -> comparison).
Hypothesis anti : forall a b, cmp a b = CompOpp (cmp b a).
Hypothesis trans : forall a b c, cmp a b <> Gt -> cmp b c <> Gt -> cmp a c <> Gt.
Let le a b := cmp a b <> Gt.

Lemma insert_perm x l : Permutation (x :: l) (insert cmp x l).
Proof.
  induction l as [|y l IH]; [reflexivity|]. cbn. destruct (cmp x y); try reflexivity.
  etransitivity; [apply perm_swap|]. now constructor.
Qed.
Lemma insert_in x l z : In z (insert cmp x l) <-> z = x \/ In z l.
Proof.
  split.
  - intros I. apply (Permutation_in _ (Permutation_sym (insert_perm x l))) in I. destruct I; auto.
  - intros I. apply (Permutation_in _ (insert_perm x l)). destruct I; [left|right]; auto.
Qed.
Lemma insert_sorted x l : StronglySorted le l -> StronglySorted le (insert cmp x l).
Proof.
  induction 1 as [|y l S IH F]; cbn; [repeat constructor|].
  destruct (cmp x y) eqn:E.
  - constructor; [now constructor|]. constructor; [congruence|]. eapply Forall_impl; [|exact F]. intros z Z. apply (trans x y z); congruence.
  - constructor; [now constructor|]. constructor; [congruence|]. eapply Forall_impl; [|exact F]. intros z Z. apply (trans x y z); congruence.
  - constructor; [exact IH|]. apply Forall_forall. intros z I. apply insert_in in I as [->|I].
    + unfold le. rewrite anti, E. discriminate.
    + rewrite Forall_forall in F. auto.
Qed.
Lemma qsort_perm l : Permutation l (qsort cmp l).
Proof. induction l as [|x l IH]; [reflexivity|]. change (qsort cmp (x :: l)) with (insert cmp x (qsort cmp l)). etransitivity; [|apply insert_perm]. now constructor. Qed.
Lemma qsort_sorted l : StronglySorted le (qsort cmp l).
Proof. induction l as [|x l IH]; [constructor|]. change (qsort cmp (x :: l)) with (insert cmp x (qsort cmp l)). now apply insert_sorted. Qed.
End Sort.

Lemma cmp_trans a b c : bytes_cmp a b <> Gt -> bytes_cmp b c <> Gt -> bytes_cmp a c <> Gt.
Proof.
  intros H1 H2. destruct (bytes_cmp a b) eqn:E1; [apply cmp_eq in E1; now subst| |congruence].
  destruct (bytes_cmp b c) eqn:E2; [apply cmp_eq in E2; subst; congruence| |congruence].
  apply cmp_lt in E1. apply cmp_lt in E2. pose proof (lex_trans _ _ _ E1 E2) as L. apply cmp_lt in L. congruence.
Qed.
Lemma mcmp_trans a b c : message_compare a b <> Gt -> message_compare b c <> Gt -> message_compare a c <> Gt.
Proof.
  intros H1 H2. destruct (message_compare a b) eqn:E1; [apply mcmp_eq in E1; now subst| |congruence].
  destruct (message_compare b c) eqn:E2; [apply mcmp_eq in E2; subst; congruence| |congruence].
  apply mcmp_lt in E1. apply mcmp_lt in E2. pose proof (before_trans _ _ _ E1 E2) as L. apply mcmp_lt in L. congruence.
Qed.

Lemma twice_sorted l : StronglySorted (fun a b => bytes_cmp a b <> Gt) l -> (twice l = false <-> NoDup l).
Proof.
  induction 1 as [|a l S IH F]; [split; [constructor|reflexivity]|].
  destruct l as [|b l]; [split; [repeat constructor; auto|reflexivity]|].
  change (twice (a :: b :: l)) with (bytes_eqb a b || twice (b :: l)). rewrite orb_false_iff, IH. split.
  - intros [E ND]. constructor; [|exact ND]. intros [->|I]; [rewrite bytes_eqb_refl in E; discriminate|].
    inversion F as [|? ? Fb Fl]; subst. inversion S as [|? ? Sl Fbl]; subst.
    rewrite Forall_forall in Fbl. specialize (Fbl a I).
    apply bytes_eqb_neq in E. apply E. destruct (bytes_cmp a b) eqn:C; [now apply cmp_eq| |congruence].
    rewrite cmp_anti, C in Fbl. cbn in Fbl. congruence.
  - intros ND. inversion ND as [|? ? NI ND']; subst. split; [|exact ND']. apply bytes_eqb_neq. intros ->. apply NI. now left.
Qed.

Lemma NoDup_perm_iff {A} (l l' : list A) : Permutation l l' -> (NoDup l <-> NoDup l').
Proof. intros P. split; apply Permutation_NoDup; [exact P|now symmetry]. Qed.
Lemma nodup_two l : NoDup (map fpath (filter (fun x => negb (is_imap x)) l)) /\ NoDup (map fpath (filter is_imap l)) <-> NoDup l.
Proof.
  induction l as [|x l IH]; [split; [constructor|split; constructor]|]. cbn [filter].
  assert (K : forall (g : found -> bool) y, (forall z, g z = g y -> is_imap z = is_imap y) -> g y = true -> (In (fpath y) (map fpath (filter g l)) <-> In y l)).
  { intros g y G T. split.
    - intros I. apply in_map_iff in I as (z & E & I). apply filter_In in I as [I J]. assert (Q : is_imap z = is_imap y) by (apply G; now rewrite J, T).
      destruct z as [zi zp], y as [yi yp]. cbn [is_imap fpath] in *. now subst.
    - intros I. apply in_map. apply filter_In. auto. }
  destruct (is_imap x) eqn:X; cbn [negb map].
  - specialize (K is_imap x). assert (K' := K (fun z H => H) X). split.
    + intros [A B]. inversion B; subst. constructor; [rewrite <- K'; assumption|]. apply IH. auto.
    + intros ND. inversion ND; subst. split; [now apply IH|]. constructor; [rewrite K'; assumption|now apply IH].
  - specialize (K (fun x => negb (is_imap x)) x). assert (K' := K ltac:(intros z; cbv beta; destruct (is_imap z), (is_imap x); cbn; congruence) ltac:(cbv beta; now rewrite X)). split.
    + intros [A B]. inversion A; subst. constructor; [rewrite <- K'; assumption|]. apply IH. auto.
    + intros ND. inversion ND; subst. split; [|now apply IH]. constructor; [rewrite K'; assumption|now apply IH].
Qed.
Lemma duplicates_iff l : duplicates l = false <-> NoDup l.
Proof.
  unfold duplicates. rewrite orb_false_iff. rewrite !twice_sorted by (apply qsort_sorted; [exact cmp_anti|exact cmp_trans]).
  rewrite <- !(NoDup_perm_iff _ _ (qsort_perm bytes_cmp _)). apply nodup_two.
Qed.
Lemma sorted_strict l : StronglySorted (fun a b => message_compare a b <> Gt) l -> NoDup l -> StronglySorted before l.
Proof.
  induction 1 as [|a l S IH F]; intros ND; [constructor|]. inversion ND; subst. constructor; [auto|].
  rewrite Forall_forall in *. intros b I. specialize (F b I). apply mcmp_lt. destruct (message_compare a b) eqn:E; [|reflexivity|congruence].
  apply mcmp_eq in E. subst. contradiction.
Qed.
(* The sorted list holds the same messages; when none is there twice it is strictly ascending. *)
Lemma sorted_paths l : Permutation l (qsort message_compare l) /\
  (duplicates (qsort message_compare l) = false <-> NoDup l) /\
  (NoDup l -> StronglySorted before (qsort message_compare l)).
Proof.
  split; [apply qsort_perm|]. pose proof (qsort_perm message_compare l) as P. split.
  - rewrite duplicates_iff. symmetry. now apply NoDup_perm_iff.
  - intros ND. apply sorted_strict; [apply qsort_sorted; [exact mcmp_anti|exact mcmp_trans]|]. now apply (NoDup_perm_iff _ _ P).
Qed.

(* ---- bisection ---- *)
Lemma half l h : (l < h)%nat -> (l <= (h + l) / 2 < h)%nat.
Proof. intros H. pose proof (Nat.div_mod (h + l) 2). pose proof (Nat.mod_upper_bound (h + l) 2). lia. Qed.
Lemma sorted_nth {A} (R : A -> A -> Prop) l : StronglySorted R l -> forall i j a b, (i < j)%nat -> nth_error l i = Some a -> nth_error l j = Some b -> R a b.
Proof.
  induction 1 as [|x l S IH F]; intros i j a b H Ea Eb; [destruct i; discriminate|].
  destruct j as [|j]; [lia|]. destruct i as [|i]; cbn in *.
  - injection Ea as <-. rewrite Forall_forall in F. apply F. eapply nth_error_In; eauto.
  - eapply IH; [|eassumption..]. lia.
Qed.
Section Bisect.
Context {A K : Type} (cmp : A -> K -> comparison) (sp : list A) (key : K).
Hypothesis below : forall i j a b, (i < j)%nat -> nth_error sp i = Some a -> nth_error sp j = Some b ->
  (cmp a key = Gt -> cmp b key = Gt) /\ (cmp a key = Eq -> cmp b key = Gt) /\ (cmp b key = Lt -> cmp a key = Lt).
Fixpoint bisect (fuel : nat) (l h : nat) (m : option nat) : res (option nat) :=
  match fuel with
  | O => Err E_fuel
  | S f =>
    if (l <? h)%nat then
      let m := ((h + l) / 2)%nat in
      let! x := fetch (nth_error sp m) in
      match cmp x key with
      | Eq => Ok (Some m)
      | c => if (l =? m)%nat then Ok None
             else match c with Gt => bisect f l m (Some m) | _ => bisect f m h (Some m) end
      end
    else Ok m
  end.
Lemma bisect_ok fuel : forall l h m, (h - l < fuel)%nat -> (h <= length sp)%nat -> (l < h)%nat ->
  (forall k x, nth_error sp k = Some x -> cmp x key = Eq -> (l <= k < h)%nat) ->
  exists o, bisect fuel l h m = Ok o /\
    match o with Some k => exists x, nth_error sp k = Some x /\ cmp x key = Eq
               | None => forall k x, nth_error sp k = Some x -> cmp x key <> Eq end.
Proof.
  induction fuel as [|f IH]; intros l h m HF HH HL HR; [lia|]. cbn [bisect].
  rewrite (proj2 (Nat.ltb_lt l h) HL). pose proof (half l h HL) as M. set (k := ((h + l) / 2)%nat) in *.
  destruct (nth_error sp k) as [x|] eqn:E; [|apply nth_error_None in E; lia]. cbn [fetch bind].
  destruct (cmp x key) eqn:C.
  - exists (Some k). split; [reflexivity|]. now exists x.
  - destruct (Nat.eqb_spec l k) as [E'|E'].
    + exists None. split; [reflexivity|]. intros k' x' N' C'. pose proof (HR k' x' N' C').
      assert ((h + l) / 2 = l)%nat by (fold k; lia). pose proof (Nat.div_mod (h + l) 2). pose proof (Nat.mod_upper_bound (h + l) 2).
      assert (k' = k) by lia. congruence.
    + apply IH; try lia. intros k' x' N' C'. pose proof (HR k' x' N' C'). split; [|lia].
      destruct (le_lt_dec k k'); [lia|]. destruct (below _ _ _ _ l0 N' E) as (_ & B & _). rewrite (B C') in C. discriminate.
  - destruct (Nat.eqb_spec l k) as [E'|E'].
    + exists None. split; [reflexivity|]. intros k' x' N' C'. pose proof (HR k' x' N' C').
      assert ((h + l) / 2 = l)%nat by (fold k; lia). pose proof (Nat.div_mod (h + l) 2). pose proof (Nat.mod_upper_bound (h + l) 2).
      assert (k' = k) by lia. congruence.
    + apply IH; try lia. intros k' x' N' C'. pose proof (HR k' x' N' C'). split; [lia|].
      destruct (le_lt_dec k k') as [Q|Q]; [|lia]. destruct (Nat.eq_dec k k') as [->|]; [congruence|].
      destruct (below k k' x x' ltac:(lia) E N') as (B & _ & _). rewrite (B C) in C'. discriminate.
Qed.
Lemma bisect_all : exists o, bisect (S (length sp)) 0 (length sp) None = Ok o /\
    match o with Some k => exists x, nth_error sp k = Some x /\ cmp x key = Eq
               | None => forall k x, nth_error sp k = Some x -> cmp x key <> Eq end.
Proof.
  destruct (length sp) as [|n] eqn:L.
  - exists None. split; [reflexivity|]. intros k x N. assert (k < length sp)%nat by (apply nth_error_Some; congruence). lia.
  - apply bisect_ok; try lia. intros k x N _. split; [lia|]. rewrite <- L. apply nth_error_Some. congruence.
Qed.
End Bisect.

Lemma lookup_bisect sp key f : forall l h m, lookup_loop f sp key l h m = bisect message_compare sp key f l h m.
Proof. induction f as [|f IH]; intros; [reflexivity|]. cbn [lookup_loop bisect]. destruct (l <? h)%nat; [|reflexivity]. destruct (nth_error _ _); [|reflexivity]. cbn [fetch bind]. destruct (message_compare _ _); rewrite ?IH; reflexivity. Qed.
Lemma lookup_box_bisect sp key f : forall l h m, lookup_box_loop f sp key l h m = bisect (fun e => bytes_cmp (e_path e)) sp key f l h m.
Proof. induction f as [|f IH]; intros; [reflexivity|]. cbn [lookup_box_loop bisect]. destruct (l <? h)%nat; [|reflexivity]. destruct (nth_error _ _); [|reflexivity]. cbn [fetch bind]. destruct (bytes_cmp _ _); rewrite ?IH; reflexivity. Qed.

Lemma lookup_exact sp key : StronglySorted before sp ->
  exists o, lookup_msgpath sp key = Ok o /\ match o with Some k => nth_error sp k = Some key | None => ~ In key sp end.
Proof.
  intros S. unfold lookup_msgpath. rewrite lookup_bisect. destruct (bisect_all message_compare sp key) as (o & E & H).
  - intros i j a b L Ea Eb. pose proof (sorted_nth _ _ S _ _ _ _ L Ea Eb) as B. split; [|split].
    + intros G. rewrite mcmp_anti in G. destruct (message_compare key a) eqn:C; try discriminate.
      rewrite mcmp_anti. apply mcmp_lt in C. pose proof (before_trans _ _ _ C B) as Q. apply mcmp_lt in Q. now rewrite Q.
    + intros Q. apply mcmp_eq in Q. subst. rewrite mcmp_anti. apply mcmp_lt in B. now rewrite B.
    + intros Q. apply mcmp_lt. apply mcmp_lt in Q. now apply before_trans with b.
  - exists o. split; [exact E|]. destruct o as [k|].
    + destruct H as (x & N & C). apply mcmp_eq in C. now subst.
    + intros I. apply In_nth_error in I as [k N]. apply (H k key N). apply mcmp_refl.
Qed.
Lemma lookup_box_exact sp key : StronglySorted (fun a b => lex (e_path a) (e_path b)) sp ->
  exists o, lookup_extant_mbox sp key = Ok o /\
    match o with Some k => exists e, nth_error sp k = Some e /\ e_path e = key | None => ~ In key (map e_path sp) end.
Proof.
  intros S. unfold lookup_extant_mbox. rewrite lookup_box_bisect. destruct (bisect_all (fun e => bytes_cmp (e_path e)) sp key) as (o & E & H).
  - intros i j a b L Ea Eb. pose proof (sorted_nth _ _ S _ _ _ _ L Ea Eb) as B. cbv beta in B. split; [|split].
    + intros G. rewrite cmp_anti in G. destruct (bytes_cmp key (e_path a)) eqn:C; try discriminate.
      rewrite cmp_anti. apply cmp_lt in C. pose proof (lex_trans _ _ _ C B) as Q. apply cmp_lt in Q. now rewrite Q.
    + intros Q. apply cmp_eq in Q. subst. rewrite cmp_anti. apply cmp_lt in B. now rewrite B.
    + intros Q. apply cmp_lt. apply cmp_lt in Q. now apply lex_trans with (e_path b).
  - exists o. split; [exact E|]. destruct o as [k|].
    + destruct H as (x & N & C). apply cmp_eq in C. eauto.
    + intros I. apply in_map_iff in I as (e & <- & I). apply In_nth_error in I as [k N]. apply (H k e N). apply cmp_refl.
Qed.
