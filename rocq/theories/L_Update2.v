(* Adding the words of a message to the tables. *)
From Coq Require Import Permutation Sorted.
From Verif Require Import Base M_Encoding M_TokTable S_Encoding S_TokTable M_DbFile S_DbFile M_Search S_Search M_Tokens S_Tokens M_Update L_Encoding L_Encoding2 L_TokTable L_TokTable2 L_Purge L_Tokens2.
Local Open Scope N_scope.

Lemma c_lower w : c_string w -> c_string (map tolower w).
Proof.
  intros H. apply Forall_forall. intros c I. apply in_map_iff in I as (d & <- & I). unfold c_string in H. rewrite Forall_forall in H. specialize (H d I).
  unfold c_char, tolower, isupper in *. destruct ((65 <=? d) && (d <=? 90)) eqn:E; lia.
Qed.

Definition has (t : toktable matches) (w : bytes) (i : N) : Prop := exists m xs, In (w, m) (entries t) /\ lists m xs /\ In i xs.
Definition has0 (t : toktable (matches * matches)) (w : bytes) (i : N) : Prop := exists m0 m1 xs, In (w, (m0, m1)) (entries t) /\ lists m0 xs /\ In i xs.
Definition has1 (t : toktable (matches * matches)) (w : bytes) (i : N) : Prop := exists m0 m1 xs, In (w, (m0, m1)) (entries t) /\ lists m1 xs /\ In i xs.

Lemma tab_le h n n' t : tab_ok h n t -> n <= n' -> tab_ok h n' t.
Proof. intros [A B] L. split; [exact A|]. intros w m I. destruct (B w m I) as (C & xs & X & Y & Z). split; [exact C|]. exists xs. split; [exact X|]. split; [exact Y|]. eapply Forall_impl; [|exact Z]. cbn. lia. Qed.
Lemma tab2_le h n n' t : tab2_ok h n t -> n <= n' -> tab2_ok h n' t.
Proof.
  intros [A B] L. split; [exact A|]. intros w m0 m1 I. destruct (B w m0 m1 I) as (C & xs & ys & X & Y & Z & P & Q). split; [exact C|]. exists xs, ys.
  split; [exact X|]. split; [exact Y|]. split; [exact Z|]. split; (eapply Forall_impl; [|eassumption]); cbn; lia.
Qed.
Lemma has_below h n t w i : tab_ok h n t -> has t w i -> i < n.
Proof. intros [A B] (m & xs & I & L & J). destruct (B w m I) as (_ & ys & X & _ & Z). rewrite (lists_fun _ _ _ L X) in J. rewrite Forall_forall in Z. auto. Qed.

Lemma NoDup_fst_inj {A B} (l : list (A * B)) a b c : NoDup (map fst l) -> In (a, b) l -> In (a, c) l -> b = c.
Proof.
  induction l as [|[x y] l IH]; cbn; [contradiction|]. intros H. inversion H as [|? ? N1 N2]; subst.
  intros [E|I] [F|J].
  - congruence.
  - exfalso. injection E as -> ->. apply N1. apply in_map_iff. exists (a, c). auto.
  - exfalso. injection F as -> ->. apply N1. apply in_map_iff. exists (a, b). auto.
  - eauto.
Qed.

Lemma tab_insert h n t w x : tab_ok h n t -> n <= x + 1 -> small x -> c_string w ->
  exists t', add_token h init_matches upd1 t w x = Ok t' /\ tab_ok h (x + 1) t' /\
    forall v i, has t' v i <-> has t v i \/ (v = map tolower w /\ i = x).
Proof.
  intros T L S C. destruct (index_table_insert h t w x) as (t' & E & O & m' & ys' & I & LY & Y).
  - exact (proj1 T).
  - exact S.
  - intros m ys i Im Lm Ii. assert (i < n) by (eapply has_below; [exact T|exists m, ys; eauto]). lia.
  - exists t'. split; [exact E|]. assert (IT : index_table h t') by (eapply IT_add; [exact (proj1 T)|exact S|exact E]).
    assert (U : forall m, In (map tolower w, m) (entries t') -> m = m').
    { intros m J. destruct (index_table_distinct h t' IT) as [ND _]. eapply (NoDup_fst_inj (entries t')); eauto. }
    split; [split; [exact IT|]|].
    + intros v m J. destruct (list_eq_dec N.eq_dec v (map tolower w)) as [->|NE].
      * split; [now apply c_lower|]. rewrite (U m J). exists ys'. split; [exact LY|]. split.
        -- assert (In x ys') by (apply Y; now left). intros ->. contradiction.
        -- apply Forall_forall. intros i Ii. apply Y in Ii as [->|(m2 & ys & J1 & J2 & J3)]; [lia|].
           assert (i < n) by (eapply has_below; [exact T|exists m2, ys; eauto]). lia.
      * apply (O v NE) in J. destruct (tab_le h n (x + 1) t T L) as [_ B]. now apply B.
    + intros v i. destruct (list_eq_dec N.eq_dec v (map tolower w)) as [->|NE].
      * split.
        -- intros (m & xs & J & K & Q). rewrite (U m J) in K. rewrite (lists_fun _ _ _ K LY) in Q. apply Y in Q as [->|Q]; [right; auto|left; exact Q].
        -- intros Q. exists m', ys'. split; [exact I|]. split; [exact LY|]. apply Y. destruct Q as [Q|[_ ->]]; [right; exact Q|now left].
      * split.
        -- intros (m & xs & J & K). apply (O v NE) in J. left. exists m, xs. auto.
        -- intros [(m & xs & J & K)|[-> _]]; [|congruence]. apply (O v NE) in J. exists m, xs. auto.
Qed.

Lemma init_lists : lists init_matches [].
Proof. apply mlist_lists. apply mlist_init. Qed.

Lemma tab2_insert h n t w x own : tab2_ok h n t -> n <= x + 1 -> small x -> c_string w ->
  exists t', add_token h (init_matches, init_matches) upd2 t w (x, own) = Ok t' /\ tab2_ok h (x + 1) t' /\
    (forall v i, has0 t' v i <-> has0 t v i \/ (v = map tolower w /\ i = x)) /\
    (forall v i, has1 t' v i <-> has1 t v i \/ (own = true /\ v = map tolower w /\ i = x)).
Proof.
  intros T L S C. assert (G := index_table2_ginv _ _ (proj1 T)). destruct G as [GT GP].
  set (lc := map tolower w) in *.
  assert (EX : exists m0 m1 vs us, cur (init_matches, init_matches) (amap t lc) = (m0, m1) /\ mlist m0 vs /\ mlist m1 us /\
            (forall i, In i vs <-> has0 t lc i) /\ (forall i, In i us <-> has1 t lc i)).
  { destruct (amap t lc) as [[m0 m1]|] eqn:E.
    - apply (amap_entries h t lc _ GT) in E. assert (E' := E). apply entries_toks in E as (k & K1 & K2 & K3).
      destruct (GP k K1) as [[vs V] [us V']]. rewrite K3 in V, V'. cbn in V, V'. exists m0, m1, vs, us.
      split; [reflexivity|]. split; [exact V|]. split; [exact V'|].
      assert (U : forall p, In (lc, p) (entries t) -> p = (m0, m1)).
      { intros p J. apply (amap_entries h t lc _ GT) in J. apply (amap_entries h t lc _ GT) in E'. congruence. }
      split; intros i; (split; [intros I; exists m0, m1; eexists; split; [exact E'|]; split; [apply mlist_lists; eassumption|exact I]|]);
        intros (a & b & xs & J & K & Q); specialize (U _ J); injection U as -> ->.
      + rewrite (lists_fun _ _ _ (mlist_lists _ _ V) K). exact Q.
      + rewrite (lists_fun _ _ _ (mlist_lists _ _ V') K). exact Q.
    - exists init_matches, init_matches, [], []. split; [reflexivity|]. split; [apply mlist_init|]. split; [apply mlist_init|].
      split; intros i; (split; [contradiction|]); intros (a & b & xs & J & K & Q);
        apply (amap_entries h t lc _ GT) in J; congruence. }
  destruct EX as (m0 & m1 & vs & us & EC & V & V' & HV & HU).
  assert (B0 : forall v i, has0 t v i -> i < n).
  { intros v i (a & b & xs & J & K & Q). destruct T as [_ T]. destruct (T v a b J) as (_ & xs' & ys' & X & _ & Y & Z & _).
    rewrite (lists_fun _ _ _ K X) in Q. rewrite Forall_forall in Z. auto. }
  assert (B1 : forall v i, has1 t v i -> i < n).
  { intros v i (a & b & xs & J & K & Q). destruct T as [_ T]. destruct (T v a b J) as (_ & xs' & ys' & X & _ & Y & _ & Z).
    rewrite (lists_fun _ _ _ K Y) in Q. rewrite Forall_forall in Z. auto. }
  assert (LV : (vs = [] \/ last vs 0 <= x)).
  { destruct vs as [|v vs]; [now left|right]. assert (last (v :: vs) 0 < n) by (apply (B0 lc); apply HV; apply last_In; discriminate). lia. }
  assert (LU : (us = [] \/ last us 0 <= x)).
  { destruct us as [|v us]; [now left|right]. assert (last (v :: us) 0 < n) by (apply (B1 lc); apply HU; apply last_In; discriminate). lia. }
  destruct (mlist_add _ _ x V S LV) as (a0 & A0 & A1). destruct (mlist_add _ _ x V' S LU) as (b0 & B2 & B3).
  set (q1 := if own then b0 else m1).
  assert (EU : upd2 (x, own) (cur (init_matches, init_matches) (amap t lc)) = Some (a0, q1)).
  { rewrite EC. unfold upd2, q1. cbn [fst snd]. rewrite A0. destruct own; [rewrite B2|]; reflexivity. }
  assert (QL : exists zs, lists q1 zs /\ forall i, In i zs <-> In i us \/ (own = true /\ i = x)).
  { unfold q1. destruct own.
    - exists (snoc_new us x). split; [now apply mlist_lists|]. intros i.
      destruct (snoc_new_spec us x) as [_ S2]; [apply Strongly_ssorted; apply V'|exact LU|]. rewrite S2. intuition.
    - exists us. split; [now apply mlist_lists|]. intros i. intuition discriminate. }
  destruct QL as (zs & Z1 & Z2).
  destruct (add_token_ok h (init_matches, init_matches) upd2 t w (x, own) (a0, q1) GT EU) as (t' & A & B & D).
  fold lc in D. exists t'. split; [exact A|].
  assert (IT : index_table2 h t') by (eapply IT2_add; [exact (proj1 T)|exact S|exact A]).
  assert (IN : In (lc, (a0, q1)) (entries t')) by (apply (amap_entries h t' lc _ (or_intror B)); rewrite D, bytes_eqb_refl; reflexivity).
  assert (U : forall p, In (lc, p) (entries t') -> p = (a0, q1)).
  { intros p J. apply (amap_entries h t' lc _ (or_intror B)) in J. apply (amap_entries h t' lc _ (or_intror B)) in IN. congruence. }
  assert (O : forall v, v <> lc -> forall m, In (v, m) (entries t') <-> In (v, m) (entries t)).
  { intros v Hv m. rewrite <- (amap_entries h t' v m (or_intror B)), <- (amap_entries h t v m GT), D.
    destruct (bytes_eqb lc v) eqn:E; [apply bytes_eqb_eq in E; congruence|tauto]. }
  assert (SV : forall i, In i (snoc_new vs x) <-> In i vs \/ i = x).
  { intros i. destruct (snoc_new_spec vs x) as [_ S2]; [apply Strongly_ssorted; apply V|exact LV|]. now rewrite S2. }
  split; [split; [exact IT|]|split].
  - intros v p0 p1 J. destruct (list_eq_dec N.eq_dec v lc) as [->|NE].
    + split; [now apply c_lower|]. specialize (U _ J). injection U as -> ->. exists (snoc_new vs x), zs.
      split; [now apply mlist_lists|]. split; [intros E; assert (I : In x (snoc_new vs x)) by (apply SV; now right); rewrite E in I; contradiction|].
      split; [exact Z1|]. split; apply Forall_forall; intros i I.
      * apply SV in I as [I| ->]; [|lia]. apply HV in I. apply B0 in I. lia.
      * apply Z2 in I as [I|[_ ->]]; [|lia]. apply HU in I. apply B1 in I. lia.
    + apply (O v NE) in J. destruct (tab2_le h n (x + 1) t T L) as [_ Q]. now apply Q.
  - intros v i. destruct (list_eq_dec N.eq_dec v lc) as [->|NE].
    + split.
      * intros (a & b & xs & J & K & Q). specialize (U _ J). injection U as -> ->. rewrite (lists_fun _ _ _ K (mlist_lists _ _ A1)) in Q.
        apply SV in Q as [Q| ->]; [left; now apply HV|right; auto].
      * intros Q. exists a0, q1, (snoc_new vs x). split; [exact IN|]. split; [now apply mlist_lists|]. apply SV. destruct Q as [Q|[_ ->]]; [left; now apply HV|now right].
    + split.
      * intros (a & b & xs & J & K). apply (O v NE) in J. left. exists a, b, xs. auto.
      * intros [(a & b & xs & J & K)|[-> _]]; [|congruence]. apply (O v NE) in J. exists a, b, xs. auto.
  - intros v i. destruct (list_eq_dec N.eq_dec v lc) as [->|NE].
    + split.
      * intros (a & b & xs & J & K & Q). specialize (U _ J). injection U as -> ->. rewrite (lists_fun _ _ _ K Z1) in Q.
        apply Z2 in Q as [Q|[-> ->]]; [left; now apply HU|right; auto].
      * intros Q. exists a0, q1, zs. split; [exact IN|]. split; [exact Z1|]. apply Z2. destruct Q as [Q|(-> & _ & ->)]; [left; now apply HU|now right].
    + split.
      * intros (a & b & xs & J & K). apply (O v NE) in J. left. exists a, b, xs. auto.
      * intros [(a & b & xs & J & K)|(_ & -> & _)]; [|congruence]. apply (O v NE) in J. exists a, b, xs. auto.
Qed.
