(* Sessions: a reloaded and a purged index is as good as the one before. *)
From Coq Require Import Permutation Sorted.
From Verif Require Import Base M_Encoding M_TokTable S_TokTable M_DbFile S_DbFile M_Search S_Search M_Thread M_Purge S_Purge M_Tokens S_Tokens M_Mbox S_Mbox M_Update S_Update M_Session S_Session
  L_TokTable2 L_DbFile5 L_DbFile6 L_Purge L_Purge2 L_Output3 L_Search6 L_Update13.
From Verif Require M_Paths.
Local Open Scope N_scope.

Ltac ok H := apply bind_ok in H as (? & ? & H).

(* ---- the arrays of a loaded mailbox have the same size ---- *)
Lemma chop_length k : forall s, length (M_DbFile.chop k s) = k.
Proof. induction k as [|k IH]; intros s; [reflexivity|]. cbn [M_DbFile.chop length]. now rewrite IH. Qed.
Lemma load_mbox_level gm F r i mb : load_mbox gm F r i = Ok mb -> level mb.
Proof.
  unfold load_mbox. intros H. do 5 ok H. destruct (0 <? int_of_u32 x3)%Z.
  - do 2 ok H. apply Ok_inj in H. subst mb. split; cbn [starts lens checks]; rewrite ?chop_length, ?repeat_length; reflexivity.
  - apply Ok_inj in H. subst mb. split; reflexivity.
Qed.
Lemma load_mboxen_level gm F r k : forall i mbs, load_mboxen gm F r k i = Ok mbs -> Forall level mbs.
Proof.
  induction k as [|k IH]; intros i mbs; cbn [load_mboxen]; intros H; [apply Ok_inj in H; subst; constructor|].
  do 2 ok H. apply Ok_inj in H. subst mbs. constructor; [eapply load_mbox_level; eauto|eapply IH; eauto].
Qed.
Lemma Forall_set {A} (P : A -> Prop) l i a : Forall P l -> P a -> Forall P (set_nth l i a).
Proof. intros F. revert i. induction F as [|x l HX F IH]; intros [|i] HA; cbn [set_nth]; constructor; auto. Qed.
Lemma load_msg_level F r i st m st' : load_msg F r i st = Ok (m, st') -> Forall (fun x => level (fst x)) st -> Forall (fun x => level (fst x)) st'.
Proof.
  unfold load_msg. intros H HL. ok H. apply bind_ok in H as ([s mbs'] & HS & H). do 2 ok H. apply Ok_inj in H. injection H as _ <-. clear - HS HL. rename HS into H0.
  assert (D : forall (a : msrc) b, Ok (a, st) = Ok (s, b) -> b = st) by (intros a b X; now injection X).
  destruct (N.land x 7) as [|p]; [apply Ok_inj in H0; injection H0 as _ <-; exact HL|].
  repeat match type of H0 with (match ?q with xI _ => _ | xO _ => _ | xH => _ end = _) => destruct q; try discriminate H0 end; repeat ok H0;
    try (apply Ok_inj in H0; injection H0 as _ <-; exact HL).
  match type of H0 with context [let '(_, _) := ?v in _] => destruct v as [mbi msgi] end. destruct (mbi <? N.of_nat (length st)); [|discriminate].
  destruct (nth_error st (N.to_nat mbi)) as [[mb so]|] eqn:E; [|discriminate]. destruct (negb (so =? msgi)); [discriminate|].
  destruct (N.of_nat (length (starts mb)) <=? so); [discriminate|]. do 2 ok H0. apply Ok_inj in H0. injection H0 as _ <-.
  apply Forall_set; [exact HL|]. rewrite Forall_forall in HL. specialize (HL _ (nth_error_In _ _ E)). destruct HL as [L1 L2]. cbn [fst] in *.
  unfold with_entry. split; cbn [starts lens checks]; rewrite !set_nth_length; assumption.
Qed.
Lemma load_msgs_level F r k : forall i st ms st', load_msgs F r k i st = Ok (ms, st') -> Forall (fun x => level (fst x)) st -> Forall (fun x => level (fst x)) st'.
Proof.
  induction k as [|k IH]; intros i st ms st'; cbn [load_msgs]; intros H HL; [apply Ok_inj in H; injection H as _ <-; exact HL|].
  apply bind_ok in H as ([m st1] & H1 & H). apply bind_ok in H as ([ms2 st2] & H2 & H). apply Ok_inj in H. injection H as _ <-.
  eapply IH; [exact H2|]. eapply load_msg_level; eauto.
Qed.
Lemma load_level h gi gm F db : load h gi gm F = Ok db -> Forall level (mboxen db).
Proof.
  unfold load. intros H. ok H. destruct (_ || _); [discriminate|]. ok H. apply bind_ok in H as ([ms mbs] & H2 & H). do 3 ok H.
  destruct x1 as [|? [|? [|? [|? [|? [|? [|? ?]]]]]]]; try discriminate. apply Ok_inj in H. subst db. cbn [mboxen].
  apply Forall_map. eapply load_msgs_level; [exact H2|]. apply Forall_map. eapply load_mboxen_level; eauto.
Qed.

(* ---- what makes an index good ---- *)
Record good (h : N -> bytes -> N) (db : database) : Prop := {
  gd_ok : db_ok h db;
  gd_tight : tight db;
  gd_mailed : mailed db;
  gd_once : each_once db;
  gd_few : n_msgs db <= 63 * 2 ^ 24 }.

Lemma F2_nth {A B} (R : A -> B -> Prop) l l' : Forall2 R l l' -> forall i a, nth_error l i = Some a -> exists b, nth_error l' i = Some b /\ R a b.
Proof. induction 1 as [|a b l l' H F IH]; intros [|i] x E; cbn in *; try discriminate; [injection E as <-; eauto|eauto]. Qed.
Lemma F2_nth' {A B} (R : A -> B -> Prop) l l' : Forall2 R l l' -> forall i b, nth_error l' i = Some b -> exists a, nth_error l i = Some a /\ R a b.
Proof. induction 1 as [|a b l l' H F IH]; intros [|i] x E; cbn in *; try discriminate; [injection E as <-; eauto|eauto]. Qed.
Lemma same_srcs db db' : Forall2 same_msg (msgs db) (msgs db') -> map src (msgs db') = map src (msgs db).
Proof. induction 1 as [|a b l l' (X & _) _ IH]; [reflexivity|]. cbn. now rewrite X, IH. Qed.
Lemma run_of_src b l l' : map src l' = map src l -> run_of b l' = run_of b l.
Proof.
  revert l'. induction l as [|m l IH]; intros [|m' l'] E; try discriminate; [reflexivity|]. cbn in E. injection E as E1 E2. unfold run_of in *. cbn [flat_map]. now rewrite E1, (IH l' E2).
Qed.
Lemma same_count db db' : same_db db db' -> n_msgs db' = n_msgs db.
Proof. intros (_ & F & _). unfold n_msgs. now rewrite (Forall2_len _ _ _ F). Qed.

Lemma names_src db db' : map src (msgs db') = map src (msgs db) -> each_once db -> each_once db'.
Proof.
  intros E H i j a b x A B NA NB.
  assert (G : forall k m, nth_error (msgs db') k = Some m -> exists m0, nth_error (msgs db) k = Some m0 /\ src m0 = src m).
  { intros k m EK. assert (X : nth_error (map src (msgs db')) k = Some (src m)) by now apply map_nth_error. rewrite E, nth_error_map in X.
    destruct (nth_error (msgs db) k) as [m0|]; [|discriminate]. exists m0. cbn in X. split; [reflexivity|congruence]. }
  destruct (G i a A) as (a0 & A0 & SA). destruct (G j b B) as (b0 & B0 & SB). apply (H i j a0 b0 x A0 B0); unfold name_of in *; [now rewrite SA|now rewrite SB].
Qed.
Lemma mailed_src db db' : map src (msgs db') = map src (msgs db) -> (forall b mb', nth_error (mboxen db') b = Some mb' -> exists mb, nth_error (mboxen db) b = Some mb /\ mb_path mb' = mb_path mb) ->
  mailed db -> mailed db'.
Proof.
  intros E HB H m fi mi mb' I ES EN. destruct (HB _ _ EN) as (mb & EM & EP). rewrite EP.
  assert (IS : In (S_mbox fi mi) (map src (msgs db))) by (rewrite <- E, <- ES; now apply in_map). apply in_map_iff in IS as (m0 & S0 & I0). exact (H m0 fi mi mb I0 S0 EM).
Qed.
Lemma once_paths db : each_once db -> NoDup (file_paths db) /\ NoDup (imap_paths db).
Proof.
  unfold each_once, file_paths, imap_paths. induction (msgs db) as [|m l IH]; intros H; [split; constructor|].
  assert (H' : forall i j a b x, nth_error l i = Some a -> nth_error l j = Some b -> name_of a = Some x -> name_of b = Some x -> i = j).
  { intros i j a b x A B NA NB. apply Nat.succ_inj. exact (H (S i) (S j) a b x A B NA NB). }
  destruct (IH H') as [A B].
  assert (D : forall x, name_of m = Some x -> forall m', In m' l -> name_of m' <> Some x).
  { intros x NX m' I NX'. apply In_nth_error in I as (k & K). specialize (H 0%nat (S k) m m' x eq_refl K NX NX'). discriminate. }
  cbn [flat_map]. unfold name_of in D. destruct (src m) as [|p mt sz|p|fi mi] eqn:ES; cbn [app]; split; try assumption.
  - constructor; [|exact A]. intros I. apply in_flat_map in I as (m' & I & J). apply (D _ eq_refl m' I). destruct (src m'); cbn in J; try contradiction. destruct J as [<-|[]]. reflexivity.
  - constructor; [|exact B]. intros I. apply in_flat_map in I as (m' & I & J). apply (D _ eq_refl m' I). destruct (src m'); cbn in J; try contradiction. destruct J as [<-|[]]. reflexivity.
Qed.

(* ---- reloading ---- *)
Lemma same_places db db' fi mi mb mb' m : same_db db db' -> In m (msgs db) -> src m = S_mbox fi mi ->
  nth_error (mboxen db) (N.to_nat fi) = Some mb -> nth_error (mboxen db') (N.to_nat fi) = Some mb' ->
  forall a b, nth_error (starts mb) (N.to_nat mi) = Some a -> nth_error (lens mb) (N.to_nat mi) = Some b ->
  nth_error (starts mb') (N.to_nat mi) = Some a /\ nth_error (lens mb') (N.to_nat mi) = Some b.
Proof.
  intros (_ & _ & _ & HP & _) I ES EM EM' a b HA HB. specialize (HP m fi mi I ES). unfold place in HP. rewrite EM, EM', HA, HB in HP.
  destruct (nth_error (starts mb') (N.to_nat mi)), (nth_error (lens mb') (N.to_nat mi)); try discriminate. injection HP as -> ->. auto.
Qed.
Lemma reload_good h gm db db' : good h db -> same_db db db' -> word gm -> Forall level (mboxen db') -> (forall mb, In mb (mboxen db') -> c_mtime mb = gm /\ c_size mb = gm) ->
  Forall (index_table (h (hash_key db'))) (tabs db') -> index_table2 (h (hash_key db')) (d_ids db') -> good h db'.
Proof.
  intros [OK TI MA ON FE] SD WG HL HC IT II. pose proof SD as (EK & FM & FB & FP & FT & FI). pose proof (same_srcs _ _ FM) as ES. pose proof (same_count _ _ SD) as EN.
  constructor.
  - constructor.
    + rewrite EK. apply OK.
    + pose proof (ok_msgs _ _ OK) as F. apply Forall_forall. intros m I. apply In_nth_error in I as (k & K). destruct (F2_nth' _ _ _ FM k m K) as (m0 & K0 & X1 & X2 & X3 & X4 & X5 & X6).
      rewrite Forall_forall in F. destruct (F m0 (nth_error_In _ _ K0)) as (F1 & F2 & F3). unfold msg_storable. rewrite X1, X2. split; [intros ND; rewrite (X6 ND); auto|auto].
    + pose proof (ok_mboxen _ _ OK) as F. apply Forall_forall. intros mb I. destruct (HC mb I) as (C1 & C2). apply In_nth_error in I as (k & K). destruct (F2_nth' _ _ _ FB k mb K) as (mb0 & K0 & X1 & X2 & X3 & X4 & X5).
      rewrite Forall_forall in F. destruct (F mb0 (nth_error_In _ _ K0)) as (F1 & F2 & F3 & F4 & F5). unfold mbox_storable. rewrite X1, X4, X5, C1, C2. split; [exact F1|]. split; [exact WG|]. split; [exact WG|]. split.
      * rewrite firstn_length. lia.
      * rewrite <- (firstn_skipn (N.to_nat (mb_n mb0)) (checks mb0)) in F5. apply Forall_app in F5. apply F5.
    + intros b. rewrite (run_of_src b (msgs db) (msgs db') ES). apply OK.
    + intros m fi mi I SM. assert (IS : In (S_mbox fi mi) (map src (msgs db))) by (rewrite <- ES, <- SM; now apply in_map). apply in_map_iff in IS as (m0 & S0 & I0).
      destruct (ok_places _ _ OK m0 fi mi I0 S0) as (mb & st & ln & P1 & P2 & P3 & P4 & P5 & P6). destruct (F2_nth _ _ _ FB _ _ P1) as (mb' & P1' & X1 & X2 & X3 & X4 & X5).
      destruct (same_places db db' fi mi mb mb' m0 SD I0 S0 P1 P1' _ _ P3 P5) as (Q1 & Q2). exists mb', st, ln. rewrite X4. auto 10.
    + intros t It. rewrite Forall_forall in IT. split; [auto|]. intros w m I. destruct (index_table_distinct _ t (IT t It)) as (_ & _ & D). destruct (D w m I) as (ys & LY & _).
      apply In_nth_error in It as (k & K). destruct (F2_nth' _ _ _ FT k t K) as (t0 & K0 & SW). destruct (proj1 (SW w ys)) as (m0 & I0 & L0); [eauto|].
      destruct (ok_tabs _ _ OK t0 (nth_error_In _ _ K0)) as (_ & T). destruct (T w m0 I0) as (CS & xs & LX & NE & FX). assert (xs = ys) by (eapply L_Purge.lists_fun; eauto). subst xs.
      split; [exact CS|]. exists ys. rewrite EN. auto.
    + split; [exact II|]. intros w m0 m1 I. destruct (index_table2_distinct _ _ II) as (_ & _ & D). destruct (D w m0 m1 I) as (ys & zs & LY & LZ & _).
      destruct (proj1 (FI w ys zs)) as (n0 & n1 & I0 & L0 & L1); [eauto 6|]. destruct (proj2 (ok_ids _ _ OK) w n0 n1 I0) as (CS & xs & us & LX & NE & LU & FX & FU).
      assert (xs = ys) by (eapply L_Purge.lists_fun; eauto). assert (us = zs) by (eapply L_Purge.lists_fun; eauto). subst. split; [exact CS|]. exists ys, zs. rewrite EN. auto 10.
  - constructor; [|exact HL]. intros b mb' K. destruct (F2_nth' _ _ _ FB _ _ K) as (mb & K0 & X1 & X2 & X3 & X4 & X5). rewrite (run_of_src b (msgs db) (msgs db') ES), X4. now apply (ti_run _ TI).
  - apply (mailed_src db); auto. intros b mb' K. destruct (F2_nth' _ _ _ FB _ _ K) as (mb & K0 & X1 & _). eauto.
  - now apply (names_src db).
  - now rewrite EN.
Qed.
Definition gm_box (gm : N) (mb : mbox) : Prop := c_mtime mb = gm /\ c_size mb = gm.
Lemma load_mboxen_gm gm F r k : forall i mbs, load_mboxen gm F r k i = Ok mbs -> Forall (gm_box gm) mbs.
Proof.
  induction k as [|k IH]; intros i mbs; cbn [load_mboxen]; intros H; [apply Ok_inj in H; subst; constructor|].
  apply bind_ok in H as (mb & HM & H). ok H. apply Ok_inj in H. subst mbs. constructor; [|eapply IH; eauto].
  unfold load_mbox in HM. do 5 ok HM. destruct (0 <? int_of_u32 x4)%Z; [do 2 ok HM|]; apply Ok_inj in HM; subst mb; split; reflexivity.
Qed.
Lemma load_msg_gm gm F r i st m st' : load_msg F r i st = Ok (m, st') -> Forall (fun x => gm_box gm (fst x)) st -> Forall (fun x => gm_box gm (fst x)) st'.
Proof.
  unfold load_msg. intros H HL. ok H. apply bind_ok in H as ([s mbs'] & HS & H). do 2 ok H. apply Ok_inj in H. injection H as _ <-. clear - HS HL. rename HS into H0.
  destruct (N.land x 7) as [|p]; [apply Ok_inj in H0; injection H0 as _ <-; exact HL|].
  repeat match type of H0 with (match ?q with xI _ => _ | xO _ => _ | xH => _ end = _) => destruct q; try discriminate H0 end; repeat ok H0;
    try (apply Ok_inj in H0; injection H0 as _ <-; exact HL).
  match type of H0 with context [let '(_, _) := ?v in _] => destruct v as [mbi msgi] end. destruct (mbi <? N.of_nat (length st)); [|discriminate].
  destruct (nth_error st (N.to_nat mbi)) as [[mb so]|] eqn:E; [|discriminate]. destruct (negb (so =? msgi)); [discriminate|].
  destruct (N.of_nat (length (starts mb)) <=? so); [discriminate|]. do 2 ok H0. apply Ok_inj in H0. injection H0 as _ <-.
  apply Forall_set; [exact HL|]. rewrite Forall_forall in HL. exact (HL _ (nth_error_In _ _ E)).
Qed.
Lemma load_msgs_gm gm F r k : forall i st ms st', load_msgs F r k i st = Ok (ms, st') -> Forall (fun x => gm_box gm (fst x)) st -> Forall (fun x => gm_box gm (fst x)) st'.
Proof.
  induction k as [|k IH]; intros i st ms st'; cbn [load_msgs]; intros H HL; [apply Ok_inj in H; injection H as _ <-; exact HL|].
  apply bind_ok in H as ([m st1] & H1 & H). apply bind_ok in H as ([ms2 st2] & H2 & H). apply Ok_inj in H. injection H as _ <-.
  eapply IH; [exact H2|]. eapply load_msg_gm; eauto.
Qed.
Lemma load_gm h gi gm F db : load h gi gm F = Ok db -> forall mb, In mb (mboxen db) -> gm_box gm mb.
Proof.
  intros H. apply Forall_forall. unfold load in H. ok H. destruct (_ || _); [discriminate|]. ok H. apply bind_ok in H as ([ms mbs] & H2 & H). do 3 ok H.
  destruct x1 as [|? [|? [|? [|? [|? [|? [|? ?]]]]]]]; try discriminate. apply Ok_inj in H. subst db. cbn [mboxen].
  apply Forall_map. eapply load_msgs_gm; [exact H2|]. apply Forall_map. eapply load_mboxen_gm; eauto.
Qed.
(* Writing a good index and loading it gives a good one. *)
Lemma load_good h gi gm db old F : good h db -> file_len db < 2 ^ 31 -> write_database db old = Ok F -> (forall off, gi off < n_msgs db \/ n_msgs db = 0) -> word gm ->
  exists db', load h gi gm F = Ok db' /\ same_db db db' /\ good h db'.
Proof.
  intros G L EW GI WG. destruct (db_roundtrip h gi gm db old (gd_ok _ _ G) L GI) as (F' & db' & E & _ & EL & SD & IT & II). rewrite EW in E. injection E as <-.
  exists db'. split; [exact EL|]. split; [exact SD|]. apply (reload_good h gm db); auto; [eapply load_level; eauto|eapply load_gm; eauto].
Qed.

(* ---- purging ---- *)
Lemma cull_det checks idx db f1 f2 a b : cull_dead_messages f1 checks idx db = Ok a -> cull_dead_messages f2 checks idx db = Ok b -> a = b.
Proof.
  unfold cull_dead_messages. destruct (if checks then _ else _); [|discriminate]. cbn [bind]. intros H1 H2.
  do 7 (apply bind_ok in H1 as (? & ? & H1)). do 7 (apply bind_ok in H2 as (? & ? & H2)).
  repeat match goal with A : recode_table f1 ?r ?d ?t = Ok ?x, B : recode_table f2 ?r ?d ?t = Ok ?y |- _ => pose proof (recode_table_det r d t f1 f2 x y A B); subst y; clear B end.
  congruence.
Qed.
Lemma cull_msgs fuel checks idx db c db' h : db_ok h db -> mailed db -> cull_dead_messages fuel checks idx db = Ok (c, db') ->
  c = negb (forallb is_live (msgs db)) /\ msgs db' = map (move_box (mboxen db)) (filter is_live (msgs db)) /\ mboxen db' = filter has_path (mboxen db).
Proof.
  intros OK MA. unfold cull_dead_messages. intros H. do 8 (apply bind_ok in H as (? & ? & H)). apply bind_ok in H as (db2 & HC & H). apply Ok_inj in H. injection H as <- <-.
  rewrite cull_boxes_ok in HC by (exact (mailed_boxed h db OK MA)). apply Ok_inj in HC. subst db2. auto.
Qed.
Lemma purge_good h db checks idx fuel c db' : good h db -> cull_dead_messages fuel checks idx db = Ok (c, db') ->
  good h db' /\ purged db db' /\ c = negb (forallb is_live (msgs db)).
Proof.
  intros [OK TI MA ON FE] E. destruct (purge_ok h db checks idx OK FE MA (fun _ => once_paths db ON)) as (db1 & bound & EB & OK' & PU & MA' & _).
  pose proof (cull_det _ _ _ _ _ _ _ E (EB bound (le_n _))) as X. assert (db' = db1) by congruence. assert (c = negb (forallb is_live (msgs db))) by congruence. clear X. subst db1 c.
  destruct (cull_msgs _ _ _ _ _ _ h OK MA E) as (_ & EM & EX). split; [|auto]. constructor; auto.
  - pose proof (mailed_boxed h db OK MA) as HB. constructor.
    + intros b mb K. rewrite EX in K. rewrite EM. assert (L : b < count (map has_path (mboxen db))).
      { rewrite count_filter. assert (N.to_nat b < length (filter has_path (mboxen db)))%nat by (apply nth_error_Some; congruence). lia. }
      destruct (new_number_onto _ _ L) as (b0 & A & EN & _). pose proof A as A'. apply alive_nth in A as (mb0 & K0 & HP). subst b.
      fold (box_number (mboxen db) b0). rewrite run_move by auto. rewrite run_live. change (new_number (map has_path (mboxen db)) b0) with (box_number (mboxen db) b0) in K.
      pose proof (nth_filter has_path (mboxen db) b0 mb0 K0 HP) as K1. unfold box_number in K. rewrite K in K1. injection K1 as ->. now apply (ti_run _ TI).
    + rewrite EX. pose proof (ti_level _ TI) as F. apply Forall_forall. intros mb I. apply filter_In in I as [I _]. rewrite Forall_forall in F. auto.
  - assert (G : forall k m', nth_error (msgs db') k = Some m' -> exists i m, message db i = Some m /\ src m <> S_dead /\ N.of_nat k = new_number (liveness db) i /\ name_of m' = name_of m).
    { intros k m' K. destruct (pg_all _ _ PU (N.of_nat k) m') as (i & m & A & B & C); [unfold message; now rewrite Nat2N.id|]. exists i, m. split; [exact A|]. split; [exact B|]. split; [exact C|].
      destruct (pg_msgs _ _ PU i m A B) as (m2 & D & (_ & _ & _ & _ & _ & SM)). unfold message in D. rewrite <- C, Nat2N.id, K in D. injection D as <-.
      unfold name_of. destruct (src m); rewrite ?SM; try reflexivity. destruct SM as (? & ? & -> & _). reflexivity. }
    intros i j a b x A B NA NB. destruct (G i a A) as (i0 & a0 & A1 & A2 & A3 & A4). destruct (G j b B) as (j0 & b0 & B1 & B2 & B3 & B4).
    unfold message in A1, B1. assert (X : N.to_nat i0 = N.to_nat j0) by (apply (ON _ _ a0 b0 x A1 B1); congruence).
    assert (i0 = j0) by lia. subst. lia.
  - pose proof (pg_count _ _ PU) as C. unfold liveness in C. change (fun m => match src m with S_dead => false | _ => true end) with is_live in C. rewrite count_filter in C. rewrite C.
    unfold n_msgs in FE. assert (length (filter is_live (msgs db)) <= length (msgs db))%nat by (clear; induction (msgs db) as [|m l IH]; cbn; [lia|]; destruct (is_live m); cbn; lia). lia.
Qed.
