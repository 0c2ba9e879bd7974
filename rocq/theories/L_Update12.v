(* What an indexing run does, as stated by the theorems. *)
From Coq Require Import Permutation Sorted.
From Verif Require Import Base M_Encoding M_TokTable S_TokTable M_DbFile S_DbFile M_Search S_Search M_Thread S_Thread M_Purge S_Purge M_Tokens S_Tokens M_Mbox S_Mbox M_Update S_Update
  L_TokTable L_Thread L_DbFile5 L_Purge L_Purge2 L_Thread2 L_Update L_Update2 L_Update3 L_Update4 L_Update5 L_Update6 L_Update7 L_Update8 L_Update9 L_Update10 L_Update11.
From Verif Require M_Paths.
Local Open Scope N_scope.

Lemma name_agrees W fast m x : agrees W fast m x -> name_of m = Some x.
Proof.
  unfold agrees, name_of. destruct x as [im p]. cbn. destruct (src m) as [|q mt sz|q|fi mi]; try contradiction.
  - intros (-> & <- & _). reflexivity.
  - intros (-> & <-). reflexivity.
Qed.
Lemma name_entry x mt sz : name_of (new_entry x mt sz) = Some x.
Proof. destruct x as [[|] p]; reflexivity. Qed.
Lemma name_scanned W m : name_of (scanned W m) = name_of m.
Proof. unfold name_of. now rewrite (proj1 (scanned_src W m)). Qed.
Lemma name_found m x : name_of m = Some x -> is_found m.
Proof. unfold name_of, is_found. destruct (src m); try discriminate; auto. Qed.

Lemma names_in W : forall sp in_db m x, In m (new_entries W sp in_db) -> name_of m = Some x -> In x sp.
Proof.
  induction sp as [|y sp IH]; intros [|b in_db] m x I E; cbn in I; try contradiction. apply in_app_iff in I as [I|I]; [|right; eapply IH; eauto].
  destruct b; [contradiction|]. destruct (do_stat W y); try contradiction. destruct I as [<-|[]]. rewrite name_entry in E. injection E as <-. now left.
Qed.
Lemma names_once W : forall sp in_db i j a b x, NoDup sp -> nth_error (new_entries W sp in_db) i = Some a -> nth_error (new_entries W sp in_db) j = Some b ->
  name_of a = Some x -> name_of b = Some x -> i = j.
Proof.
  induction sp as [|y sp IH]; intros [|b in_db] i j a c x ND EI EJ NA NC; cbn [new_entries] in EI, EJ; try (destruct i; discriminate).
  inversion ND as [|? ? NI ND']; subst. set (hd := if b then [] else _) in *.
  assert (H : hd = [] \/ exists e, hd = [e] /\ name_of e = Some y).
  { unfold hd. destruct b; [now left|]. destruct (do_stat W y); [now left| |now left]. right. eexists. split; [reflexivity|apply name_entry]. }
  clearbody hd. destruct H as [->|(e & -> & NE)]; [eapply IH; eauto|].
  destruct i as [|i], j as [|j]; cbn in EI, EJ; try reflexivity.
  - exfalso. injection EI as ->. apply nth_error_In in EJ. apply NI. rewrite NA in NE. injection NE as <-. eapply names_in; eauto.
  - exfalso. injection EJ as ->. apply nth_error_In in EI. apply NI. rewrite NC in NE. injection NE as <-. eapply names_in; eauto.
  - f_equal. eapply IH; eauto.
Qed.

Section Ran.
Variable W : world.
Variables fast symlinks : bool.
Variable fnd : list found.
Variable paths : list bytes.
Variable db : database.
Variable boxes : list (mbox * scan).
Variable in_db : list bool.
Variable pruned : bool.
Variables old added more : list msg.
Variable mbs : list mbox.
Variables db3 db' : database.
Hypothesis RI : runnable W symlinks fnd paths db.
Hypothesis RA : ran W fast symlinks fnd paths db boxes in_db pruned old added more mbs db3 db'.
Let ST := ra_steps _ _ _ _ _ _ _ _ _ _ _ _ _ _ _ RA.
Let SB := ra_same _ _ _ _ _ _ _ _ _ _ _ _ _ _ _ RA.
Let sp := qsort message_compare fnd.

Lemma in_sp x : In x sp <-> In x fnd.
Proof. split; apply Permutation_in; [symmetry|]; apply qsort_perm. Qed.
Lemma nodup_sp : NoDup sp.
Proof. eapply Permutation_NoDup; [apply qsort_perm|]. exact (ri_found _ _ _ _ _ RI). Qed.

(* old entries *)
Lemma old_after i m : message db i = Some m -> exists m', message db' i = Some m' /\ date m' = date m /\ seen m' = seen m /\ replied m' = replied m /\ flagged m' = flagged m /\
  ((kept W fast sp boxes m /\ src m' = src m) \/ (~ kept W fast sp boxes m /\ src m' = S_dead)).
Proof.
  intros E. destruct (Forall2_nth _ _ _ (st_old _ _ _ _ _ _ _ _ _ _ _ _ ST) _ _ E) as (a & Ea & H).
  destruct (forth _ _ _ _ _ _ _ _ _ _ _ _ _ _ _ RA i a) as (b & Eb & (S1 & S2 & S3 & S4 & S5)); [eapply entry3; eauto|].
  exists b. split; [exact Eb|]. rewrite S1, S2, S3, S4, S5. destruct H as [[K ->]|[K ->]]; cbn; auto 10.
Qed.
Lemma count_after : n_msgs db <= n_msgs db'.
Proof.
  destruct SB as (_ & _ & _ & _ & F). apply Forall2_len in F. unfold n_msgs. rewrite <- F, (st_msgs _ _ _ _ _ _ _ _ _ _ _ _ ST), app_length, (old_len _ _ _ _ _ _ _ _ _ _ _ _ _ _ _ RA). lia.
Qed.

Lemma src_in s : lists_src db' s <-> exists a, In a (msgs db3) /\ src a = s.
Proof.
  destruct SB as (_ & _ & _ & _ & F). unfold lists_src. split; intros (m & I & E); apply In_nth_error in I as (i & Ei).
  - destruct (Forall2_nth_r _ _ _ F _ _ Ei) as (a & A & (S1 & _)). exists a. split; [eapply nth_error_In; exact A|congruence].
  - destruct (Forall2_nth _ _ _ F _ _ Ei) as (a & A & (S1 & _)). exists a. split; [eapply nth_error_In; exact A|congruence].
Qed.
Lemma msgs3_in a : In a (msgs db3) <-> In a old \/ In a (map (scanned W) added) \/ In a more.
Proof. rewrite (st_msgs _ _ _ _ _ _ _ _ _ _ _ _ ST), !in_app_iff. tauto. Qed.
Lemma old_in s : s <> S_dead -> (exists a, In a old /\ src a = s) <-> exists m, In m (msgs db) /\ src m = s /\ kept W fast sp boxes m.
Proof.
  intros ND. pose proof (st_old _ _ _ _ _ _ _ _ _ _ _ _ ST) as F. split; intros (m & I & E); apply In_nth_error in I as (i & Ei).
  - destruct (Forall2_nth_r _ _ _ F _ _ Ei) as (a & A & [[K ->]|[K ->]]); [|cbn in E; congruence]. exists a. split; [eapply nth_error_In; exact A|auto].
  - destruct E as [E K]. destruct (Forall2_nth _ _ _ F _ _ Ei) as (a & A & [[_ ->]|[K' _]]); [|contradiction]. exists m. split; [eapply nth_error_In; exact A|auto].
Qed.
Lemma new_in a : In a (map (scanned W) added) -> exists k x mt sz, nth_error sp k = Some x /\ nth_error in_db k = Some false /\ do_stat W x = St_file mt sz /\ src a = src (new_entry x mt sz).
Proof.
  intros I. apply in_map_iff in I as (m & <- & I). rewrite (st_added _ _ _ _ _ _ _ _ _ _ _ _ ST) in I.
  apply (new_entries_in W sp in_db m (st_len _ _ _ _ _ _ _ _ _ _ _ _ ST)) in I as (k & x & mt & sz & A & B & C & ->). exists k, x, mt, sz. split; [exact A|]. split; [exact B|]. split; [exact C|apply scanned_src].
Qed.
Lemma new_there k x mt sz : nth_error sp k = Some x -> nth_error in_db k = Some false -> do_stat W x = St_file mt sz -> lists_src db' (src (new_entry x mt sz)).
Proof.
  intros A B C. apply src_in. exists (scanned W (new_entry x mt sz)). split; [|apply scanned_src]. apply msgs3_in. right. left. apply in_map.
  rewrite (st_added _ _ _ _ _ _ _ _ _ _ _ _ ST). apply (new_entries_in W sp in_db _ (st_len _ _ _ _ _ _ _ _ _ _ _ _ ST)). eauto 10.
Qed.
Lemma mark k x : nth_error sp k = Some x -> (nth_error in_db k = Some true /\ exists m, In m (msgs db) /\ agrees W fast m x) \/ (nth_error in_db k = Some false /\ ~ exists m, In m (msgs db) /\ agrees W fast m x).
Proof.
  intros E. pose proof (st_in_db _ _ _ _ _ _ _ _ _ _ _ _ ST k x E) as H. destruct (nth_error in_db k) as [[|]|] eqn:EB.
  - left. split; [reflexivity|]. now apply H.
  - right. split; [reflexivity|]. intros X. apply H in X. discriminate.
  - exfalso. apply nth_error_None in EB. rewrite (st_len _ _ _ _ _ _ _ _ _ _ _ _ ST) in EB. assert (k < length sp)%nat by (apply nth_error_Some; congruence). unfold sp in H0. lia.
Qed.
Lemma kept_there m x : In m (msgs db) -> In x sp -> agrees W fast m x -> lists_src db' (src m).
Proof.
  intros I IX A. apply src_in. assert (K : kept W fast sp boxes m).
  { unfold kept. assert (here W fast sp m) by (exists x; auto). unfold agrees in A. destruct (src m); auto; contradiction. }
  assert (ND : src m <> S_dead) by (intros X; unfold agrees in A; rewrite X in A; contradiction).
  destruct (proj2 (old_in (src m) ND)) as (a & B & C); [exists m; auto|]. exists a. split; [apply msgs3_in; auto|exact C].
Qed.
Lemma more_not a : In a more -> name_of a = None.
Proof. intros I. destruct (more_box _ _ _ _ _ _ _ _ _ _ _ _ _ _ _ RA a I) as (fi & mi & mb & E & _). unfold name_of. now rewrite E. Qed.

(* slow run *)
Lemma files_after : fast = false -> forall p mt, (exists sz, lists_src db' (S_file p mt sz)) <->
  In {| is_imap := false; fpath := p |} fnd /\ exists sz, w_stat W p = Some (M_Paths.K_reg, mt, sz).
Proof.
  intros FA p mt. split.
  - intros (sz & L). apply src_in in L as (a & I & E). apply msgs3_in in I as [I|[I|I]].
    + destruct (proj1 (old_in (S_file p mt sz) ltac:(discriminate))) as (m & IM & EM & K); [eauto|]. unfold kept in K. rewrite EM in K. destruct K as (x & IX & A). unfold agrees in A. rewrite EM in A.
      destruct A as (A1 & A2 & [A3|(s & A3)]); [congruence|]. split; [|eauto]. apply in_sp in IX. destruct x as [im q]. cbn in A1, A2. now subst.
    + destruct (new_in a I) as (k & [im q] & mt' & sz' & A & _ & C & D). rewrite E in D. destruct im; [discriminate|]. cbn in D. injection D as <- <- <-.
      split; [apply in_sp; eapply nth_error_In; exact A|]. unfold do_stat in C. cbn [is_imap fpath] in C. destruct (w_stat W p) as [[[[ | | ] mt'] sz']|]; try discriminate. injection C as -> ->. eauto.
    + apply more_not in I. unfold name_of in I. rewrite E in I. discriminate.
  - intros (I & sz & E). apply in_sp in I. apply In_nth_error in I as (k & Ek). destruct (mark k _ Ek) as [(_ & m & IM & A)|(B & _)].
    + assert (L := kept_there m _ IM (nth_error_In _ _ Ek) A). unfold agrees in A. destruct (src m) as [|q mt' sz'|q|? ?]; try contradiction; [|destruct A; discriminate].
      destruct A as (_ & A2 & [A3|(s & A3)]); [congruence|]. cbn in A2. subst q. rewrite E in A3. injection A3 as -> _. eauto.
    + exists sz. apply (new_there k _ mt sz Ek B). unfold do_stat. cbn. now rewrite E.
Qed.
Lemma files_fast : fast = true -> forall p, (exists mt sz, lists_src db' (S_file p mt sz)) <->
  In {| is_imap := false; fpath := p |} fnd /\ ((exists mt sz, lists_src db (S_file p mt sz)) \/ exists mt sz, w_stat W p = Some (M_Paths.K_reg, mt, sz)).
Proof.
  intros FA p. split.
  - intros (mt & sz & L). apply src_in in L as (a & I & E). apply msgs3_in in I as [I|[I|I]].
    + destruct (proj1 (old_in (S_file p mt sz) ltac:(discriminate))) as (m & IM & EM & K); [eauto|]. unfold kept in K. rewrite EM in K. destruct K as (x & IX & A). unfold agrees in A. rewrite EM in A.
      destruct A as (A1 & A2 & _). split; [|left; exists mt, sz, m; auto]. apply in_sp in IX. destruct x as [im q]. cbn in A1, A2. now subst.
    + destruct (new_in a I) as (k & [im q] & mt' & sz' & A & _ & C & D). rewrite E in D. destruct im; [discriminate|]. cbn in D. injection D as <- <- <-.
      split; [apply in_sp; eapply nth_error_In; exact A|]. right. unfold do_stat in C. cbn [is_imap fpath] in C. destruct (w_stat W p) as [[[[ | | ] mt'] sz']|]; try discriminate. injection C as -> ->. eauto.
    + apply more_not in I. unfold name_of in I. rewrite E in I. discriminate.
  - intros (I & H). apply in_sp in I. apply In_nth_error in I as (k & Ek). destruct (mark k _ Ek) as [(_ & m & IM & A)|(B & NO)].
    + assert (L := kept_there m _ IM (nth_error_In _ _ Ek) A). unfold agrees in A. destruct (src m) as [|q mt' sz'|q|? ?]; try contradiction; [|destruct A; discriminate].
      destruct A as (_ & A2 & _). cbn in A2. subst q. eauto.
    + destruct H as [(mt & sz & m & IM & E)|(mt & sz & E)].
      * exfalso. apply NO. exists m. split; [exact IM|]. unfold agrees. rewrite E. cbn. auto.
      * exists mt, sz. apply (new_there k _ mt sz Ek B). unfold do_stat. cbn. now rewrite E.
Qed.
Lemma imap_after p : lists_src db' (S_imap p) <-> In {| is_imap := true; fpath := p |} fnd.
Proof.
  split.
  - intros L. apply src_in in L as (a & I & E). apply msgs3_in in I as [I|[I|I]].
    + destruct (proj1 (old_in (S_imap p) ltac:(discriminate))) as (m & IM & EM & K); [eauto|]. unfold kept in K. rewrite EM in K. destruct K as (x & IX & A). unfold agrees in A. rewrite EM in A.
      destruct A as (A1 & A2). apply in_sp in IX. destruct x as [im q]. cbn in A1, A2. now subst.
    + destruct (new_in a I) as (k & [im q] & mt' & sz' & A & _ & C & D). rewrite E in D. destruct im; [|discriminate]. cbn in D. injection D as <-.
      apply in_sp. eapply nth_error_In; exact A.
    + apply more_not in I. unfold name_of in I. rewrite E in I. discriminate.
  - intros I. apply in_sp in I. apply In_nth_error in I as (k & Ek). destruct (mark k _ Ek) as [(_ & m & IM & A)|(B & NO)].
    + assert (L := kept_there m _ IM (nth_error_In _ _ Ek) A). unfold agrees in A. destruct (src m) as [|q mt' sz'|q|? ?]; try contradiction; [destruct A; discriminate|].
      destruct A as (_ & A2). cbn in A2. now subst q.
    + exact (new_there k _ 0 0 Ek B eq_refl).
Qed.
Lemma once_after : each_once db -> each_once db'.
Proof.
  intros EO.
  assert (Q : forall i a x, nth_error (msgs db') i = Some a -> name_of a = Some x ->
     (exists m, nth_error (msgs db) i = Some m /\ name_of m = Some x /\ In m (msgs db) /\ agrees W fast m x) \/
     (exists k m, i = (length (msgs db) + k)%nat /\ nth_error added k = Some m /\ name_of m = Some x)).
  { intros i a x E NA. destruct (back _ _ _ _ _ _ _ _ _ _ _ _ _ _ _ RA (N.of_nat i) a) as (a3 & E3 & (S1 & _)); [unfold message; now rewrite Nat2N.id|].
    assert (N3 : name_of a3 = Some x) by (unfold name_of in *; now rewrite S1 in NA). clear NA S1 E.
    eapply entry3 in E3; [|exact RA]. destruct E3 as [E3|[(k & m & EK & E3 & ->)|(k & EK & E3)]].
    - left. rewrite Nat2N.id in E3. destruct (Forall2_nth_r _ _ _ (st_old _ _ _ _ _ _ _ _ _ _ _ _ ST) _ _ E3) as (m & Em & [[K ->]|[K ->]]); [|discriminate].
      exists m. split; [exact Em|]. split; [exact N3|]. split; [eapply nth_error_In; exact Em|]. unfold kept in K. unfold name_of in N3.
      assert (H : here W fast sp m) by (destruct (src m); try discriminate; exact K). destruct H as (y & _ & A). assert (NY := name_agrees _ _ _ _ A). unfold name_of in NY. rewrite N3 in NY. injection NY as <-. exact A.
    - right. exists k, m. split; [unfold n_msgs in EK; lia|]. split; [exact E3|]. now rewrite name_scanned in N3.
    - exfalso. apply nth_error_In in E3. apply more_not in E3. congruence. }
  assert (X : forall m k m' x, In m (msgs db) -> agrees W fast m x -> nth_error added k = Some m' -> name_of m' = Some x -> False).
  { intros m k m' x IM A EK NM. rewrite (st_added _ _ _ _ _ _ _ _ _ _ _ _ ST) in EK. apply nth_error_In in EK.
    apply (new_entries_in W sp in_db m' (st_len _ _ _ _ _ _ _ _ _ _ _ _ ST)) in EK as (n & y & mt & sz & A1 & B & C & ->). rewrite name_entry in NM. injection NM as ->.
    destruct (mark n x A1) as [(B' & _)|(_ & NO)]; [congruence|]. apply NO. eauto. }
  intros i j a b x Ei Ej NA NB. destruct (Q i a x Ei NA) as [(m & Q1 & Q2 & Q3 & Q4)|(k & m & Q1 & Q2 & Q3)]; destruct (Q j b x Ej NB) as [(m' & R1 & R2 & R3 & R4)|(k' & m' & R1 & R2 & R3)].
  - exact (EO i j m m' x Q1 R1 Q2 R2).
  - exfalso. exact (X m k' m' x Q3 Q4 R2 R3).
  - exfalso. exact (X m' k m x R3 R4 Q2 Q3).
  - rewrite Q1, R1. f_equal. rewrite (st_added _ _ _ _ _ _ _ _ _ _ _ _ ST) in Q2, R2. exact (names_once W sp in_db k k' m m' x nodup_sp Q2 R2 Q3 R3).
Qed.

(* mailboxes *)
Lemma box_paths p : (exists mb, In mb (mboxen db') /\ mb_path mb = Some p) <-> exists mb2 s, In (mb2, s) boxes /\ mb_path mb2 = Some p.
Proof.
  rewrite (boxes_same _ _ _ _ _ _ _ _ _ _ _ _ _ _ _ RA). destruct (adds_nth _ _ _ _ _ _ (st_adds _ _ _ _ _ _ _ _ _ _ _ _ ST)) as (LM & _ & AN). split.
  - intros (mb & I & E). apply In_nth_error in I as (t & Et). destruct (nth_error boxes t) as [[mb2 s]|] eqn:EB; [|apply nth_error_None in EB; assert (t < length mbs)%nat by (apply nth_error_Some; congruence); lia].
    destruct (AN t mb2 s EB) as (mb' & part & n1 & E1 & BP & _). rewrite Et in E1. injection E1 as <-. exists mb2, s. split; [eapply nth_error_In; exact EB|]. rewrite <- E. symmetry. apply BP.
  - intros (mb2 & s & I & E). apply In_nth_error in I as (t & Et). destruct (AN t mb2 s Et) as (mb' & part & n1 & E1 & BP & _). exists mb'. split; [eapply nth_error_In; exact E1|]. rewrite <- E. apply BP.
Qed.
Lemma mailed_run : mailed db'.
Proof.
  intros m fi mi mb I ES EM. assert (L : lists_src db' (S_mbox fi mi)) by (exists m; auto). apply src_in in L as (a & IA & EA).
  destruct (mailed_after W fast symlinks fnd paths db RI boxes (ra_boxes _ _ _ _ _ _ _ _ _ _ _ _ _ _ _ RA) in_db pruned old added more mbs db3 ST a fi mi IA EA) as (mb' & st & ln & E & _ & P & _).
  rewrite (boxes_same _ _ _ _ _ _ _ _ _ _ _ _ _ _ _ RA), E in EM. injection EM as <-. exact P.
Qed.
Lemma runs_same b : run_of b (msgs db') = run_of b (msgs db3).
Proof.
  destruct SB as (_ & _ & _ & _ & F). clear - F. unfold run_of. induction F as [|a c l l' (S1 & _) F IH]; [reflexivity|]. cbn. now rewrite S1, IH.
Qed.
Lemma tight_run : (forall mb, In mb (mboxen db) -> ~ shrunk W mb) -> tight db'.
Proof.
  intros NS. destruct (tight_after W fast symlinks fnd paths db RI boxes (ra_boxes _ _ _ _ _ _ _ _ _ _ _ _ _ _ _ RA) in_db pruned old added more mbs db3 ST) as (H & L).
  destruct SB as (EB & _). constructor; rewrite EB; [|exact L]. intros b mb E. rewrite runs_same. destruct (H b mb E) as [X|(mb0 & E0 & S0)]; [exact X|]. exfalso. exact (NS mb0 (nth_error_In _ _ E0) S0).
Qed.
Lemma unchanged : existsb negb in_db || any_chunks boxes || pruned = false ->
  msgs db' = msgs db /\ forall m fi mi mb mb', In m (msgs db) -> src m = S_mbox fi mi -> nth_error (mboxen db) (N.to_nat fi) = Some mb -> nth_error (mboxen db') (N.to_nat fi) = Some mb' ->
    mb_path mb' = mb_path mb /\ starts mb' = starts mb /\ lens mb' = lens mb /\ checks mb' = checks mb.
Proof.
  intros H. apply orb_false_iff in H as [H1 HP]. 
  assert (K : forall m, In m (msgs db) -> kept W fast sp boxes m \/ ~ kept W fast sp boxes m).
  { intros m I. apply In_nth_error in I as (i & Ei). destruct (Forall2_nth _ _ _ (st_old _ _ _ _ _ _ _ _ _ _ _ _ ST) _ _ Ei) as (a & _ & [[K _]|[K _]]); auto. }
  assert (KA : forall m, In m (msgs db) -> kept W fast sp boxes m).
  { intros m I. destruct (K m I) as [?|NK]; [assumption|]. exfalso. assert (pruned = true) by (apply (st_pruned _ _ _ _ _ _ _ _ _ _ _ _ ST); eauto). congruence. }
  assert (EO : old = msgs db).
  { pose proof (st_old _ _ _ _ _ _ _ _ _ _ _ _ ST) as F. clear - F KA. fold sp in F. induction F as [|a b l l' H F IH]; [reflexivity|]. f_equal; [|apply IH; intros; apply KA; now right].
    destruct H as [[_ ->]|[NK _]]; [reflexivity|]. exfalso. apply NK. apply KA. now left. }
  destruct (ra_threads _ _ _ _ _ _ _ _ _ _ _ _ _ _ _ RA) as [(_ & EA & EM & E')|(X & _)]; [|congruence].
  apply orb_false_iff in H1 as [_ H3]. destruct (no_chunks _ _ _ _ _ _ (st_adds _ _ _ _ _ _ _ _ _ _ _ _ ST) H3) as [_ EB].
  split; [rewrite E', (st_msgs _ _ _ _ _ _ _ _ _ _ _ _ ST), EO, EA, EM; cbn; now rewrite !app_nil_r|].
  intros m fi mi mb mb' I ES EMB EMB'. specialize (KA m I). unfold kept in KA. rewrite ES in KA. destruct KA as (mb2 & s & E2 & NP & LT).
  destruct (bx_old _ _ _ _ _ (ra_boxes _ _ _ _ _ _ _ _ _ _ _ _ _ _ _ RA) _ _ EMB) as (mb2' & s' & E2' & AG). rewrite E2 in E2'. injection E2' as <- <-.
  rewrite (boxes_same _ _ _ _ _ _ _ _ _ _ _ _ _ _ _ RA), EB, nth_error_map, E2 in EMB'. injection EMB' as <-. cbn [fst].
  split; [|apply (ag_same _ _ _ _ AG); lia]. destruct (mb_path mb2) as [q|] eqn:EQ; [|congruence]. symmetry. now apply AG.
Qed.
Lemma words_unchanged : existsb negb in_db || any_chunks boxes || pruned = false -> forall p v x, recorded db' p v x <-> recorded db p v x.
Proof.
  intros H p v x. destruct (unchanged H) as [EM _]. rewrite (words_after _ _ _ _ _ _ _ _ _ _ _ _ _ _ _ RA). split; [|now left]. intros [A|(L & m' & r & w & E & _)]; [exact A|].
  exfalso. unfold message in E. rewrite EM in E. assert (N.to_nat x < length (msgs db))%nat by (apply nth_error_Some; congruence). unfold n_msgs in L. lia.
Qed.
End Ran.
