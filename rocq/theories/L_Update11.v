(* An indexing run from beginning to end. *)
From Coq Require Import Permutation Sorted.
From Verif Require Import Base M_Encoding M_TokTable S_TokTable M_DbFile S_DbFile M_Search S_Search M_Thread S_Thread M_Purge S_Purge M_Tokens S_Tokens M_Mbox S_Mbox M_Update S_Update
  L_TokTable L_Thread L_DbFile5 L_Purge L_Purge2 L_Thread2 L_Update L_Update2 L_Update3 L_Update4 L_Update5 L_Update6 L_Update7 L_Update8 L_Update9 L_Update10.
From Verif Require M_Paths.
Local Open Scope N_scope.

Record ran (W : world) (fast symlinks : bool) (fnd : list found) (paths : list bytes) (db : database) (boxes : list (mbox * scan))
    (in_db : list bool) (pruned : bool) (old added more : list msg) (mbs : list mbox) (db3 db' : database) : Prop := {
  ra_boxes : boxes_ok W symlinks paths db boxes;
  ra_steps : steps W fast (qsort message_compare fnd) boxes db in_db pruned old added more mbs db3;
  ra_same : same_but_threads db3 db';
  ra_ok : db_ok (w_hash W) db';
  ra_few : n_msgs db + N.of_nat (length fnd) + N.of_nat (chunk_count boxes) <= 63 * 2 ^ 24;
  ra_threads : (existsb negb in_db || any_chunks boxes = false /\ added = [] /\ more = [] /\ db' = db3) \/
    (existsb negb in_db || any_chunks boxes = true /\ (forall i j a b, message db' i = Some a -> message db' j = Some b -> tid a = tid b <-> connected db' i j) /\
     (forall a, In a (msgs db') -> tid a < n_msgs db') /\
     (forall a t, In a (msgs db') -> t <= tid a -> exists b, In b (msgs db') /\ tid b = t)) }.

Lemma same_refl db : same_but_threads db db.
Proof. repeat split. induction (msgs db); constructor; auto 10. Qed.
Lemma connected_ids db db' : d_ids db' = d_ids db -> connected db' = connected db.
Proof. intros E. unfold connected, mention_same. now rewrite E. Qed.
Lemma table_same db db' p : tabs db' = tabs db -> table db' p = table db p.
Proof. unfold tabs. intros E. injection E as E1 E2 E3 E4 E5 E6. destruct p; assumption. Qed.

Lemma run_main W fast symlinks fnd paths db : runnable W symlinks fnd paths db ->
  exists ch db' boxes in_db pruned old added more mbs db3, index_run W fast symlinks fnd paths db = Ok (ch, db') /\
    ran W fast symlinks fnd paths db boxes in_db pruned old added more mbs db3 db' /\
    ch = existsb negb in_db || any_chunks boxes || pruned.
Proof.
  intros RI. pose proof (ri_world _ _ _ _ _ RI) as WO. pose proof (ri_db _ _ _ _ _ RI) as OK.
  destruct (sorted_paths fnd) as (P & DU & SS). specialize (SS (ri_found _ _ _ _ _ RI)). pose proof (proj2 DU (ri_found _ _ _ _ _ RI)) as DU'.
  destruct (boxes_build W symlinks paths db WO OK (ri_tight _ _ _ _ _ RI) (ri_paths _ _ _ _ _ RI) (ri_stat _ _ _ _ _ RI)) as (boxes & EB & BX).
  pose proof (ri_few _ _ _ _ _ RI boxes EB) as FEW. fold (chunk_count boxes) in FEW.
  assert (SO : Forall (fun b => scan_ok W (fst b) (snd b)) boxes).
  { apply Forall_forall. intros [mb2 s] I. apply In_nth_error in I as (b & Eb). cbn [fst snd]. destruct (nth_error (mboxen db) b) as [mb|] eqn:EM.
    - destruct (bx_old _ _ _ _ _ BX b mb EM) as (mb2' & s' & E2 & AG). rewrite Eb in E2. injection E2 as <- <-. apply AG.
    - apply nth_error_None in EM. apply (bx_new _ _ _ _ _ BX b mb2 s EM Eb). }
  destruct (update_steps W fast (qsort message_compare fnd) boxes db WO SS (tabs_good_of W db OK) SO) as (in_db & pruned & old & added & more & mbs & db3 & ST & EU & EN).
  { intros m fi mi I ES. destruct (ok_places _ _ OK m fi mi I ES) as (mb & st & ln & EM & _). destruct (bx_old _ _ _ _ _ BX _ mb EM) as (mb2 & s & E2 & _). congruence. }
  { rewrite <- (Permutation_length P). exact FEW. }
  assert (OK3 := ok_after W fast symlinks fnd paths db RI boxes BX in_db pruned old added more mbs db3 ST).
  unfold index_run. rewrite DU', EB. cbn [bind]. rewrite EU. clear EU.
  destruct (existsb negb in_db || any_chunks boxes) eqn:EC.
  - destruct (thread_main db3 (ids_below_ok _ _ OK3)) as (db' & E & SB & T1 & T2 & T3). rewrite E. cbn [bind].
    exists (true || pruned), db', boxes, in_db, pruned, old, added, more, mbs, db3. split; [reflexivity|]. split; [|now rewrite EC].
    constructor; auto.
    + apply (threaded_ok _ db3 db' OK3); auto. unfold n_msgs. rewrite (st_msgs _ _ _ _ _ _ _ _ _ _ _ _ ST), !app_length, map_length.
      pose proof (Forall2_len _ _ _ (st_old _ _ _ _ _ _ _ _ _ _ _ _ ST)) as L1. pose proof (st_count _ _ _ _ _ _ _ _ _ _ _ _ ST) as L2.
      pose proof (new_entries_le W (qsort message_compare fnd) in_db) as L3. rewrite <- (st_added _ _ _ _ _ _ _ _ _ _ _ _ ST), <- (Permutation_length P) in L3. unfold n_msgs in FEW. lia.
    + right. rewrite (connected_ids db3 db'); [auto|]. apply SB.
  - cbn [bind]. exists (false || pruned), db3, boxes, in_db, pruned, old, added, more, mbs, db3. split; [reflexivity|]. split; [|now rewrite EC].
    constructor; auto using same_refl. left. destruct (EN eq_refl). auto.
Qed.

Lemma gitignore p : ends_gitignore p = true <-> hidden p.
Proof.
  unfold ends_gitignore, hidden. rewrite andb_true_iff, bytes_eqb_eq, Nat.ltb_lt. split.
  - intros [_ H]. exists (firstn (length p - 11) p). rewrite <- H. symmetry. apply firstn_skipn.
  - intros (q & ->). rewrite app_length. assert (L : length (bs "/.gitignore") = 11%nat) by reflexivity. rewrite L. split; [lia|].
    rewrite skipn_app. replace (length q + 11 - 11)%nat with (length q) by lia. rewrite skipn_all, Nat.sub_diag. reflexivity.
Qed.
Lemma parsed_says W db m r : is_found m -> parsed W m = Some r <-> says W db m r.
Proof.
  unfold is_found, parsed, make_rfc822. intros F. split.
  - destruct (src m) as [|p mt sz|p|fi mi] eqn:E; try contradiction; destruct (ends_gitignore p) eqn:G; try discriminate.
    + destruct (w_map W p) as [va| | |] eqn:EM; try discriminate. intros H. eapply Says_file; eauto. rewrite <- gitignore. congruence.
    + intros H. eapply Says_imap; eauto. rewrite <- gitignore. congruence.
  - intros [p mt sz va E H EM EP|p E H EP|fi mi mb p va st ln E]; rewrite E in *; [| |contradiction]; rewrite <- gitignore in H; destruct (ends_gitignore p); try congruence. now rewrite EM.
Qed.
Lemma place_says_iff W db m fi mi mb r : src m = S_mbox fi mi -> nth_error (mboxen db) (N.to_nat fi) = Some mb -> place_says W mb mi r <-> says W db m r.
Proof.
  intros E EM. split.
  - intros (p & va & st & ln & A & B & [C C'] & D & F). eapply Says_mbox; eauto.
  - intros [p mt sz va E' H|p E' H|fi' mi' mb' p va st ln E' EM' A B C C' D F]; try congruence. rewrite E in E'. injection E' as <- <-. rewrite EM in EM'. injection EM' as <-.
    exists p, va, st, ln. unfold at_place. auto.
Qed.

Section Ran.
Variable W : world.
Variables fast symlinks : bool.
Variable fnd : list found.
Variable paths : list bytes.
Variable db : database.
Variable boxes : list (mbox * scan).
Variable in_db : list bool.
Variable pruned : bool.
Variables old added more : list msg.
Variable mbs : list mbox.
Variables db3 db' : database.
Hypothesis RI : runnable W symlinks fnd paths db.
Hypothesis RA : ran W fast symlinks fnd paths db boxes in_db pruned old added more mbs db3 db'.
Let ST := ra_steps _ _ _ _ _ _ _ _ _ _ _ _ _ _ _ RA.
Let SB := ra_same _ _ _ _ _ _ _ _ _ _ _ _ _ _ _ RA.

Definition alike (a b : msg) : Prop := src b = src a /\ date b = date a /\ seen b = seen a /\ replied b = replied a /\ flagged b = flagged a.
Lemma back x b : message db' x = Some b -> exists a, nth_error (msgs db3) (N.to_nat x) = Some a /\ alike a b.
Proof. destruct SB as (_ & _ & _ & _ & F). intros E. destruct (Forall2_nth_r _ _ _ F _ _ E) as (a & A & B). eauto. Qed.
Lemma forth x a : nth_error (msgs db3) (N.to_nat x) = Some a -> exists b, message db' x = Some b /\ alike a b.
Proof. destruct SB as (_ & _ & _ & _ & F). intros E. destruct (Forall2_nth _ _ _ F _ _ E) as (b & A & B). eauto. Qed.
Lemma old_len : length old = length (msgs db).
Proof. symmetry. eapply Forall2_len. exact (st_old _ _ _ _ _ _ _ _ _ _ _ _ ST). Qed.

(* entry x of the new index *)
Lemma entry3 x a : nth_error (msgs db3) (N.to_nat x) = Some a <->
  (nth_error old (N.to_nat x) = Some a) \/
  (exists k m, x = n_msgs db + N.of_nat k /\ nth_error added k = Some m /\ a = scanned W m) \/
  (exists k, x = n_msgs db + N.of_nat (length added) + N.of_nat k /\ nth_error more k = Some a).
Proof.
  rewrite (st_msgs _ _ _ _ _ _ _ _ _ _ _ _ ST). unfold n_msgs. pose proof old_len as L. split.
  - intros E. destruct (Nat.lt_ge_cases (N.to_nat x) (length old)) as [H|H]; [left; now rewrite nth_error_app1 in E by lia|right].
    rewrite nth_error_app2 in E by lia. destruct (Nat.lt_ge_cases (N.to_nat x - length old) (length added)) as [H'|H']; [left|right].
    + rewrite nth_error_app1 in E by (rewrite map_length; lia). rewrite nth_error_map in E. destruct (nth_error added (N.to_nat x - length old)) as [m|] eqn:EM; [|discriminate].
      injection E as <-. exists (N.to_nat x - length old)%nat, m. split; [lia|]. auto.
    + rewrite nth_error_app2 in E by (rewrite map_length; lia). rewrite map_length in E. eexists. split; [|exact E]. lia.
  - intros [E|[(k & m & -> & E & ->)|(k & -> & E)]].
    + rewrite nth_error_app1; [exact E|]. apply nth_error_Some. congruence.
    + assert (k < length added)%nat by (apply nth_error_Some; congruence). rewrite nth_error_app2, nth_error_app1 by (rewrite ?map_length; lia).
      replace (N.to_nat (N.of_nat (length (msgs db)) + N.of_nat k) - length old)%nat with k by lia. now rewrite nth_error_map, E.
    + rewrite !nth_error_app2 by (rewrite ?map_length; lia). rewrite map_length. rewrite <- E. f_equal. lia.
Qed.
Lemma added_found m : In m added -> is_found m.
Proof.
  intros I. rewrite (st_added _ _ _ _ _ _ _ _ _ _ _ _ ST) in I.
  pose proof (new_entries_found W (qsort message_compare fnd) in_db (st_len _ _ _ _ _ _ _ _ _ _ _ _ ST)) as F. rewrite Forall_forall in F. auto.
Qed.
Lemma boxes_same : mboxen db' = mbs.
Proof. destruct SB as (E & _). rewrite E. exact (st_boxes _ _ _ _ _ _ _ _ _ _ _ _ ST). Qed.
Lemma more_box m : In m more -> exists fi mi mb, src m = S_mbox fi mi /\ nth_error mbs (N.to_nat fi) = Some mb.
Proof.
  intros I. destruct (adds_entry _ _ _ _ _ _ (st_adds _ _ _ _ _ _ _ _ _ _ _ _ ST) m I) as (n1 & t & mb2 & s & mb' & part & mi' & st & ln & p & va & A1 & A2 & A3 & A4 & A5 & _).
  exists (0 + N.of_nat t), mi', mb'. split; [exact A5|]. replace (N.to_nat (0 + N.of_nat t)) with t by lia. exact A2.
Qed.
Lemma says_src m m' r : src m' = src m -> says W db' m r -> says W db' m' r.
Proof. intros E [p mt sz va E' H|p E' H|fi' mi' mb' p va st ln E' EM' A B C C' D F]; rewrite <- E in E'; [eapply Says_file|eapply Says_imap|eapply Says_mbox]; eauto. Qed.

Lemma learnt_says x r : learnt W (n_msgs db) added more mbs x r <-> n_msgs db <= x /\ exists m', message db' x = Some m' /\ says W db' m' r.
Proof.
  split.
  - intros [(m & L & E & P)|(k & m & mb & fi & mi & E & -> & ES & EM & P)].
    + split; [exact L|]. destruct (forth x (scanned W m)) as (b & Eb & (S1 & _)).
      { apply entry3. right. left. exists (N.to_nat (x - n_msgs db)), m. split; [lia|]. auto. }
      exists b. split; [exact Eb|]. apply (says_src m); [rewrite S1; apply scanned_src|]. apply parsed_says; [|exact P]. apply added_found. eapply nth_error_In; exact E.
    + split; [lia|]. destruct (forth (n_msgs db + N.of_nat (length added) + N.of_nat k) m) as (b & Eb & (S1 & _)).
      { apply entry3. right. right. exists k. auto. }
      exists b. split; [exact Eb|]. apply (says_src m); [exact S1|]. rewrite <- boxes_same in EM. now apply (place_says_iff W db' m fi mi mb r ES EM).
  - intros (L & m' & E & S'). destruct (back x m' E) as (a & Ea & (S1 & _)). apply (says_src m' a r (eq_sym S1)) in S'.
    apply entry3 in Ea as [Ea|[(k & m & -> & Ea & ->)|(k & -> & Ea)]].
    + exfalso. assert (N.to_nat x < length old)%nat by (apply nth_error_Some; congruence). rewrite old_len in H. unfold n_msgs in L. lia.
    + left. exists m. split; [lia|]. split; [now replace (N.to_nat (n_msgs db + N.of_nat k - n_msgs db)) with k by lia|].
      apply (parsed_says W db'); [apply added_found; eapply nth_error_In; exact Ea|]. apply (says_src (scanned W m)); [symmetry; apply scanned_src|exact S'].
    + right. destruct (more_box a (nth_error_In _ _ Ea)) as (fi & mi & mb & ES & EM). exists k, a, mb, fi, mi. split; [exact Ea|]. split; [reflexivity|]. split; [exact ES|]. split; [exact EM|].
      rewrite <- boxes_same in EM. now apply (place_says_iff W db' a fi mi mb r ES EM).
Qed.

(* words *)
Lemma words_after p v x : recorded db' p v x <-> recorded db p v x \/ (n_msgs db <= x /\ exists m' r w, message db' x = Some m' /\ says W db' m' r /\ mentions (w_alnum W) r p w /\ v = lower w).
Proof.
  destruct SB as (_ & _ & ET & _ & _).
  assert (Q : recorded db' p v x <-> recorded db3 p v x) by (unfold recorded; now rewrite (table_same db3 db' p ET)).
  rewrite Q, (le_rec _ _ _ _ (st_learns _ _ _ _ _ _ _ _ _ _ _ _ ST)). apply or_iff_compat_l. split.
  - intros (r & w & H & R). apply learnt_says in H as (L & m' & A & B). split; [exact L|]. exists m', r, w. tauto.
  - intros (L & m' & r & w & A & B & R). exists r, w. split; [|exact R]. apply learnt_says. eauto.
Qed.
Lemma refs_after v x : refers db' v x <-> refers db v x \/ (n_msgs db <= x /\ exists m' r own w, message db' x = Some m' /\ says W db' m' r /\ carries r own w /\ v = lower w).
Proof.
  destruct SB as (_ & _ & _ & ET & _).
  assert (Q : refers db' v x <-> refers db3 v x) by (unfold refers; now rewrite ET).
  rewrite Q, (le_ref _ _ _ _ (st_learns _ _ _ _ _ _ _ _ _ _ _ _ ST)). apply or_iff_compat_l. split.
  - intros (r & own & w & H & R). apply learnt_says in H as (L & m' & A & B). split; [exact L|]. exists m', r, own, w. tauto.
  - intros (L & m' & r & own & w & A & B & R). exists r, own, w. split; [|exact R]. apply learnt_says. eauto.
Qed.
Lemma ids_after v x : has_id db' v x <-> has_id db v x \/ (n_msgs db <= x /\ exists m' r w, message db' x = Some m' /\ says W db' m' r /\ carries r true w /\ v = lower w).
Proof.
  destruct SB as (_ & _ & _ & ET & _).
  assert (Q : has_id db' v x <-> has_id db3 v x) by (unfold has_id; now rewrite ET).
  rewrite Q, (le_id _ _ _ _ (st_learns _ _ _ _ _ _ _ _ _ _ _ _ ST)). apply or_iff_compat_l. split.
  - intros (r & w & H & R). apply learnt_says in H as (L & m' & A & B). split; [exact L|]. exists m', r, w. tauto.
  - intros (L & m' & r & w & A & B & R). exists r, w. split; [|exact R]. apply learnt_says. eauto.
Qed.
End Ran.
