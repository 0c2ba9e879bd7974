(* The main lemma about an indexing run. *)
From Coq Require Import Permutation Sorted.
From Verif Require Import Base M_Encoding M_TokTable S_TokTable M_DbFile S_DbFile M_Search S_Search M_Thread S_Thread M_Purge S_Purge M_Tokens S_Tokens M_Mbox S_Mbox M_Update S_Update
  L_Thread L_DbFile5 L_Purge L_Thread2 L_Update L_Update2 L_Update3 L_Update4 L_Update5 L_Update6 L_Update7 L_Update8 L_Update9.
From Verif Require M_Paths.
Local Open Scope N_scope.

Lemma tabs_good_of W db : db_ok (w_hash W) db -> tabs_good W (n_msgs db) db.
Proof.
  intros OK. constructor.
  - intros p. assert (I : In (table db p) (tabs db)) by (destruct p; cbn; auto 10). exact (ok_tabs _ _ OK _ I).
  - exact (ok_ids _ _ OK).
Qed.
Lemma u32_word z : word (u32_of_int z).
Proof. unfold word, u32_of_int. assert (0 <= z mod 2 ^ 32 < 2 ^ 32)%Z by (apply Z.mod_pos_bound; reflexivity). lia. Qed.
Lemma scanned_src W m : src (scanned W m) = src m /\ tid (scanned W m) = tid m.
Proof. unfold scanned. destruct (parsed W m) as [[h a]|]; [|auto]. unfold with_flags. now destruct (path_flags m) as [[? ?] ?]. Qed.
Lemma scanned_date W m : word (date m) -> word (date (scanned W m)).
Proof. intros H. unfold scanned. destruct (parsed W m) as [[h a]|]; [|exact H]. unfold with_flags. destruct (path_flags m) as [[? ?] ?]. apply u32_word. Qed.
Lemma entry_words W n fi mi o : world_ok W -> word (date (entry_of W n fi mi o)) /\ word (tid (entry_of W n fi mi o)).
Proof. intros WO. destruct (wo_junk W WO n) as [A B]. destruct o as [[h a]|]; cbn; auto using u32_word. Qed.

Lemma seq_join a b : map N.of_nat (seq 0 a) ++ map N.of_nat (seq a b) = map N.of_nat (seq 0 (a + b)).
Proof. rewrite <- map_app. f_equal. now rewrite seq_app. Qed.

Section Main.
Variable W : world.
Variables fast symlinks : bool.
Variable fnd : list found.
Variable paths : list bytes.
Variable db : database.
Hypothesis RI : runnable W symlinks fnd paths db.
Variable boxes : list (mbox * scan).
Hypothesis BX : boxes_ok W symlinks paths db boxes.
Variable in_db : list bool.
Variable pruned : bool.
Variables old added more : list msg.
Variable mbs : list mbox.
Variable db3 : database.
Let sp := qsort message_compare fnd.
Hypothesis ST : steps W fast sp boxes db in_db pruned old added more mbs db3.

Let WO := ri_world _ _ _ _ _ RI.
Let OK := ri_db _ _ _ _ _ RI.

Lemma box_of b mb' : nth_error mbs b = Some mb' -> exists mb2 s part n1, nth_error boxes b = Some (mb2, s) /\ box_post W n1 (N.of_nat b) mb2 s mb' part /\
  scan_ok W mb2 s /\ (mb_path mb2 = None -> old_valid s = 0) /\ word (c_mtime mb2) /\ word (c_size mb2) /\ (forall p, mb_path mb2 = Some p -> c_string p) /\
  run_of (N.of_nat b) old = map N.of_nat (seq 0 (N.to_nat (old_valid s))) /\
  run_of (N.of_nat b) (msgs db3) = map N.of_nat (seq 0 (N.to_nat (old_valid s) + length part)) /\
  (new_msgs s = [] -> old_valid s < mb_n mb2 -> exists mb, nth_error (mboxen db) b = Some mb /\ shrunk W mb).
Proof.
  intros E. destruct (adds_nth _ _ _ _ _ _ (st_adds _ _ _ _ _ _ _ _ _ _ _ _ ST)) as (LM & _ & AN).
  destruct (nth_error boxes b) as [[mb2 s]|] eqn:EB; [|apply nth_error_None in EB; assert (b < length mbs)%nat by (apply nth_error_Some; congruence); lia].
  destruct (AN b mb2 s EB) as (mb1 & part & n1 & E1 & BP & R). rewrite E in E1. injection E1 as <-. replace (0 + N.of_nat b) with (N.of_nat b) in * by lia.
  exists mb2, s, part, n1. split; [reflexivity|]. split; [exact BP|].
  assert (FI : run_of (N.of_nat b) (map (scanned W) added) = []).
  { apply run_of_none. intros m fi mi I. apply in_map_iff in I as (m0 & <- & I). rewrite (proj1 (scanned_src W m0)). rewrite (st_added _ _ _ _ _ _ _ _ _ _ _ _ ST) in I.
    pose proof (new_entries_found W sp in_db (st_len _ _ _ _ _ _ _ _ _ _ _ _ ST)) as F. rewrite Forall_forall in F. specialize (F m0 I). unfold is_found in F. intros X. rewrite X in F. contradiction. }
  assert (EB' : nth_error boxes (N.to_nat (N.of_nat b)) = Some (mb2, s)) by now rewrite Nat2N.id.
  assert (Q : scan_ok W mb2 s /\ (mb_path mb2 = None -> old_valid s = 0) /\ word (c_mtime mb2) /\ word (c_size mb2) /\ (forall p, mb_path mb2 = Some p -> c_string p) /\
     run_of (N.of_nat b) (msgs db) = map N.of_nat (seq 0 (Nat.max (N.to_nat (old_valid s)) (length (run_of (N.of_nat b) (msgs db))))) /\ (new_msgs s = [] -> old_valid s < mb_n mb2 -> exists mb, nth_error (mboxen db) b = Some mb /\ shrunk W mb)).
  { destruct (nth_error (mboxen db) b) as [mb|] eqn:EM.
    - destruct (bx_old _ _ _ _ _ BX b mb EM) as (mb2' & s' & E2 & AG). rewrite EB in E2. injection E2 as <- <-.
      split; [apply AG|]. split; [apply AG|]. destruct (ag_word _ _ _ _ AG) as [Wa Wb]. split; [exact Wa|]. split; [exact Wb|]. split.
      + intros p EP. apply (ag_path _ _ _ _ AG) in EP. pose proof (ok_mboxen _ _ OK) as F. rewrite Forall_forall in F. destruct (F mb (nth_error_In _ _ EM)) as (H & _). now apply H.
      + assert (EM' : nth_error (mboxen db) (N.to_nat (N.of_nat b)) = Some mb) by now rewrite Nat2N.id.
        rewrite (ti_run db (ri_tight _ _ _ _ _ RI) _ _ EM'). rewrite map_length, seq_length. pose proof (ag_le _ _ _ _ AG) as LE. split; [f_equal; f_equal; lia|].
        intros A B. exists mb. split; [reflexivity|]. now apply (ag_gap _ _ _ _ AG).
    - apply nth_error_None in EM. pose proof (bx_new _ _ _ _ _ BX b mb2 s EM EB) as BO. split; [apply BO|]. destruct (bo_zero _ _ _ _ BO) as [Z1 Z2]. split; [auto|].
      destruct (bo_word _ _ _ _ BO) as [Wa Wb]. split; [exact Wa|]. split; [exact Wb|]. split.
      + intros p EP. apply (bo_path _ _ _ _ BO) in EP. pose proof (ri_strings _ _ _ _ _ RI) as F. rewrite Forall_forall in F. auto.
      + assert (RN : run_of (N.of_nat b) (msgs db) = []).
        { apply run_of_none. intros m fi mi I E' ->. destruct (ok_places _ _ OK m _ _ I E') as (mb & st & ln & X & _). rewrite Nat2N.id in X. assert (b < length (mboxen db))%nat by (apply nth_error_Some; congruence). lia. }
        rewrite RN, Z1. split; [reflexivity|]. rewrite Z2. lia. }
  destruct Q as (Q1 & Q2 & Q3 & Q4 & Q5 & Q6 & Q7). split; [exact Q1|]. split; [exact Q2|]. split; [exact Q3|]. split; [exact Q4|]. split; [exact Q5|].
  assert (RO : run_of (N.of_nat b) old = map N.of_nat (seq 0 (N.to_nat (old_valid s)))).
  { rewrite (run_of_weeded W fast sp boxes (N.of_nat b) mb2 s (msgs db) old (st_old _ _ _ _ _ _ _ _ _ _ _ _ ST) EB' Q2). rewrite Q6, filter_seq. f_equal. f_equal. lia. }
  split; [exact RO|]. split; [|exact Q7].
  rewrite (st_msgs _ _ _ _ _ _ _ _ _ _ _ _ ST), !run_of_app, FI, R, RO. cbn [app]. apply seq_join.
Qed.

Lemma old_entry i m' : nth_error old i = Some m' -> exists m, nth_error (msgs db) i = Some m /\ weeded W fast sp boxes m m'.
Proof. intros E. exact (Forall2_nth_r _ _ _ (st_old _ _ _ _ _ _ _ _ _ _ _ _ ST) i m' E). Qed.

Lemma mailed_after : forall m fi mi, In m (msgs db3) -> src m = S_mbox fi mi -> exists mb' st ln, nth_error mbs (N.to_nat fi) = Some mb' /\ mi < mb_n mb' /\ mb_path mb' <> None /\
  at_place mb' mi st ln /\ word st /\ word ln.
Proof.
  intros m fi mi I ES. destruct (adds_nth _ _ _ _ _ _ (st_adds _ _ _ _ _ _ _ _ _ _ _ _ ST)) as (LM & _ & AN).
  rewrite (st_msgs _ _ _ _ _ _ _ _ _ _ _ _ ST), !in_app_iff in I. destruct I as [I|[I|I]].
  - apply In_nth_error in I as (i & Ei). destruct (old_entry i m Ei) as (m0 & E0 & [[K ->]|[K ->]]); [|discriminate]. unfold kept in K. rewrite ES in K.
    destruct K as (mb2 & s & EB & NP & LT). destruct (AN (N.to_nat fi) mb2 s EB) as (mb' & part & n1 & E1 & BP & _). exists mb'.
    destruct (ok_places _ _ OK m0 fi mi (nth_error_In _ _ E0) ES) as (mb & st & ln & EM & LE & A & WA & B & WB).
    destruct (bx_old _ _ _ _ _ BX (N.to_nat fi) mb EM) as (mb2' & s' & E2 & AG). rewrite EB in E2. injection E2 as <- <-.
    exists st, ln. split; [exact E1|]. split.
    + rewrite (bp_n _ _ _ _ _ _ _ BP). pose proof (so_le _ _ _ (ag_scan _ _ _ _ AG)). destruct (new_msgs s); lia.
    + split; [rewrite (bp_path _ _ _ _ _ _ _ BP); exact NP|]. destruct (ag_same _ _ _ _ AG ltac:(lia)) as (S1 & S2 & S3). destruct (bp_old _ _ _ _ _ _ _ BP mi LT) as (O1 & O2 & _).
      split; [unfold at_place; rewrite O1, O2, S1, S2; auto|auto].
  - exfalso. apply in_map_iff in I as (m0 & <- & I). rewrite (proj1 (scanned_src W m0)) in ES. rewrite (st_added _ _ _ _ _ _ _ _ _ _ _ _ ST) in I.
    pose proof (new_entries_found W sp in_db (st_len _ _ _ _ _ _ _ _ _ _ _ _ ST)) as F. rewrite Forall_forall in F. specialize (F m0 I). unfold is_found in F. rewrite ES in F. contradiction.
  - destruct (adds_entry _ _ _ _ _ _ (st_adds _ _ _ _ _ _ _ _ _ _ _ _ ST) m I) as (n1 & t & mb2 & s & mb' & part & mi' & st & ln & p & va & A1 & A2 & A3 & A4 & A5 & A6 & A7 & A8 & A9 & A10 & _).
    rewrite ES in A5. injection A5 as -> ->. exists mb', st, ln. replace (N.to_nat (0 + N.of_nat t)) with t by lia. split; [exact A2|]. split; [lia|]. split; [congruence|]. split; [exact A7|].
    pose proof (wo_map W WO p va A9) as WV. unfold word in *. lia.
Qed.

Lemma ok_after : db_ok (w_hash W) db3.
Proof.
  pose proof (st_learns _ _ _ _ _ _ _ _ _ _ _ _ ST) as LE. pose proof (st_tabs _ _ _ _ _ _ _ _ _ _ _ _ ST) as TG. constructor.
  - rewrite (le_key _ _ _ _ LE). exact (ok_key _ _ OK).
  - rewrite (st_msgs _ _ _ _ _ _ _ _ _ _ _ _ ST). apply Forall_app. split; [|apply Forall_app; split].
    + pose proof (ok_msgs _ _ OK) as F. rewrite Forall_forall in *. intros m I. apply In_nth_error in I as (i & Ei). destruct (old_entry i m Ei) as (m0 & E0 & H).
      specialize (F m0 (nth_error_In _ _ E0)). destruct H as [[_ ->]|[_ ->]]; [exact F|]. destruct F as (F1 & F2 & _). split; [cbn; congruence|]. split; [exact F2|exact I].
    + apply Forall_forall. intros m I. apply in_map_iff in I as (m0 & <- & I). rewrite (st_added _ _ _ _ _ _ _ _ _ _ _ _ ST) in I.
      apply (new_entries_in W sp in_db m0 (st_len _ _ _ _ _ _ _ _ _ _ _ _ ST)) in I as (k & x & mt & sz & A & _ & D & ->).
      destruct (scanned_src W (new_entry x mt sz)) as [S1 S2]. split; [intros _; apply scanned_date; cbn; reflexivity|]. split; [rewrite S2; cbn; reflexivity|]. rewrite S1.
      assert (CS : c_string (fpath x)). { pose proof (ri_names _ _ _ _ _ RI) as F. rewrite Forall_forall in F. apply F. apply (Permutation_in _ (Permutation_sym (qsort_perm message_compare fnd))). eapply nth_error_In; exact A. }
      cbn [new_entry src]. destruct (is_imap x) eqn:EI; [exact CS|]. split; [exact CS|]. unfold do_stat in D. rewrite EI in D.
      destruct (w_stat W (fpath x)) as [[[[ | | ] mt'] sz']|] eqn:EW; try discriminate. injection D as -> ->. exact (wo_stat W WO _ _ _ _ EW).
    + apply Forall_forall. intros m I. destruct (adds_entry _ _ _ _ _ _ (st_adds _ _ _ _ _ _ _ _ _ _ _ _ ST) m I) as (n1 & t & mb2 & s & mb' & part & mi' & st & ln & p & va & A1 & A2 & A3 & A4 & A5 & A6 & A7 & A8 & A9 & A10 & n2 & A11).
      rewrite A11. destruct (entry_words W n2 (0 + N.of_nat t) mi' (fst (w_parse W (text_at va st ln))) WO). split; [intros _; assumption|]. split; [assumption|]. now rewrite entry_src.
  - rewrite (st_boxes _ _ _ _ _ _ _ _ _ _ _ _ ST). apply Forall_forall. intros mb' I. apply In_nth_error in I as (b & Eb). destruct (box_of b mb' Eb) as (mb2 & s & part & n1 & Q1 & BP & Q2 & Q3 & Q4 & Q5 & Q6 & Q7 & Q8 & Q9).
    split; [intros p; rewrite (bp_path _ _ _ _ _ _ _ BP); apply Q6|]. rewrite (bp_cm _ _ _ _ _ _ _ BP), (bp_cs _ _ _ _ _ _ _ BP). split; [exact Q4|]. split; [exact Q5|]. split; [|apply BP].
    destruct (bp_level _ _ _ _ _ _ _ BP) as [_ L2]. rewrite L2. exact (bp_len _ _ _ _ _ _ _ BP).
  - intros b. destruct (nth_error mbs (N.to_nat b)) as [mb'|] eqn:E.
    + destruct (box_of _ _ E) as (mb2 & s & part & n1 & _ & _ & _ & _ & _ & _ & _ & _ & R & _). rewrite N2Nat.id in R. eauto.
    + exists O. cbn. apply run_of_none. intros m fi mi I ES ->. destruct (mailed_after m b mi I ES) as (mb' & st & ln & X & _). congruence.
  - intros m fi mi I ES. destruct (mailed_after m fi mi I ES) as (mb' & st & ln & A & B & _ & [C D] & F & G). rewrite (st_boxes _ _ _ _ _ _ _ _ _ _ _ _ ST). exists mb', st, ln. auto 10.
  - intros t I. destruct TG as [TG _]. assert (H : exists p, t = table db3 p).
    { cbn in I. destruct I as [<-|[<-|[<-|[<-|[<-|[<-|[]]]]]]]; [exists To|exists Cc|exists From_|exists Subject|exists Body|exists Attachment]; reflexivity. }
    destruct H as [p ->]. exact (TG p).
  - destruct TG as [_ TG]. exact TG.
Qed.

Lemma tight_after : (forall b mb', nth_error (mboxen db3) (N.to_nat b) = Some mb' ->
    run_of b (msgs db3) = map N.of_nat (seq 0 (N.to_nat (mb_n mb'))) \/ exists mb, nth_error (mboxen db) (N.to_nat b) = Some mb /\ shrunk W mb) /\
  Forall level (mboxen db3).
Proof.
  rewrite (st_boxes _ _ _ _ _ _ _ _ _ _ _ _ ST). split.
  - intros b mb' E. destruct (box_of _ _ E) as (mb2 & s & part & n1 & Q1 & BP & Q2 & Q3 & Q4 & Q5 & Q6 & Q7 & R & G). rewrite N2Nat.id in R. rewrite R. clear R.
    rewrite (bp_n _ _ _ _ _ _ _ BP). destruct (new_msgs s) as [|c cs] eqn:EN.
    + destruct (bp_same _ _ _ _ _ _ _ BP EN) as [-> ->]. pose proof (so_le _ _ _ Q2) as LE. destruct (N.eq_dec (old_valid s) (mb_n mb2)) as [EQ|NE].
      * left. f_equal. f_equal. cbn [length]. lia.
      * right. apply (G eq_refl). lia.
    + left. f_equal. f_equal. lia.
  - apply Forall_forall. intros mb' I. apply In_nth_error in I as (b & Eb). destruct (box_of b mb' Eb) as (mb2 & s & part & n1 & _ & BP & _). apply BP.
Qed.
End Main.
