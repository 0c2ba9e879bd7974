(* What a run makes of each mailbox; dates and flags of new entries. *)
From Coq Require Import Permutation Sorted.
From Verif Require Import Base M_Encoding M_TokTable S_TokTable M_DbFile S_DbFile M_Search S_Search M_Thread S_Thread M_Purge S_Purge M_Tokens S_Tokens M_Mbox S_Mbox M_Update S_Update
  L_TokTable L_Thread L_DbFile5 L_Purge L_Purge2 L_Thread2 L_Mbox4 L_Update L_Update2 L_Update3 L_Update4 L_Update5 L_Update6 L_Update7 L_Update8 L_Update9 L_Update10 L_Update11 L_Update12 L_Update13.
From Verif Require M_Paths.
Local Open Scope N_scope.

(* flags in file names *)
Lemma flag_letters_ok p : forall s r f, flag_letters p (s, r, f) =
  (s || existsb (N.eqb (ch "S")) p, r || existsb (N.eqb (ch "R")) p, f || existsb (N.eqb (ch "F")) p).
Proof.
  induction p as [|c p IH]; intros s r f; cbn [flag_letters existsb]; [now rewrite !orb_false_r|].
  rewrite (N.eqb_sym (ch "S")), (N.eqb_sym (ch "R")), (N.eqb_sym (ch "F")).
  destruct (N.eqb_spec c (ch "F")) as [->|]; [rewrite IH; change (ch "F" =? ch "S") with false; change (ch "F" =? ch "R") with false; cbn [orb]; rewrite orb_true_r; reflexivity|].
  destruct (N.eqb_spec c (ch "R")) as [->|]; [rewrite IH; change (ch "R" =? ch "S") with false; cbn [orb]; rewrite orb_true_r; reflexivity|].
  destruct (N.eqb_spec c (ch "S")) as [->|]; rewrite IH; cbn [orb]; rewrite ?orb_true_r; reflexivity.
Qed.
Lemma last_colon_ok p : match last_colon p with
  | Some t => exists q u, p = q ++ t /\ t = ch ":" :: u /\ ~ In (ch ":") u
  | None => ~ In (ch ":") p end.
Proof.
  induction p as [|c p IH]; cbn [last_colon]; [intros []|]. destruct (last_colon p) as [t|].
  - destruct IH as (q & u & -> & E & N). exists (c :: q), u. auto.
  - destruct (N.eqb_spec c (ch ":")) as [->|NE]; [exists [], p; auto|]. intros [X|X]; auto.
Qed.
Lemma colon_unique q1 u1 q2 u2 : q1 ++ ch ":" :: u1 = q2 ++ ch ":" :: u2 -> ~ In (ch ":") u1 -> ~ In (ch ":") u2 -> u1 = u2.
Proof.
  revert q2. induction q1 as [|a q1 IH]; intros [|b q2] E N1 N2.
  - now injection E.
  - cbn in E. injection E as _ E. exfalso. apply N1. rewrite E. apply in_app_iff. right. now left.
  - cbn in E. injection E as _ E. exfalso. apply N2. rewrite <- E. apply in_app_iff. right. now left.
  - cbn in E. injection E as _ E. eapply IH; eauto.
Qed.
Lemma marked_colon p c : marked p c <-> exists q f, p = q ++ ch ":" :: ch "2" :: ch "," :: f /\ ~ In (ch ":") f /\ In c f.
Proof. reflexivity. Qed.
Lemma existsb_in c f : existsb (N.eqb c) f = true <-> In c f.
Proof. rewrite existsb_exists. split; [intros (x & I & E); apply N.eqb_eq in E; now subst|intros I; exists c; split; [exact I|apply N.eqb_refl]]. Qed.
Lemma flags_ok p : match scan_maildir_flags p with (s, r, f) =>
  (s = true <-> marked p (ch "S")) /\ (r = true <-> marked p (ch "R")) /\ (f = true <-> marked p (ch "F")) end.
Proof.
  unfold scan_maildir_flags. pose proof (last_colon_ok p) as H. destruct (last_colon p) as [t|].
  - destruct H as (q & u & -> & -> & NU). destruct (bytes_eqb (firstn 3 (ch ":" :: u)) (bs ":2,")) eqn:E.
    + apply bytes_eqb_eq in E. destruct u as [|a [|b u]]; try discriminate. cbn in E. injection E as -> ->. cbn [skipn]. rewrite flag_letters_ok. cbn [orb].
      assert (G : forall c, existsb (N.eqb c) u = true <-> marked (q ++ ch ":" :: 50 :: 44 :: u) c).
      { intros c. rewrite existsb_in, marked_colon. split.
        - intros I. exists q, u. split; [reflexivity|]. split; [|exact I]. intros X. apply NU. right. now right.
        - intros (q' & f & E & N & I). assert (X : 50 :: 44 :: u = ch "2" :: ch "," :: f).
          { eapply colon_unique; [exact E|exact NU|]. intros [X|[X|X]]; [discriminate X|discriminate X|auto]. }
          injection X as ->. exact I. }
      split; [apply G|]. split; apply G.
    + assert (G : forall c, false = true <-> marked (q ++ ch ":" :: u) c).
      { intros c. split; [discriminate|]. rewrite marked_colon. intros (q' & f & E' & N & I). assert (X : u = ch "2" :: ch "," :: f).
        { eapply colon_unique; [exact E'|exact NU|]. intros [X|[X|X]]; [discriminate X|discriminate X|auto]. }
        subst u. exfalso. assert (bytes_eqb (firstn 3 (ch ":" :: ch "2" :: ch "," :: f)) (bs ":2,") = true) by reflexivity. congruence. }
      split; [apply G|]. split; apply G.
  - assert (G : forall c, false = true <-> marked p c).
    { intros c. split; [discriminate|]. rewrite marked_colon. intros (q' & f & E' & N & I). exfalso. apply H. rewrite E'. apply in_app_iff. right. now left. }
    split; [apply G|]. split; apply G.
Qed.

Lemma run_meta W fast symlinks fnd paths db ch' db' : runnable W symlinks fnd paths db -> index_run W fast symlinks fnd paths db = Ok (ch', db') ->
  forall x m, n_msgs db <= x -> message db' x = Some m ->
  (forall h atts, says W db' m (Rfc822 h atts) -> date m = u32_of_int (h_date h) /\
    (forall p, (exists mt sz, src m = S_file p mt sz) \/ src m = S_imap p ->
      (seen m = true <-> marked p (ch "S")) /\ (replied m = true <-> marked p (ch "R")) /\ (flagged m = true <-> marked p (ch "F"))) /\
    (forall b mi, src m = S_mbox b mi -> seen m = h_seen h /\ replied m = h_replied h /\ flagged m = h_flagged h)) /\
  ((forall r, ~ says W db' m r) -> name_of m <> None -> date m = 0 /\ seen m = false /\ replied m = false /\ flagged m = false).
Proof.
  intros RI E x m' L EM. open RI E E' RA EC. pose proof (ra_steps _ _ _ _ _ _ _ _ _ _ _ _ _ _ _ RA) as ST.
  destruct (back _ _ _ _ _ _ _ _ _ _ _ _ _ _ _ RA x m' EM) as (a & Ea & (S1 & S2 & S3 & S4 & S5)).
  apply (entry3 _ _ _ _ _ _ _ _ _ _ _ _ _ _ _ RA) in Ea as [Ea|[(k & m & -> & Ea & ->)|(k & -> & Ea)]].
  - exfalso. assert (N.to_nat x < length old)%nat by (apply nth_error_Some; congruence). rewrite (old_len _ _ _ _ _ _ _ _ _ _ _ _ _ _ _ RA) in H. unfold n_msgs in L. lia.
  - pose proof (nth_error_In _ _ Ea) as IA. pose proof (added_found _ _ _ _ _ _ _ _ _ _ _ _ _ _ _ RA m IA) as FM.
    rewrite (st_added _ _ _ _ _ _ _ _ _ _ _ _ ST) in IA. destruct (scanned_src W m) as [SS _]. rewrite SS in S1.
    assert (PS : forall r, parsed W m = Some r <-> says W db' m' r).
    { intros r. rewrite (parsed_says W db' m r FM). split; intros H; eapply (says_src W db'); try exact H; congruence. }
    assert (NB : forall b mi, src m' <> S_mbox b mi) by (intros b mi X; rewrite S1 in X; unfold is_found in FM; rewrite X in FM; exact FM).
    split.
    + intros h atts SA. apply PS in SA. unfold scanned in S2, S3, S4, S5. rewrite SA in S2, S3, S4, S5. destruct (path_flags m) as [[s r] f] eqn:PF. cbn in S2, S3, S4, S5.
      split; [exact S2|]. split; [|intros b mi X; exfalso; eapply NB; eauto]. intros p HP.
      assert (PF' : scan_maildir_flags p = (s, r, f)) by (unfold path_flags in PF; rewrite <- S1 in PF; destruct HP as [(mt & sz & X)|X]; rewrite X in PF; exact PF).
      pose proof (flags_ok p) as G. rewrite PF' in G. rewrite S3, S4, S5. exact G.
    + intros NS _. assert (PN : parsed W m = None) by (destruct (parsed W m) as [r|] eqn:EP; [exfalso; eapply NS; apply PS; reflexivity|reflexivity]).
      unfold scanned in S2, S3, S4, S5. rewrite PN in S2, S3, S4, S5. rewrite S2, S3, S4, S5. clear -IA.
      revert IA. generalize (qsort message_compare fnd) as sp. intros sp. revert in_db. induction sp as [|f sp IH]; intros [|b l] I; cbn in I; try contradiction.
      apply in_app_iff in I as [I|I]; [|eauto]. destruct b; [contradiction|]. destruct (do_stat W f); try contradiction. destruct I as [<-|[]]. cbn. auto.
  - destruct (adds_entry _ _ _ _ _ _ (st_adds _ _ _ _ _ _ _ _ _ _ _ _ ST) a (nth_error_In _ _ Ea)) as (n1 & t & mb2 & s & mb' & part & mi' & st & ln & p & va & A1 & A2 & A3 & A4 & A5 & A6 & A7 & A8 & A9 & A10 & n2 & A11).
    assert (EB : nth_error (mboxen db') (N.to_nat (0 + N.of_nat t)) = Some mb').
    { rewrite (boxes_same _ _ _ _ _ _ _ _ _ _ _ _ _ _ _ RA). replace (N.to_nat (0 + N.of_nat t)) with t by lia. exact A2. }
    split.
    + intros h atts SA. rewrite A5 in S1. apply (place_says_iff W db' m' _ _ mb' _ S1 EB) in SA. destruct SA as (p' & va' & st' & ln' & B1 & B2 & B3 & B4 & B5).
      rewrite A8 in B1. injection B1 as <-. rewrite A9 in B2. injection B2 as <-. destruct A7 as [C1 C2], B3 as [C3 C4]. assert (st' = st) by congruence. assert (ln' = ln) by congruence. subst st' ln'.
      rewrite B5 in A11. cbn [entry_of] in A11. subst a. cbn in S2, S3, S4, S5. split; [exact S2|]. split; [|auto]. intros q [(mt & sz & X)|X]; rewrite S1 in X; discriminate.
    + intros _ X. exfalso. apply X. unfold name_of. rewrite S1, A5. reflexivity.
Qed.

Lemma run_mailboxes W fast symlinks fnd paths db ch db' : runnable W symlinks fnd paths db -> index_run W fast symlinks fnd paths db = Ok (ch, db') ->
  forall b mb' p, nth_error (mboxen db') b = Some mb' -> mb_path mb' = Some p ->
  exists link k, w_lstat W p = Some (link, c_mtime mb', c_size mb') /\ mb_path (was db b p) = Some p /\
    box_now W p (was db b p) (c_mtime mb') (c_size mb') mb' k /\
    forall i m mi, message db i = Some m -> src m = S_mbox (N.of_nat b) mi -> exists m', message db' i = Some m' /\ (src m' = src m <-> mi < k).
Proof.
  intros RI E b mb' p EB EP. open RI E E' RA EC. pose proof (ra_steps _ _ _ _ _ _ _ _ _ _ _ _ _ _ _ RA) as ST. pose proof (ra_boxes _ _ _ _ _ _ _ _ _ _ _ _ _ _ _ RA) as BX.
  rewrite (boxes_same _ _ _ _ _ _ _ _ _ _ _ _ _ _ _ RA) in EB.
  destruct (box_of W fast symlinks fnd paths db RI boxes BX in_db pruned old added more mbs db3 ST b mb' EB) as (mb2 & s & part & n1 & B1 & BP & _).
  assert (EP2 : mb_path mb2 = Some p) by (rewrite <- (bp_path _ _ _ _ _ _ _ BP); exact EP).
  assert (SA : mb_path (was db b p) = Some p /\ seen_as W p (was db b p) mb2 s).
  { unfold was. destruct (nth_error (mboxen db) b) as [mb|] eqn:EM.
    - destruct (bx_old _ _ _ _ _ BX b mb EM) as (mb2' & s' & E2 & AG). rewrite B1 in E2. injection E2 as <- <-. split; [apply (ag_path _ _ _ _ AG p EP2)|apply (ag_now _ _ _ _ AG p EP2)].
    - apply nth_error_None in EM. pose proof (bx_new _ _ _ _ _ BX b mb2 s EM B1) as BO. split; [reflexivity|apply (bo_now _ _ _ _ BO p EP2)]. }
  destruct SA as (WP & link & EL & LK). rewrite (bp_cm _ _ _ _ _ _ _ BP), (bp_cs _ _ _ _ _ _ _ BP). exists link, (old_valid s). split; [exact EL|]. split; [exact WP|]. split.
  - destruct LK as [L1 L2 L3 L4 L5 L6 L7 L8|L1 L2 L3 L4 L5|va L1 L2 L3 L4 L5 L6 L7 L8].
    + destruct (bp_same _ _ _ _ _ _ _ BP L8) as [-> _]. rewrite L7. apply Box_same; auto.
    + destruct (bp_same _ _ _ _ _ _ _ BP L5) as [-> _]. rewrite L4. apply Box_empty; auto.
    + destruct (bp_groups _ _ _ _ _ _ _ BP p va EP2 L2) as (places & G1 & G2 & G3). apply (Box_scanned W p _ _ _ _ va (old_valid s) (new_msgs s) places); auto.
      * rewrite (bp_n _ _ _ _ _ _ _ BP), L3, G2. reflexivity.
      * intros i Hi. rewrite <- L4, <- L5, <- L6. apply (bp_old _ _ _ _ _ _ _ BP i Hi).
      * intros i st ln Hi. destruct (G3 i st ln Hi) as [[X1 X2] X3]. replace (N.to_nat (old_valid s) + i)%nat with (N.to_nat (old_valid s + N.of_nat i)) by lia. auto.
  - intros i m mi EI ES. destruct (old_after _ _ _ _ _ _ _ _ _ _ _ _ _ _ _ RA i m EI) as (m' & A & _ & _ & _ & _ & G). exists m'. split; [exact A|].
    unfold kept in G. rewrite ES in G. rewrite Nat2N.id in G. destruct G as [[(mb0 & s0 & K1 & K2 & K3) G2]|[NK G2]].
    + rewrite B1 in K1. injection K1 as <- <-. rewrite ES. tauto.
    + split; [intros X; rewrite G2, ES in X; discriminate|]. intros X. exfalso. apply NK. exists mb2, s. split; [exact B1|]. split; [congruence|exact X].
Qed.
