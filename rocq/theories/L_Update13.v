(* The statements of the theorems about indexing runs, and an example. *)
From Coq Require Import Permutation Sorted.
From Verif Require Import Base M_Encoding M_TokTable S_TokTable M_DbFile S_DbFile M_Search S_Search M_Thread S_Thread M_Purge S_Purge M_Tokens S_Tokens M_Mbox S_Mbox M_Update S_Update
  L_TokTable L_Thread L_DbFile5 L_Purge L_Purge2 L_Thread2 L_Mbox4 L_Update L_Update2 L_Update3 L_Update4 L_Update5 L_Update6 L_Update7 L_Update8 L_Update9 L_Update10 L_Update11 L_Update12.
From Verif Require M_Paths.
From Verif Require Import L_Search6.
Local Open Scope N_scope.

Lemma run_ok W fast symlinks fnd paths db : runnable W symlinks fnd paths db -> exists ch db', index_run W fast symlinks fnd paths db = Ok (ch, db') /\
  db_ok (w_hash W) db' /\ mailed db' /\ ((forall mb, In mb (mboxen db) -> ~ shrunk W mb) -> tight db') /\ (each_once db -> each_once db').
Proof.
  intros RI. destruct (run_main W fast symlinks fnd paths db RI) as (ch & db' & boxes & in_db & pruned & old & added & more & mbs & db3 & E & RA & _).
  exists ch, db'. split; [exact E|]. split; [apply RA|]. split; [eapply mailed_run; eauto|]. split; [eapply tight_run; eauto|eapply once_after; eauto].
Qed.
Ltac open RI E E' RA EC := match type of RI with runnable ?W ?sl ?fnd ?paths ?db => match type of E with index_run _ ?fast _ _ _ _ = _ =>
  let ch := fresh in let db' := fresh in
  destruct (run_main W fast sl fnd paths db RI) as (ch & db' & boxes & in_db & pruned & old & added & more & mbs & db3 & E' & RA & EC);
  rewrite E in E'; injection E' as <- <- end end.
Lemma run_files W symlinks fnd paths db ch db' : runnable W symlinks fnd paths db -> index_run W false symlinks fnd paths db = Ok (ch, db') ->
  forall p mt, (exists sz, lists_src db' (S_file p mt sz)) <-> In {| is_imap := false; fpath := p |} fnd /\ exists sz, w_stat W p = Some (M_Paths.K_reg, mt, sz).
Proof. intros RI E. open RI E E' RA EC. eapply files_after; eauto. Qed.
Lemma run_fast W symlinks fnd paths db ch db' : runnable W symlinks fnd paths db -> index_run W true symlinks fnd paths db = Ok (ch, db') ->
  forall p, (exists mt sz, lists_src db' (S_file p mt sz)) <-> In {| is_imap := false; fpath := p |} fnd /\
    ((exists mt sz, lists_src db (S_file p mt sz)) \/ exists mt sz, w_stat W p = Some (M_Paths.K_reg, mt, sz)).
Proof. intros RI E. open RI E E' RA EC. eapply files_fast; eauto. Qed.
Lemma run_imap W fast symlinks fnd paths db ch db' : runnable W symlinks fnd paths db -> index_run W fast symlinks fnd paths db = Ok (ch, db') ->
  forall p, lists_src db' (S_imap p) <-> In {| is_imap := true; fpath := p |} fnd.
Proof. intros RI E. open RI E E' RA EC. eapply imap_after; eauto. Qed.
Lemma run_once W fast symlinks fnd paths db ch db' : runnable W symlinks fnd paths db -> index_run W fast symlinks fnd paths db = Ok (ch, db') -> each_once db -> each_once db'.
Proof. intros RI E. open RI E E' RA EC. eapply once_after; eauto. Qed.
Lemma run_boxes W fast symlinks fnd paths db ch db' : runnable W symlinks fnd paths db -> index_run W fast symlinks fnd paths db = Ok (ch, db') ->
  (forall p, In p paths -> w_map W p <> Map_failed) ->
  forall p, (exists mb, In mb (mboxen db') /\ mb_path mb = Some p) <-> eligible W symlinks paths p.
Proof. intros RI E NF p. open RI E E' RA EC. rewrite (box_paths _ _ _ _ _ _ _ _ _ _ _ _ _ _ _ RA). apply (bx_paths _ _ _ _ _ (ra_boxes _ _ _ _ _ _ _ _ _ _ _ _ _ _ _ RA) NF). Qed.

Lemma run_old W fast symlinks fnd paths db ch db' : runnable W symlinks fnd paths db -> index_run W fast symlinks fnd paths db = Ok (ch, db') ->
  n_msgs db <= n_msgs db' /\ forall i m, message db i = Some m -> exists m', message db' i = Some m' /\
    (src m' = src m \/ src m' = S_dead) /\ date m' = date m /\ seen m' = seen m /\ replied m' = replied m /\ flagged m' = flagged m /\
    (forall x, name_of m = Some x -> src m' = src m <-> exists y, In y fnd /\ agrees W fast m y).
Proof.
  intros RI E. open RI E E' RA EC. split; [eapply count_after; eauto|]. intros i m EM.
  destruct (old_after _ _ _ _ _ _ _ _ _ _ _ _ _ _ _ RA i m EM) as (m' & A & B & C & D & F & G). exists m'. split; [exact A|].
  split; [destruct G as [[_ ->]|[_ ->]]; auto|]. split; [exact B|]. split; [exact C|]. split; [exact D|]. split; [exact F|].
  intros x NX. assert (H : here W fast (qsort message_compare fnd) m <-> exists y, In y fnd /\ agrees W fast m y).
  { unfold here. split; intros (y & I & AG); exists y; (split; [now apply (in_sp fnd)|exact AG]). }
  rewrite <- H. assert (K : kept W fast (qsort message_compare fnd) boxes m <-> here W fast (qsort message_compare fnd) m).
  { unfold kept. unfold name_of in NX. destruct (src m); try discriminate; tauto. }
  destruct G as [[G1 G2]|[G1 G2]]; [tauto|]. split; [|intros X; exfalso; tauto]. intros X. exfalso. rewrite G2 in X. unfold name_of in NX. rewrite <- X in NX. discriminate.
Qed.
Lemma run_words W fast symlinks fnd paths db ch db' : runnable W symlinks fnd paths db -> index_run W fast symlinks fnd paths db = Ok (ch, db') -> forall x,
  (x < n_msgs db -> (forall p v, recorded db' p v x <-> recorded db p v x) /\ (forall v, has_id db' v x <-> has_id db v x) /\ (forall v, refers db' v x <-> refers db v x)) /\
  (n_msgs db <= x -> forall m, message db' x = Some m ->
    (forall p v, recorded db' p v x <-> exists r w, says W db' m r /\ mentions (w_alnum W) r p w /\ v = lower w) /\
    (forall v, has_id db' v x <-> exists r w, says W db' m r /\ carries r true w /\ v = lower w) /\
    (forall v, refers db' v x <-> exists r own w, says W db' m r /\ carries r own w /\ v = lower w)).
Proof.
  intros RI E x. open RI E E' RA EC. pose proof (ri_db _ _ _ _ _ RI) as OK.
  assert (NR : forall p v, n_msgs db <= x -> ~ recorded db p v x).
  { intros p v L (m & xs & I & LI & IX). pose proof (tg_tab _ _ _ (tabs_good_of W db OK) p) as T. destruct T as [_ T]. destruct (T v m I) as (_ & ys & LY & _ & F).
    assert (ys = xs) by (eapply lists_fun; eauto). subst ys. rewrite Forall_forall in F. specialize (F x IX). lia. }
  assert (NI : forall v, n_msgs db <= x -> ~ has_id db v x /\ ~ refers db v x).
  { intros v L. destruct (ok_ids _ _ OK) as [_ T]. split.
    - intros (m0 & m1 & xs & I & LI & IX). destruct (T v m0 m1 I) as (_ & us & ys & LU & _ & LY & FU & FY). assert (ys = xs) by (eapply lists_fun; eauto). subst ys. rewrite Forall_forall in FY. specialize (FY x IX). lia.
    - intros (m0 & m1 & xs & I & LI & IX). destruct (T v m0 m1 I) as (_ & us & ys & LU & _ & LY & FU & FY). assert (us = xs) by (eapply lists_fun; eauto). subst us. rewrite Forall_forall in FU. specialize (FU x IX). lia. }
  split.
  - intros L. split; [|split]; intros.
    + rewrite (words_after _ _ _ _ _ _ _ _ _ _ _ _ _ _ _ RA). split; [intros [A|[A _]]; [exact A|lia]|now left].
    + rewrite (ids_after _ _ _ _ _ _ _ _ _ _ _ _ _ _ _ RA). split; [intros [A|[A _]]; [exact A|lia]|now left].
    + rewrite (refs_after _ _ _ _ _ _ _ _ _ _ _ _ _ _ _ RA). split; [intros [A|[A _]]; [exact A|lia]|now left].
  - intros L m EM. split; [|split].
    + intros p v. rewrite (words_after _ _ _ _ _ _ _ _ _ _ _ _ _ _ _ RA). split.
      * intros [A|(_ & m' & r & w & A & B)]; [exfalso; eapply NR; eauto|]. rewrite EM in A. injection A as <-. eauto.
      * intros (r & w & A & B & C). right. split; [exact L|]. exists m, r, w. auto.
    + intros v. rewrite (ids_after _ _ _ _ _ _ _ _ _ _ _ _ _ _ _ RA). split.
      * intros [A|(_ & m' & r & w & A & B)]; [exact (False_ind _ (proj1 (NI v L) A))|]. rewrite EM in A. injection A as <-. eauto.
      * intros (r & w & A & B & C). right. split; [exact L|]. exists m, r, w. auto.
    + intros v. rewrite (refs_after _ _ _ _ _ _ _ _ _ _ _ _ _ _ _ RA). split.
      * intros [A|(_ & m' & r & own & w & A & B)]; [exact (False_ind _ (proj2 (NI v L) A))|]. rewrite EM in A. injection A as <-. eauto.
      * intros (r & own & w & A & B & C). right. split; [exact L|]. exists m, r, own, w. auto.
Qed.
Lemma run_unchanged W fast symlinks fnd paths db db' : runnable W symlinks fnd paths db -> index_run W fast symlinks fnd paths db = Ok (false, db') ->
  msgs db' = msgs db /\ (forall p v x, recorded db' p v x <-> recorded db p v x) /\
  forall m fi mi mb mb', In m (msgs db) -> src m = S_mbox fi mi -> nth_error (mboxen db) (N.to_nat fi) = Some mb -> nth_error (mboxen db') (N.to_nat fi) = Some mb' ->
    mb_path mb' = mb_path mb /\ starts mb' = starts mb /\ lens mb' = lens mb /\ checks mb' = checks mb.
Proof.
  intros RI E. open RI E E' RA EC. symmetry in EC. split; [eapply unchanged; eauto|]. split; [eapply words_unchanged; eauto|]. eapply unchanged; eauto.
Qed.
Lemma run_threads W fast symlinks fnd paths db ch db' : runnable W symlinks fnd paths db -> index_run W fast symlinks fnd paths db = Ok (ch, db') ->
  n_msgs db < n_msgs db' ->
  (forall i j a b, message db' i = Some a -> message db' j = Some b -> tid a = tid b <-> connected db' i j) /\
  (forall a, In a (msgs db') -> tid a < n_msgs db').
Proof.
  intros RI E L. open RI E E' RA EC. destruct (ra_threads _ _ _ _ _ _ _ _ _ _ _ _ _ _ _ RA) as [(_ & -> & -> & ->)|(_ & A & B & _)]; [|auto].
  exfalso. unfold n_msgs in L. rewrite (st_msgs _ _ _ _ _ _ _ _ _ _ _ _ (ra_steps _ _ _ _ _ _ _ _ _ _ _ _ _ _ _ RA)), app_length, (old_len _ _ _ _ _ _ _ _ _ _ _ _ _ _ _ RA) in L. cbn in L. lia.
Qed.

(* the empty index *)
Lemma new_ok h key : word key -> db_ok h (new_database key) /\ tight (new_database key) /\ each_once (new_database key).
Proof.
  intros K. split; [|split].
  - constructor; cbn [new_database hash_key msgs mboxen tabs d_ids d_to d_cc d_from d_subject d_body d_att]; auto.
    + intros b. exists O. reflexivity.
    + intros m fi mi [].
    + intros t I. assert (t = new_toktable) by (cbn in I; intuition). subst t. split; [apply IT_new|]. intros w m [].
    + split; [apply IT2_new|]. intros w m0 m1 [].
  - constructor; [|constructor]. intros b mb E. cbn in E. destruct (N.to_nat b); discriminate.
  - intros [|i] j a b x E; discriminate.
Qed.
Lemma new_empty key p v x : ~ recorded (new_database key) p v x.
Proof. intros (m & xs & I & _). destruct p; exact I. Qed.

Lemma fresh_search sd W fast symlinks fnd paths key c0 db' old F r p w :
  runnable W symlinks fnd paths (new_database key) -> index_run W fast symlinks fnd paths (new_database key) = Ok (c0, db') ->
  write_database db' old = Ok F -> open_db F = Ok r ->
  w <> [] -> Forall plain w -> (forall c s, w = c :: s -> c <> ch "~" /\ c <> ch "^") ->
  exists l, search sd F r false [part_key p ++ bs ":" ++ w] = Ok l /\
    forall i, In i l <-> exists m rf w', message db' i = Some m /\ says W db' m rf /\ mentions (w_alnum W) rf p w' /\ lower w' = lower w.
Proof.
  intros RI E EW EO NE PW HW. destruct (run_ok W fast symlinks fnd paths _ RI) as (c1 & db1 & E1 & OK & _). rewrite E in E1. injection E1 as <- <-.
  destruct (word_main sd (w_hash W) db' old F r p w OK EW EO NE PW HW) as (l & EL & HL). exists l. split; [exact EL|]. intros i. rewrite HL.
  destruct (run_words W fast symlinks fnd paths _ _ _ RI E i) as [_ HN]. specialize (HN (N.le_0_l i)). split.
  - intros ((m & EM & _) & R). apply (HN m EM) in R as (rf & w' & A & B & C). exists m, rf, w'. auto.
  - intros (m & rf & w' & EM & A & B & C). split.
    + exists m. split; [exact EM|]. intros X. destruct A; congruence.
    + apply (HN m EM). eauto.
Qed.

(* ---- an example ---- *)
Definition clean (t : bytes) : bytes := filter (fun c => (0 <? c) && (c <? 256)) t.
(* A message whose whole text is its subject and its Message-ID header. *)
Definition ex_parse (t : bytes) : option rfc822 * bool :=
  (Some (Rfc822 {| h_to := None; h_cc := None; h_from := None; h_subject := Some (clean t); h_message_id := Some (clean t); h_in_reply_to := None; h_references := None;
     h_seen := false; h_replied := false; h_flagged := false; h_date := Z.of_nat (length t) |} []), false).
Definition lookup {A} (p : bytes) (l : list (bytes * A)) : option A := option_map snd (find (fun e => bytes_eqb (fst e) p) l).
(* Files with their modification times and contents; message texts on the server. *)
Definition ex_world (files : list (bytes * (N * bytes))) (server : list (bytes * bytes)) : world := {|
  w_alnum := isalnum; w_hash := L_DbFile7.ex_h; w_from_ok := ex_from_ok;
  w_csum := fun t => firstn 16 (t ++ repeat 0 16);
  w_parse := ex_parse;
  w_stat := fun p => match lookup p files with Some (mt, t) => Some (M_Paths.K_reg, u32 mt, u32 (N.of_nat (length t))) | None => None end;
  w_lstat := fun p => match lookup p files with Some (mt, t) => Some (false, u32 mt, u32 (N.of_nat (length t))) | None => None end;
  w_map := fun p => match lookup p files with Some (_, []) => Map_empty | Some (_, t) => if N.of_nat (length t) <? 2 ^ 32 then Mapped t else Map_failed | None => Map_failed end;
  w_imap := fun p => match lookup p server with Some t => fst (ex_parse t) | None => None end;
  w_junk_msg := fun _ => {| src := S_dead; date := 99; tid := 0; seen := true; replied := false; flagged := false |};
  w_junk_sum := repeat 0 16 |}.

Lemma clean_ok t : c_string (clean t).
Proof. apply Forall_forall. intros c I. apply filter_In in I as [_ I]. apply andb_true_iff in I as [A B]. unfold c_char. split; [now apply N.ltb_lt|now apply N.ltb_lt]. Qed.
Lemma angled_in s ws : angled s ws -> forall P, Forall P s -> forall w, In w ws -> Forall P w.
Proof.
  induction 1 as [|a w b ws H1 H2 A IH]; intros P F x I; [contradiction|]. apply Forall_app in F as [_ F]. inversion F as [|? ? _ F']; subst. apply Forall_app in F' as [F1 F2]. inversion F2; subst.
  destruct I as [<-|I]; [exact F1|eapply IH; eauto].
Qed.
Lemma run_sub good s w : is_run good s w -> forall P, Forall P s -> Forall P w.
Proof. intros (k & a & b & -> & _) P F. apply Forall_app in F as [_ F]. now apply Forall_app in F as [F _]. Qed.
Lemma ex_textual t r : fst (ex_parse t) = Some r -> textual isalnum r.
Proof.
  unfold ex_parse. cbn [fst]. intros E. injection E as <-. split.
  - intros p w H. inversion H as [? ? ? ? ? Q R|? ? ? ? Q R| | | |]; subst; try contradiction.
    + destruct Q as [[_ X]|[[_ X]|[_ X]]]; discriminate.
    + cbn in Q. injection Q as <-. eapply run_sub; eauto. apply clean_ok.
  - intros own w H. inversion H as [? ? ? ? ? Q R|? ? ? ? ? Q R|]; subst; try contradiction.
    + cbn in Q. injection Q as <-. eapply angled_in; eauto. apply clean_ok.
    + cbn in Q. destruct Q; discriminate.
Qed.
Lemma u32_is_word x : word (u32 x).
Proof. unfold word, u32. apply N.mod_lt. discriminate. Qed.
Lemma ex_world_ok files server : world_ok (ex_world files server).
Proof.
  constructor; cbn.
  - reflexivity.
  - reflexivity.
  - apply ex_textual.
  - intros p r. destruct (lookup p server); [|discriminate]. apply ex_textual.
  - intros t. change (length (firstn 16 (t ++ repeat 0 16)) = 16%nat). rewrite firstn_length, app_length, repeat_length. lia.
  - intros p k mt sz. destruct (lookup p files) as [[m t]|]; [|discriminate]. intros [= <- <- <-]. split; apply u32_is_word.
  - intros p k mt sz. destruct (lookup p files) as [[m t]|]; [|discriminate]. intros [= <- <- <-]. split; apply u32_is_word.
  - intros p va. destruct (lookup p files) as [[m t]|]; [|discriminate]. destruct t as [|c t]; [discriminate|]. destruct (_ <? _) eqn:L; [|discriminate]. intros [= <-]. now apply N.ltb_lt.
  - intros n. split; reflexivity.
  - reflexivity.
Qed.
Definition file p := {| is_imap := false; fpath := bs p |}.
Definition imap p := {| is_imap := true; fpath := bs p |}.
Definition nl := [10].
