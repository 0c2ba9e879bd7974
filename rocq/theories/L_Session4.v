(* An indexing run keeps every entry in step with its message. *)
From Coq Require Import Permutation Sorted.
From Verif Require Import Base M_Encoding M_TokTable S_TokTable M_DbFile S_DbFile M_Search S_Search M_Thread M_Purge S_Purge M_Tokens S_Tokens M_Mbox S_Mbox M_Update S_Update M_Session S_Session
  L_TokTable2 L_DbFile5 L_DbFile6 L_Purge L_Purge2 L_Mbox L_Output3 L_Search6 L_Thread L_Update L_Update2 L_Update3 L_Update4 L_Update5 L_Update6 L_Update7 L_Update8 L_Update9 L_Update10 L_Update11 L_Update12 L_Update13 L_Update15
  L_Session L_Session2 L_Session3.
From Verif Require M_Paths.
Local Open Scope N_scope.

Definition tm_now (mb : mbox) : N * N := (c_mtime mb, c_size mb).
Definition tm_file (mb : mbox) : N * N := (f_mtime mb, f_size mb).
(* The index has of m what session s0 saw of its file, message on the server, or mailbox. *)
Definition stamp (tm : mbox -> N * N) (s0 : session) (db : database) (m : msg) : Prop :=
  match src m with
  | S_dead => True
  | S_file p mt sz => w_stat (s_world s0) p = Some (M_Paths.K_reg, mt, sz)
  | S_imap p => In {| is_imap := true; fpath := p |} (s_found s0)
  | S_mbox fi mi => exists mb p va st ln l, nth_error (mboxen db) (N.to_nat fi) = Some mb /\ mb_path mb = Some p /\
      w_lstat (s_world s0) p = Some (l, fst (tm mb), snd (tm mb)) /\ w_map (s_world s0) p = Mapped va /\
      nth_error (starts mb) (N.to_nat mi) = Some (Some st) /\ nth_error (lens mb) (N.to_nat mi) = Some (Some ln) /\ st + ln <= N.of_nat (length va) /\
      nth_error (checks mb) (N.to_nat mi) = Some (w_csum (s_world s0) (cut st ln va))
  end.
Definition anchored (tm : mbox -> N * N) (ss : list session) (db : database) : Prop :=
  forall x m, message db x = Some m -> src m <> S_dead -> exists s0, In s0 ss /\ told (w_alnum (s_world s0)) db x m (reading (s_world s0) db m) /\ stamp tm s0 db m.
Lemma anchored_more tm ss ss' db : incl ss ss' -> anchored tm ss db -> anchored tm ss' db.
Proof. intros I A x m E ND. destruct (A x m E ND) as (s0 & I0 & T). exists s0. split; [now apply I|exact T]. Qed.

Lemma nth_firstn {A} (l : list A) : forall n i, (i < n)%nat -> nth_error (firstn n l) i = nth_error l i.
Proof. induction l as [|a l IH]; intros [|n] [|i] H; cbn; auto; try lia. apply IH. lia. Qed.
Lemma load_anchored h ss db db' : db_ok h db -> db_ok h db' -> same_db db db' -> anchored tm_now ss db -> anchored tm_file ss db'.
Proof.
  intros OK OK' SD A x m' E' ND'. pose proof SD as (_ & FM & FB & _). destruct (F2_nth' _ _ _ FM _ _ E') as (m & E & X1 & X2 & X3 & X4 & X5 & X6).
  assert (ND : src m <> S_dead) by congruence. destruct (A x m E ND) as (s0 & I0 & T & ST). exists s0. split; [exact I0|]. pose proof (nth_error_In _ _ E) as IM. split.
  - rewrite (same_reading h _ db db' m m' OK SD IM X1). eapply told_alike; [exact T|eapply same_alike; eauto|apply marked_src; auto].
  - unfold stamp in *. rewrite X1. destruct (src m) as [|p mt sz|p|fi mi] eqn:ES; auto.
    destruct ST as (mb & p & va & st & ln & l & S1 & S2 & S3 & S4 & S5 & S6 & S7 & S8). destruct (F2_nth _ _ _ FB _ _ S1) as (mb' & S1' & Y1 & Y2 & Y3 & Y4 & Y5).
    destruct (same_places db db' fi mi mb mb' m SD IM ES S1 S1' _ _ S5 S6) as (Q1 & Q2). exists mb', p, va, st, ln, l. unfold tm_file, tm_now in *. cbn [fst snd] in *. rewrite Y1, Y2, Y3, Y5.
    destruct (ok_places _ _ OK m fi mi IM ES) as (mb0 & st0 & ln0 & Z1 & Z2 & _). rewrite S1 in Z1. injection Z1 as <-.
    rewrite nth_firstn by lia. auto 10.
Qed.
Lemma purge_anchored h tm ss db db' : db_ok h db -> db_ok h db' -> purged db db' -> anchored tm ss db -> anchored tm ss db'.
Proof.
  intros OK OK' PU A k m' E' ND'. destruct (pg_all _ _ PU k m' E') as (i & m & E & ND & ->). destruct (pg_msgs _ _ PU i m E ND) as (m2 & E2 & SM). rewrite E' in E2. injection E2 as <-.
  destruct (A i m E ND) as (s0 & I0 & T & ST). exists s0. split; [exact I0|]. split.
  - rewrite (purged_reading _ db db' m m' SM ND). eapply told_alike; [exact T|eapply purged_alike; eauto|eapply marked_moved; exact SM].
  - destruct SM as (_ & _ & _ & _ & _ & SM). unfold stamp in *. destruct (src m) as [|p mt sz|p|fi mi]; [congruence|now rewrite SM|now rewrite SM|].
    destruct SM as (fi' & mb & -> & E1 & E2). destruct ST as (mb1 & p & va & st & ln & l & S1 & S2). rewrite E1 in S1. injection S1 as <-. exists mb, p, va, st, ln, l. auto.
Qed.
Lemma same_faithful h W db db' : db_ok h db -> db_ok h db' -> same_db db db' -> faithful W db <-> faithful W db'.
Proof.
  intros OK OK' SD. pose proof SD as (_ & FM & _). split; intros FA x.
  - intros m' E' ND'. destruct (F2_nth' _ _ _ FM _ _ E') as (m & E & X1 & X2 & X3 & X4 & X5 & X6). assert (ND : src m <> S_dead) by congruence.
    specialize (FA x m E ND). rewrite described_told in *. rewrite (same_reading h _ db db' m m' OK SD (nth_error_In _ _ E) X1). eapply told_alike; [exact FA|eapply same_alike; eauto|apply marked_src; auto].
  - intros m E ND. destruct (F2_nth _ _ _ FM _ _ E) as (m' & E' & X1 & X2 & X3 & X4 & X5 & X6). assert (ND' : src m' <> S_dead) by congruence.
    specialize (FA x m' E' ND'). rewrite described_told in *. rewrite (same_reading h _ db db' m m' OK SD (nth_error_In _ _ E) X1) in FA. eapply told_alike; [exact FA|apply alike_sym; eapply same_alike; eauto|apply marked_src; symmetry; auto].
Qed.
Lemma purge_faithful h W db db' : db_ok h db -> db_ok h db' -> purged db db' -> faithful W db -> faithful W db'.
Proof.
  intros OK OK' PU FA k m' E' ND'. destruct (pg_all _ _ PU k m' E') as (i & m & E & ND & ->). destruct (pg_msgs _ _ PU i m E ND) as (m2 & E2 & SM). rewrite E' in E2. injection E2 as <-.
  specialize (FA i m E ND). rewrite described_told in *. rewrite (purged_reading _ db db' m m' SM ND). eapply told_alike; [exact FA|eapply purged_alike; eauto|eapply marked_moved; exact SM].
Qed.

(* ---- new entries ---- *)
Lemma new_stamp s db c db' : runnable (s_world s) (s_symlinks s) (s_found s) (s_paths s) db ->
  index_run (s_world s) (s_fast s) (s_symlinks s) (s_found s) (s_paths s) db = Ok (c, db') ->
  forall x m, n_msgs db <= x -> message db' x = Some m -> src m <> S_dead -> stamp tm_now s db' m.
Proof.
  intros RI E x m' L EM ND. pose proof (run_mailboxes _ _ _ _ _ _ _ _ RI E) as RM. pose proof (run_imap _ _ _ _ _ _ _ _ RI E) as RIM. open RI E E' RA EC. pose proof (ra_steps _ _ _ _ _ _ _ _ _ _ _ _ _ _ _ RA) as ST.
  destruct (back _ _ _ _ _ _ _ _ _ _ _ _ _ _ _ RA x m' EM) as (a & Ea & (S1 & S2 & S3 & S4 & S5)).
  apply (entry3 _ _ _ _ _ _ _ _ _ _ _ _ _ _ _ RA) in Ea as [Ea|[(k & m & -> & Ea & ->)|(k & -> & Ea)]].
  - exfalso. assert (N.to_nat x < length old)%nat by (apply nth_error_Some; congruence). rewrite (old_len _ _ _ _ _ _ _ _ _ _ _ _ _ _ _ RA) in H. unfold n_msgs in L. lia.
  - destruct (new_in _ _ _ _ _ _ _ _ _ _ _ _ _ _ _ RA (scanned (s_world s) m)) as (j & y & mt & sz & _ & _ & DS & EY); [apply in_map; eapply nth_error_In; exact Ea|].
    unfold stamp. rewrite S1, EY. cbn [new_entry src]. unfold do_stat in DS. destruct y as [[|] q]; cbn [is_imap fpath] in *.
    + apply RIM. exists m'. split; [eapply nth_error_In; exact EM|]. rewrite S1, EY. reflexivity.
    + destruct (w_stat (s_world s) q) as [[[[| |] mt'] sz']|]; try discriminate. injection DS as <- <-. eauto.
  - destruct (adds_entry _ _ _ _ _ _ (st_adds _ _ _ _ _ _ _ _ _ _ _ _ ST) a (nth_error_In _ _ Ea)) as (n1 & t & mb2 & s2 & mb' & part & mi' & st & ln & p & va & A1 & A2 & A3 & A4 & A5 & A6 & A7 & A8 & A9 & A10 & n2 & A11).
    assert (EB : nth_error (mboxen db') (N.to_nat (0 + N.of_nat t)) = Some mb').
    { rewrite (boxes_same _ _ _ _ _ _ _ _ _ _ _ _ _ _ _ RA). replace (N.to_nat (0 + N.of_nat t)) with t by lia. exact A2. }
    destruct (RM (N.to_nat (0 + N.of_nat t)) mb' p EB A8) as (link & k0 & EL & _). unfold stamp. rewrite S1, A5. exists mb', p, va, st, ln, link. destruct A7 as [C1 C2].
    split; [exact EB|]. split; [exact A8|]. split; [exact EL|]. split; [exact A9|]. split; [exact C1|]. split; [exact C2|]. split; [exact A10|].
    apply In_nth_error in A4 as (j & J). destruct (bp_part _ _ _ _ _ _ _ A3 j a J) as (? & ? & _ & _ & ? & ? & _ & _ & EA). pose proof A5 as A5'. rewrite EA, entry_src in A5'. injection A5' as EMI.
    assert (EP2 : mb_path mb2 = Some p) by (rewrite <- (bp_path _ _ _ _ _ _ _ A3); exact A8).
    destruct (bp_groups _ _ _ _ _ _ _ A3 p va EP2 A9) as (places & _ & G2 & G3). assert (LJ : (j < length places)%nat) by (rewrite G2; apply nth_error_Some; congruence).
    destruct (nth_error places j) as [[st' ln']|] eqn:EPL; [|apply nth_error_None in EPL; lia]. destruct (G3 j st' ln' EPL) as ([X1 X2] & X3). rewrite EMI in X1, X2, X3.
    assert (st' = st) by congruence. assert (ln' = ln) by congruence. subst st' ln'. exact X3.
Qed.

(* ---- the run ---- *)
Lemma run_step s ss file db c db' : fit s file -> get_database s file = Ok db -> good (w_hash (s_world s)) db -> mailed db' -> db_ok (w_hash (s_world s)) db' ->
  index_run (s_world s) (s_fast s) (s_symlinks s) (s_found s) (s_paths s) db = Ok (c, db') ->
  (forall s0, In s0 ss -> same_program s0 s /\ honest s0 s) -> undisturbed s file -> anchored tm_file ss db ->
  faithful (s_world s) db' /\ anchored tm_now (s :: ss) db'.
Proof.
  intros FI EG G MA' OK' E HS UD AN. pose proof (fit_runnable s file db FI EG G) as RI. pose proof (gd_ok _ _ G) as OK.
  assert (MAIN : forall x m', message db' x = Some m' -> src m' <> S_dead -> described (s_world s) db' x m' /\
    exists s0, In s0 (s :: ss) /\ told (w_alnum (s_world s0)) db' x m' (reading (s_world s0) db' m') /\ stamp tm_now s0 db' m').
  2: { split; intros x m' EM ND; now apply MAIN. }
  intros x m' EM ND. destruct (N.lt_ge_cases x (n_msgs db)) as [LT|GE].
  2: { assert (D : described (s_world s) db' x m').
       { destruct (run_words _ _ _ _ _ _ _ _ RI E x) as [_ RW]. destruct (RW GE m' EM) as (R1 & R2 & R3). destruct (run_meta _ _ _ _ _ _ _ _ RI E x m' GE EM) as [R4 _].
         split; [exact R1|]. split; [exact R2|]. split; [exact R3|]. intros h atts SA. destruct (R4 h atts SA) as (Q1 & Q2 & Q3). split; [exact Q1|]. unfold flags_of. destruct (src m') as [|p mt sz|p|b mi] eqn:ES; [exact Logic.I|apply Q2; eauto|apply Q2; auto|eapply Q3; reflexivity]. }
       split; [exact D|]. exists s. split; [now left|]. split; [now apply described_told|]. eapply new_stamp; eauto. }
  destruct (run_old _ _ _ _ _ _ _ _ RI E) as [_ RO]. destruct (message db x) as [m|] eqn:EX; [|exfalso; unfold message in EX; apply nth_error_None in EX; unfold n_msgs in LT; lia].
  destruct (RO x m EX) as (m2 & EM2 & SRC & ED & EF1 & EF2 & EF3 & NM). rewrite EM in EM2. injection EM2 as <-. assert (SE : src m' = src m) by (destruct SRC; congruence). clear SRC. assert (MA : marked_alike m m') by (apply marked_src; assumption).
  assert (ND0 : src m <> S_dead) by congruence. pose proof (nth_error_In _ _ EX) as IM. pose proof (nth_error_In _ _ EM) as IM'.
  destruct (AN x m EX ND0) as (s0 & I0 & T & STP). destruct (HS s0 I0) as ((P1 & P2 & P3 & P4 & P5) & HO).
  assert (AL : alike db db' x x) by (destruct (run_words _ _ _ _ _ _ _ _ RI E x) as [RW _]; exact (RW LT)).
  assert (FIN : reading (s_world s) db' m' = reading (s_world s0) db m ->
    ((reading (s_world s0) db' m' = reading (s_world s0) db m /\ stamp tm_now s0 db' m') \/ stamp tm_now s db' m') ->
    described (s_world s) db' x m' /\ exists s0, In s0 (s :: ss) /\ told (w_alnum (s_world s0)) db' x m' (reading (s_world s0) db' m') /\ stamp tm_now s0 db' m').
  { intros ER K. assert (D : described (s_world s) db' x m') by (apply described_told; rewrite ER, P1; eapply told_alike; eauto). split; [exact D|].
    destruct K as [[ER0 K]|K]; [exists s0|exists s]; (split; [cbn; auto|]); (split; [|exact K]); [rewrite ER0; eapply told_alike; eauto|now apply described_told]. }
  destruct (src m) as [|p mt sz|p|fi mi] eqn:ES; [congruence| | |].
  - destruct (proj1 (NM {| is_imap := false; fpath := p |} ltac:(unfold name_of; now rewrite ES)) SE) as (y & IY & AG). unfold agrees in AG. rewrite ES in AG. destruct AG as (Y1 & Y2 & Y3). destruct y as [im q]. cbn in Y1, Y2. subst im q.
    unfold stamp in STP. rewrite ES in STP. pose proof (ho_files _ _ HO p mt sz IY STP Y3) as WM.
    assert (RX : forall W d, reading W d m' = (if ends_gitignore p then None else make_rfc822 W p) /\ reading W d m = (if ends_gitignore p then None else make_rfc822 W p)) by (intros W d; unfold reading; now rewrite SE, ES).
    apply FIN.
    + rewrite (proj1 (RX _ _)), (proj2 (RX _ _)). unfold make_rfc822. now rewrite WM, P5.
    + left. split; [now rewrite (proj1 (RX _ _)), (proj2 (RX _ _))|]. unfold stamp. rewrite SE. eauto.
  - destruct (proj1 (NM {| is_imap := true; fpath := p |} ltac:(unfold name_of; now rewrite ES)) SE) as (y & IY & AG). unfold agrees in AG. rewrite ES in AG. destruct AG as (Y1 & Y2). destruct y as [im q]. cbn in Y1, Y2. subst im q.
    unfold stamp in STP. rewrite ES in STP. pose proof (ho_server _ _ HO p STP IY) as WM.
    assert (RX : forall W d, reading W d m' = (if ends_gitignore p then None else w_imap W p) /\ reading W d m = (if ends_gitignore p then None else w_imap W p)) by (intros W d; unfold reading; now rewrite SE, ES).
    apply FIN.
    + rewrite (proj1 (RX _ _)), (proj2 (RX _ _)). now rewrite WM.
    + left. split; [now rewrite (proj1 (RX _ _)), (proj2 (RX _ _))|]. unfold stamp. now rewrite SE.
  - clear NM. destruct (ok_places _ _ OK' m' fi mi IM' SE) as (mb' & st' & ln' & B1 & B2 & B3 & _ & B4 & _).
    destruct (mb_path mb') as [p|] eqn:EP; [|exfalso; exact (MA' m' fi mi mb' IM' SE B1 EP)].
    destruct (run_mailboxes _ _ _ _ _ _ _ _ RI E _ _ _ B1 EP) as (link & k & EL & WP & BN & RK). destruct (RK x m mi EX ltac:(rewrite N2Nat.id; exact ES)) as (m3 & EM3 & LK). rewrite EM in EM3. injection EM3 as <-.
    assert (MK : mi < k) by (apply LK; congruence). clear RK LK.
    unfold stamp in STP. rewrite ES in STP. destruct STP as (mb & p0 & va0 & st & ln & l0 & S1 & S2 & S3 & S4 & S5 & S6 & S7 & S8). unfold was in WP, BN. rewrite S1 in WP, BN. rewrite S2 in WP. injection WP as ->.
    unfold tm_file in S3. cbn [fst snd] in S3.
    assert (CONC : forall va, w_map (s_world s) p = Mapped va -> nth_error (starts mb') (N.to_nat mi) = Some (Some st) -> nth_error (lens mb') (N.to_nat mi) = Some (Some ln) ->
      nth_error (checks mb') (N.to_nat mi) = Some (w_csum (s_world s0) (cut st ln va0)) -> st + ln <= N.of_nat (length va) -> cut st ln va = cut st ln va0 ->
      described (s_world s) db' x m' /\ exists s0, In s0 (s :: ss) /\ told (w_alnum (s_world s0)) db' x m' (reading (s_world s0) db' m') /\ stamp tm_now s0 db' m').
    { intros va V1 V2 V3 V4 V5 V6. apply FIN.
      - unfold reading. rewrite SE, ES, B1, EP, V2, V3, V1, S1, S2, S5, S6, S4. destruct (N.leb_spec (st + ln) (N.of_nat (length va))); [|lia]. destruct (N.leb_spec (st + ln) (N.of_nat (length va0))); [|lia]. now rewrite V6, P5.
      - right. unfold stamp. rewrite SE. exists mb', p, va, st, ln, link. rewrite V6, P4. auto 10. }
    destruct BN as [N1 N2 N3 N4 N5 N6|N1 N2 N3|va k ms places N1 N2 N3 N4 N5 N6 N7 N8].
    + rewrite <- N1, <- N2 in EL. pose proof (ho_boxes _ _ HO p _ _ _ _ S3 EL) as WM. apply (CONC va0); try congruence.
    + lia.
    + destruct (places_of_tight (s_world s) db (N.to_nat fi) mb OK (gd_tight _ _ G) S1) as [PK _].
      destruct (number_prefix (w_csum (s_world s)) mb va PK (UD db mb p va EG (nth_error_In _ _ S1) S2 N2)) as (k' & EK & (_ & INT & _)). rewrite N3 in EK. injection EK as <-.
      destruct (INT mi MK) as (st1 & ln1 & J1 & J2 & J3 & J4). assert (st1 = st) by congruence. assert (ln1 = ln) by congruence. subst st1 ln1. destruct (N7 mi MK) as (K1 & K2 & K3).
      apply (CONC va); try congruence. apply (ho_sums _ _ HO p va0 va st ln); auto. unfold cut in S8 |- *. congruence.
Qed.
(* The sizes of files are those they had when they were indexed, and they have not changed since. *)
Definition sized (ss : list session) (s : session) (db : database) : Prop :=
  forall p mt sz, lists_src db (S_file p mt sz) -> exists s0, In s0 ss /\ w_stat (s_world s0) p = Some (M_Paths.K_reg, mt, sz) /\ w_map (s_world s) p = w_map (s_world s0) p.
Lemma run_sizes s ss file db c db' : fit s file -> get_database s file = Ok db -> good (w_hash (s_world s)) db ->
  index_run (s_world s) (s_fast s) (s_symlinks s) (s_found s) (s_paths s) db = Ok (c, db') ->
  (forall s0, In s0 ss -> same_program s0 s /\ honest s0 s) -> anchored tm_file ss db -> sized (s :: ss) s db'.
Proof.
  intros FI EG G E HS AN p mt sz (m' & IM & ES'). pose proof (fit_runnable s file db FI EG G) as RI. apply In_nth_error in IM as (k & K).
  assert (EM : message db' (N.of_nat k) = Some m') by (unfold message; now rewrite Nat2N.id). destruct (N.lt_ge_cases (N.of_nat k) (n_msgs db)) as [LT|GE].
  2: { exists s. split; [now left|]. split; [|reflexivity]. pose proof (new_stamp s db c db' RI E _ m' GE EM ltac:(congruence)) as ST. unfold stamp in ST. rewrite ES' in ST. exact ST. }
  destruct (run_old _ _ _ _ _ _ _ _ RI E) as [_ RO]. destruct (message db (N.of_nat k)) as [m|] eqn:EX; [|exfalso; unfold message in EX; apply nth_error_None in EX; unfold n_msgs in LT; lia].
  destruct (RO _ m EX) as (m2 & EM2 & SRC & _ & _ & _ & _ & NM). rewrite EM in EM2. injection EM2 as <-. assert (SE : src m' = src m) by (destruct SRC; congruence).
  assert (ES : src m = S_file p mt sz) by congruence. destruct (AN _ m EX ltac:(congruence)) as (s0 & I0 & _ & STP). destruct (HS s0 I0) as (_ & HO). unfold stamp in STP. rewrite ES in STP.
  destruct (proj1 (NM {| is_imap := false; fpath := p |} ltac:(unfold name_of; now rewrite ES)) SE) as (y & IY & AG). unfold agrees in AG. rewrite ES in AG. destruct AG as (Y1 & Y2 & Y3). destruct y as [im q]. cbn in Y1, Y2. subst im q.
  exists s0. split; [now right|]. split; [exact STP|]. exact (ho_files _ _ HO p mt sz IY STP Y3).
Qed.
