(* Histories of sessions: the entries of a mailbox are its mails. *)
From Coq Require Import Permutation Sorted.
From Verif Require Import Base M_Encoding M_TokTable S_TokTable M_DbFile S_DbFile M_Search S_Search M_Thread M_Purge S_Purge M_Tokens S_Tokens M_Mbox S_Mbox M_Update S_Update M_Session S_Session S_Boxes
  L_DbFile5 L_Purge L_Purge2 L_Output3 L_Search6 L_Update9 L_Update13 L_Update15 L_Session L_Session2 L_Session3 L_Session4 L_Session5 L_Boxes3.
From Verif Require M_Paths.
Local Open Scope N_scope.

Lemma run_of_in b mi l : In mi (run_of b l) <-> exists m, In m l /\ src m = S_mbox b mi.
Proof.
  unfold run_of. rewrite in_flat_map. split.
  - intros (m & I1 & I2). exists m. split; [exact I1|]. destruct (src m) as [| | |fi x]; try contradiction. destruct (N.eqb_spec fi b) as [->|]; [|contradiction]. destruct I2 as [->|[]]. reflexivity.
  - intros (m & I1 & E). exists m. split; [exact I1|]. rewrite E, N.eqb_refl. now left.
Qed.
Lemma tight_entry db b mb i : tight db -> nth_error (mboxen db) (N.to_nat b) = Some mb -> i < mb_n mb -> exists m, In m (msgs db) /\ src m = S_mbox b i.
Proof. intros TI E L. apply run_of_in. rewrite (ti_run _ TI _ _ E). apply in_map_iff. exists (N.to_nat i). split; [lia|]. apply in_seq. lia. Qed.

Lemma kept_enters W va h db p mails : good h db -> (exists mb, In mb (mboxen db) /\ mb_path mb = Some p) ->
  (forall mb, In mb (mboxen db) -> mb_path mb = Some p -> kept W va mb (places 0 mails)) -> enters db p mails.
Proof.
  intros G (mb & IB & EP) H. split.
  - intros k st ln EK. apply In_nth_error in IB as (b & EB). destruct (H mb (nth_error_In _ _ EB) EP) as [EN _].
    assert (LK : (k < length (places 0 mails))%nat) by (apply nth_error_Some; congruence).
    destruct (tight_entry db (N.of_nat b) mb (N.of_nat k) (gd_tight _ _ G)) as (m & IM & ES); [now rewrite Nat2N.id|lia|]. exists m, (N.of_nat b), mb. rewrite Nat2N.id. auto.
  - intros m fi mi mb' IM ES EB EP'. destruct (ok_places _ _ (gd_ok _ _ G) m fi mi IM ES) as (mb2 & st & ln & E2 & L & S1 & _ & S2 & _). rewrite EB in E2. injection E2 as <-.
    destruct (H mb' (nth_error_In _ _ EB) EP') as [EN EK]. destruct (nth_error (places 0 mails) (N.to_nat mi)) as [[st' ln']|] eqn:X.
    + destruct (EK _ _ _ X) as (A & B & _). exists st', ln'. auto.
    + apply nth_error_None in X. lia.
Qed.

(* through loading *)
Lemma same_kept W va db db' b mb mb' pl : tight db -> same_db db db' -> nth_error (mboxen db) b = Some mb -> nth_error (mboxen db') b = Some mb' -> same_mbox mb mb' -> kept W va mb pl -> kept W va mb' pl.
Proof.
  intros TI SD E E' (_ & _ & _ & EN & EC) [K1 K2]. split; [congruence|]. intros i st ln EI. destruct (K2 _ _ _ EI) as (S1 & S2 & S3). assert (L : (i < length pl)%nat) by (apply nth_error_Some; congruence).
  destruct (tight_entry db (N.of_nat b) mb (N.of_nat i) TI) as (m & IM & ES); [now rewrite Nat2N.id|lia|].
  destruct (same_places db db' (N.of_nat b) (N.of_nat i) mb mb' m SD IM ES) with (a := Some st) (b := Some ln) as [A B]; rewrite ?Nat2N.id in *; auto. rewrite EC, nth_firstn by lia. auto.
Qed.
Lemma load_complete h p ss db db' : good h db -> same_db db db' -> complete p tm_now ss db -> complete p tm_file ss db'.
Proof.
  intros G SD C mb' I' EP'. pose proof SD as (_ & _ & FB & _). apply In_nth_error in I' as (b & E'). destruct (F2_nth' _ _ _ FB _ _ E') as (mb & E & SMB). pose proof SMB as (Y1 & Y2 & Y3 & Y4 & _).
  destruct (C mb (nth_error_In _ _ E)) as (s0 & l & I0 & P0 & L0 & H0); [congruence|]. exists s0, l. split; [exact I0|]. split; [exact P0|]. unfold tm_file, tm_now in *. cbn [fst snd] in *. rewrite Y2, Y3. split; [exact L0|].
  unfold box_holds in *. destruct (w_map (s_world s0) p); auto; [|congruence]. intros mails EV OK. eapply same_kept; [apply G|exact SD|exact E|exact E'|exact SMB|now apply H0].
Qed.
Lemma purge_complete p tm ss db db' : purged db db' -> complete p tm ss db -> complete p tm ss db'.
Proof. intros PU C mb I EP. rewrite (pg_boxes _ _ PU) in I. apply filter_In in I as [I _]. now apply C. Qed.
Lemma complete_more p tm ss ss' db : incl ss ss' -> complete p tm ss db -> complete p tm ss' db.
Proof. intros IN C mb I EP. destruct (C mb I EP) as (s0 & l & I0 & R). exists s0, l. split; [now apply IN|exact R]. Qed.

Lemma same_enters h db db' p mails : good h db -> good h db' -> same_db db db' -> enters db p mails <-> enters db' p mails.
Proof.
  intros G G' SD. pose proof SD as (_ & FM & FB & _). split; intros [H1 H2]; split.
  - intros k st ln EK. destruct (H1 k st ln EK) as (m & fi & mb & IM & ES & EB & EP). apply In_nth_error in IM as (j & J). destruct (F2_nth _ _ _ FM _ _ J) as (m' & J' & X & _). destruct (F2_nth _ _ _ FB _ _ EB) as (mb' & EB' & Y & _).
    exists m', fi, mb'. split; [eapply nth_error_In; exact J'|]. split; [congruence|]. split; [exact EB'|congruence].
  - intros m' fi mi mb' IM' ES' EB' EP'. apply In_nth_error in IM' as (j & J'). destruct (F2_nth' _ _ _ FM _ _ J') as (m & J & X & _). destruct (F2_nth' _ _ _ FB _ _ EB') as (mb & EB & Y & _).
    pose proof (nth_error_In _ _ J) as IM. destruct (H2 m fi mi mb IM) as (st & ln & E1 & E2 & E3); [congruence|exact EB|congruence|].
    exists st, ln. split; [exact E1|]. apply (same_places db db' fi mi mb mb' m SD IM); auto. congruence.
  - intros k st ln EK. destruct (H1 k st ln EK) as (m' & fi & mb' & IM & ES & EB & EP). apply In_nth_error in IM as (j & J). destruct (F2_nth' _ _ _ FM _ _ J) as (m & J' & X & _). destruct (F2_nth' _ _ _ FB _ _ EB) as (mb & EB' & Y & _).
    exists m, fi, mb. split; [eapply nth_error_In; exact J'|]. split; [congruence|]. split; [exact EB'|congruence].
  - intros m fi mi mb IM ES EB EP. destruct (F2_nth _ _ _ FB _ _ EB) as (mb' & EB' & Y & _). destruct (ok_places _ _ (gd_ok _ _ G) m fi mi IM ES) as (mb2 & st & ln & E2 & L & S1 & _ & S2 & _). rewrite EB in E2. injection E2 as <-.
    destruct (same_places db db' fi mi mb mb' m SD IM ES EB EB' _ _ S1 S2) as [A B]. apply In_nth_error in IM as (j & J). destruct (F2_nth _ _ _ FM _ _ J) as (m' & J' & X & _).
    destruct (H2 m' fi mi mb' (nth_error_In _ _ J')) as (st' & ln' & E1 & E3 & E4); [congruence|exact EB'|congruence|]. rewrite A in E3. rewrite B in E4. injection E3 as <-. injection E4 as <-. eauto.
Qed.
Lemma purge_enters db db' p mails : purged db db' -> enters db p mails -> enters db' p mails.
Proof.
  intros PU [H1 H2]. split.
  - intros k st ln EK. destruct (H1 k st ln EK) as (m & fi & mb & IM & ES & EB & EP). apply In_nth_error in IM as (j & J).
    destruct (pg_msgs _ _ PU (N.of_nat j) m) as (m' & J' & SM); [unfold message; now rewrite Nat2N.id|congruence|]. destruct SM as (_ & _ & _ & _ & _ & SM). rewrite ES in SM. destruct SM as (fi' & mb2 & E1 & E2 & E3). rewrite EB in E2. injection E2 as <-.
    exists m', fi', mb. split; [eapply nth_error_In; exact J'|auto].
  - intros m' fi' mi mb IM' ES' EB' EP. apply In_nth_error in IM' as (j & J'). destruct (pg_all _ _ PU (N.of_nat j) m') as (i & m & E & ND & EJ); [unfold message; now rewrite Nat2N.id|].
    destruct (pg_msgs _ _ PU i m E ND) as (m2 & E2 & SM). rewrite <- EJ in E2. unfold message in E2. rewrite Nat2N.id, J' in E2. injection E2 as <-. destruct SM as (_ & _ & _ & _ & _ & SM).
    destruct (src m) as [|q mt sz|q|fi mi2] eqn:ES; try congruence. destruct SM as (fi2 & mb2 & E1 & E2 & E3). rewrite E1 in ES'. injection ES' as -> ->. rewrite EB' in E3. injection E3 as <-.
    exact (H2 m fi mi mb (nth_error_In _ _ E) ES E2 EP).
Qed.

Definition entering (s : session) (p : bytes) (db : database) : Prop :=
  (forall q, In q (s_paths s) -> w_map (s_world s) q <> Map_failed) -> eligible (s_world s) (s_symlinks s) (s_paths s) p ->
  forall mails, w_map (s_world s) p = Mapped (box_text mails) -> mails_ok (s_world s) mails -> enters db p mails.
Record boxed (h : list (session * option bytes)) (p : bytes) (hashf : N -> bytes -> N) (db : database) : Prop := {
  bo_good : good hashf db;
  bo_complete : complete p tm_now (map fst h) db;
  bo_enters : forall s f rest, h = (s, f) :: rest -> entering s p db }.
Definition box_step (h : list (session * option bytes)) (p : bytes) (hashf : N -> bytes -> N) (file : option bytes) : Prop :=
  forall F, file = Some F -> exists db old, write_database db old = Ok F /\ file_len db < 2 ^ 31 /\ boxed h p hashf db.
Lemma box_step_stored h p hashf file : box_step h p hashf file -> stored hashf file.
Proof. intros H F E. destruct (H F E) as (db & old & A & B & C). exists db, old. split; [exact A|]. split; [apply C|exact B]. Qed.

Lemma session_boxes h p fuel s file file' : box_step h p (w_hash (s_world s)) file -> fit s file ->
  (forall s0, In s0 (map fst h) -> same_program s0 s /\ honest s0 s) -> undisturbed s file -> settled p s file ->
  index_session s fuel file = Ok file' -> box_step ((s, file) :: h) p (w_hash (s_world s)) file'.
Proof.
  intros IS FI HS UD SE E. pose proof (box_step_stored _ _ _ _ IS) as ST.
  destruct (session_stored s fuel file file' FI ST E) as (db0 & db1 & db2 & c1 & c2 & WE & _ & RES). destruct WE as [EG G0 RI EI G1 PU G2 _].
  assert (CO0 : complete p tm_file (map fst h) db0).
  { destruct file as [F|]; [|cbn in EG; apply Ok_inj in EG; subst db0; intros mb []].
    destruct (IS F eq_refl) as (db & old & EW & SZ & BO). destruct (loads s F db old FI EW (bo_good _ _ _ _ BO) SZ) as (d & EG' & SD & GD). rewrite EG in EG'. apply Ok_inj in EG'. subst d.
    eapply load_complete; [apply (bo_good _ _ _ _ BO)|exact SD|apply (bo_complete _ _ _ _ BO)]. }
  pose proof (run_holds p s file db0 c1 db1 (map fst h) FI EG G0 EI HS UD SE CO0) as RH.
  assert (EN1 : entering s p db1).
  { intros NF EL mails EM OK. apply (kept_enters (s_world s) (box_text mails) (w_hash (s_world s))); [exact G1|apply (run_boxes _ _ _ _ _ _ _ _ RI EI NF p); exact EL|]. intros mb IB EP. destruct (RH mb IB EP) as (_ & _ & BH). unfold box_holds in BH. rewrite EM in BH. now apply BH. }
  destruct RES as [[EC ->]|(EC & F & -> & EW & SZ)].
  - intros F EF. subst file. destruct (IS F eq_refl) as (db & old & EW & SZ & BO). destruct (loads s F db old FI EW (bo_good _ _ _ _ BO) SZ) as (d & EG' & SD & GD). rewrite EG in EG'. apply Ok_inj in EG'. subst d.
    apply orb_false_iff in EC as [-> ->]. destruct (run_unchanged _ _ _ _ _ _ _ RI EI) as (EM & EWD & EB).
    exists db, old. split; [exact EW|]. split; [exact SZ|]. constructor; [apply (bo_good _ _ _ _ BO)| |].
    + eapply complete_more; [|apply (bo_complete _ _ _ _ BO)]. cbn [map]. intros y Y. now right.
    + intros s' f rest EH. injection EH as <- <- <-. intros NF EL mails EMP OK. apply (same_enters (w_hash (s_world s)) db db0 p mails (bo_good _ _ _ _ BO) GD SD).
      destruct (EN1 NF EL mails EMP OK) as [H1 H2]. split.
      * intros k st ln EK. destruct (H1 k st ln EK) as (m & fi & mb' & IM & ES & EB' & EP). rewrite EM in IM. destruct (ok_places _ _ (gd_ok _ _ G0) m fi _ IM ES) as (mb & _ & _ & B1 & _).
        destruct (EB m fi _ mb mb' IM ES B1 EB') as (Q1 & _). exists m, fi, mb. split; [exact IM|]. split; [exact ES|]. split; [exact B1|congruence].
      * intros m fi mi mb IM ES B1 EP. assert (IM1 : In m (msgs db1)) by now rewrite EM. destruct (ok_places _ _ (gd_ok _ _ G1) m fi _ IM1 ES) as (mb' & _ & _ & B1' & _).
        destruct (EB m fi _ mb mb' IM ES B1 B1') as (Q1 & Q2 & Q3 & _). rewrite <- Q2, <- Q3. apply (H2 m fi mi mb' IM1 ES B1'). congruence.
  - intros F' EF. injection EF as <-. exists db2, (match file with Some F => F | None => [] end). split; [exact EW|]. split; [exact SZ|].
    constructor; [exact G2| |].
    + assert (CO1 : complete p tm_now (map fst ((s, file) :: h)) db1).
      { intros mb IB EP. destruct (RH mb IB EP) as (IP & (l & EL) & BH). exists s, l. split; [now left|]. auto. }
      destruct PU as [(_ & _ & ->)|(_ & PU & _)]; [exact CO1|eapply purge_complete; eauto].
    + intros s' f rest EH. injection EH as <- <- <-. destruct PU as [(_ & _ & ->)|(_ & PU & _)]; [exact EN1|]. intros NF EL mails EMP OK. eapply purge_enters; [exact PU|]. now apply EN1.
Qed.

Lemma history_boxes h file p : history h file -> orderly h -> Forall (fun x => settled p (fst x) (snd x)) h -> forall s, Forall (fun x => same_program (fst x) s) h -> box_step h p (w_hash (s_world s)) file.
Proof.
  induction 1 as [|h fuel s0 file file' H IH FI SP E]; intros [OR UD] SE s SM; [intros F; discriminate|].
  inversion SM as [|? ? S1 S2]; subst. cbn [fst] in S1. destruct S1 as (_ & EH & _). rewrite EH.
  inversion OR as [|? ? HO OR']; subst. inversion UD as [|? ? U1 U2]; subst. inversion SE as [|? ? E1 E2]; subst. apply (session_boxes h p fuel); auto; [apply IH; [split; auto|exact E2|exact SP]|].
  intros s1 I. apply in_map_iff in I as (y & <- & I). rewrite Forall_forall in SP, HO. split; [now apply SP|now apply (HO y)].
Qed.
Lemma boxes_main s file h F db p mails : history ((s, file) :: h) (Some F) -> orderly ((s, file) :: h) -> Forall (fun x => settled p (fst x) (snd x)) ((s, file) :: h) ->
  holds_index (s_world s) F db -> (forall q, In q (s_paths s) -> w_map (s_world s) q <> Map_failed) -> eligible (s_world s) (s_symlinks s) (s_paths s) p ->
  w_map (s_world s) p = Mapped (box_text mails) -> mails_ok (s_world s) mails -> enters db p mails.
Proof.
  intros H O SE E NF EL EM OK. assert (SM : Forall (fun x => same_program (fst x) s) ((s, file) :: h)) by (inversion H; subst; constructor; [apply same_self|assumption]).
  destruct (history_boxes _ _ p H O SE s SM F eq_refl) as (dbF & old & EW & SZ & BO).
  destruct (load_good (w_hash (s_world s)) (fun _ => 0) 0 dbF old F (bo_good _ _ _ _ BO) SZ EW) as (d0 & E0 & S0 & G0); [intros; lia|now cbv|].
  unfold holds_index in E. rewrite E in E0. apply Ok_inj in E0. subst d0. apply (same_enters _ dbF db p mails (bo_good _ _ _ _ BO) G0 S0). eapply (bo_enters _ _ _ _ BO); eauto.
Qed.
