(* Histories of sessions: the index is in step with the messages. *)
From Coq Require Import Permutation Sorted.
From Verif Require Import Base M_Encoding M_TokTable S_TokTable M_DbFile S_DbFile M_Search S_Search M_Thread M_Purge S_Purge M_Tokens S_Tokens M_Mbox S_Mbox M_Update S_Update M_Session S_Session
  L_DbFile5 L_Purge L_Purge2 L_Output3 L_Search L_Search2 L_Search3 L_Search4 L_Search5 L_Search6 L_Update13 L_Session L_Session2 L_Session3 L_Session4.
From Verif Require M_Paths.
Local Open Scope N_scope.

(* What is listed, through loading and purging. *)
Lemma same_lists db db' : same_db db db' -> forall s, lists_src db' s <-> lists_src db s.
Proof.
  intros (_ & FM & _) s. unfold lists_src. split; intros (m & I & E); apply In_nth_error in I as (k & K).
  - destruct (F2_nth' _ _ _ FM _ _ K) as (m0 & K0 & X & _). exists m0. split; [eapply nth_error_In; exact K0|congruence].
  - destruct (F2_nth _ _ _ FM _ _ K) as (m0 & K0 & X & _). exists m0. split; [eapply nth_error_In; exact K0|congruence].
Qed.
Definition boxless (s : msrc) : Prop := match s with S_file _ _ _ | S_imap _ => True | _ => False end.
Lemma purged_lists db db' : purged db db' -> forall s, boxless s -> lists_src db' s <-> lists_src db s.
Proof.
  intros PU s B. unfold lists_src. split; intros (m & I & E); apply In_nth_error in I as (k & K).
  - destruct (pg_all _ _ PU (N.of_nat k) m) as (i & m0 & E0 & ND & EK); [unfold message; now rewrite Nat2N.id|]. destruct (pg_msgs _ _ PU i m0 E0 ND) as (m2 & E2 & SM).
    rewrite <- EK in E2. unfold message in E2. rewrite Nat2N.id, K in E2. injection E2 as <-. exists m0. split; [eapply nth_error_In; exact E0|].
    destruct SM as (_ & _ & _ & _ & _ & SM). destruct (src m0); try congruence. destruct SM as (fi' & mb & X & _). rewrite <- E, X in B. contradiction.
  - assert (ND : src m <> S_dead) by (rewrite E; intros X; rewrite X in B; exact B). destruct (pg_msgs _ _ PU (N.of_nat k) m) as (m2 & E2 & SM); [unfold message; now rewrite Nat2N.id|exact ND|].
    exists m2. split; [eapply nth_error_In; exact E2|]. destruct SM as (_ & _ & _ & _ & _ & SM). rewrite E in SM. destruct s; try contradiction; exact SM.
Qed.

(* What is known of the file after a history. *)
Record kept_up (h : list (session * option bytes)) (hashf : N -> bytes -> N) (db : database) : Prop := {
  ku_good : good hashf db;
  ku_anchored : anchored tm_now (map fst h) db;
  ku_faithful : forall s f rest, h = (s, f) :: rest -> faithful (s_world s) db;
  ku_files : forall s f rest, h = (s, f) :: rest -> s_fast s = false -> forall p mt, (exists sz, lists_src db (S_file p mt sz)) <->
    In {| is_imap := false; fpath := p |} (s_found s) /\ exists sz, w_stat (s_world s) p = Some (M_Paths.K_reg, mt, sz);
  ku_sized : forall s f rest, h = (s, f) :: rest -> sized (map fst h) s db;
  ku_imap : forall s f rest, h = (s, f) :: rest -> forall p, lists_src db (S_imap p) <-> In {| is_imap := true; fpath := p |} (s_found s) }.
Definition in_step (h : list (session * option bytes)) (hashf : N -> bytes -> N) (file : option bytes) : Prop :=
  forall F, file = Some F -> exists db old, write_database db old = Ok F /\ file_len db < 2 ^ 31 /\ kept_up h hashf db.

Lemma in_step_stored h hashf file : in_step h hashf file -> stored hashf file.
Proof. intros H F E. destruct (H F E) as (db & old & A & B & C). exists db, old. split; [exact A|]. split; [apply C|exact B]. Qed.
Lemma loads s F db old : fit s (Some F) -> write_database db old = Ok F -> good (w_hash (s_world s)) db -> file_len db < 2 ^ 31 ->
  exists db0, get_database s (Some F) = Ok db0 /\ same_db db db0 /\ good (w_hash (s_world s)) db0.
Proof.
  intros FI EW G L. destruct (load_good (w_hash (s_world s)) (fun _ => 0) 0 db old F G L EW) as (d0 & E0 & S0 & _); [intros; lia|now cbv|].
  destruct (load_good (w_hash (s_world s)) (s_index s) (s_current s) db old F G L EW) as (d1 & E1 & S1 & G1);
    [rewrite <- (same_count _ _ S0); exact (fi_index _ _ FI F d0 eq_refl E0)|apply FI|].
  exists d1. split; [|auto]. unfold get_database. rewrite E1. cbn [bind]. rewrite (good_checked s _ _ G1). reflexivity.
Qed.

Lemma session_step h fuel s file file' : in_step h (w_hash (s_world s)) file -> fit s file ->
  (forall s0, In s0 (map fst h) -> same_program s0 s /\ honest s0 s) -> undisturbed s file ->
  index_session s fuel file = Ok file' -> in_step ((s, file) :: h) (w_hash (s_world s)) file'.
Proof.
  intros IS FI HS UD E. pose proof (in_step_stored _ _ _ IS) as ST.
  destruct (session_stored s fuel file file' FI ST E) as (db0 & db1 & db2 & c1 & c2 & WE & _ & RES). destruct WE as [EG G0 RI EI G1 PU G2 _].
  assert (AN0 : anchored tm_file (map fst h) db0).
  { destruct file as [F|]; [|cbn in EG; apply Ok_inj in EG; subst db0; intros x m EM; exfalso; unfold message in EM; cbn in EM; destruct (N.to_nat x); discriminate].
    destruct (IS F eq_refl) as (db & old & EW & SZ & KU). destruct (loads s F db old FI EW (ku_good _ _ _ KU) SZ) as (d & EG' & SD & GD). rewrite EG in EG'. apply Ok_inj in EG'. subst d.
    eapply load_anchored; [apply (ku_good _ _ _ KU)|apply GD|exact SD|apply (ku_anchored _ _ _ KU)]. }
  destruct (run_step s (map fst h) file db0 c1 db1 FI EG G0 (gd_mailed _ _ G1) (gd_ok _ _ G1) EI HS UD AN0) as [FA AN1].
  assert (RF : s_fast s = false -> forall p mt, (exists sz, lists_src db1 (S_file p mt sz)) <-> In {| is_imap := false; fpath := p |} (s_found s) /\ exists sz, w_stat (s_world s) p = Some (M_Paths.K_reg, mt, sz)).
  { intros FS. eapply run_files; [exact RI|]. rewrite <- FS. exact EI. }
  pose proof (run_imap _ _ _ _ _ _ _ _ RI EI) as RM. pose proof (run_sizes s (map fst h) file db0 c1 db1 FI EG G0 EI HS AN0) as RZ.
  destruct RES as [[EC ->]|(EC & F & -> & EW & SZ)].
  - (* nothing written *)
    intros F EF. subst file. destruct (IS F eq_refl) as (db & old & EW & SZ & KU). destruct (loads s F db old FI EW (ku_good _ _ _ KU) SZ) as (d & EG' & SD & GD). rewrite EG in EG'. apply Ok_inj in EG'. subst d.
    apply orb_false_iff in EC as [-> ->]. destruct (run_unchanged _ _ _ _ _ _ _ RI EI) as (EM & EWD & EB).
    assert (FA0 : faithful (s_world s) db0).
    { intros x m EX ND. assert (EX1 : message db1 x = Some m) by (unfold message in *; now rewrite EM). specialize (FA x m EX1 ND). rewrite described_told in *.
      assert (ER : reading (s_world s) db1 m = reading (s_world s) db0 m).
      { unfold reading. destruct (src m) as [|p mt sz|p|fi mi] eqn:ES; try reflexivity. pose proof (nth_error_In _ _ EX) as IM. pose proof (nth_error_In _ _ EX1) as IM1.
        destruct (ok_places _ _ (gd_ok _ _ G0) m fi mi IM ES) as (mb & _ & _ & B1 & _). destruct (ok_places _ _ (gd_ok _ _ G1) m fi mi IM1 ES) as (mb' & _ & _ & B1' & _).
        destruct (EB m fi mi mb mb' IM ES B1 B1') as (Q1 & Q2 & Q3 & _). now rewrite B1, B1', Q1, Q2, Q3. }
      rewrite <- ER. eapply told_alike; [exact FA| |now apply marked_src]. apply alike_sym. assert (LT : x < n_msgs db0) by (unfold message in EX; unfold n_msgs; assert (N.to_nat x < length (msgs db0))%nat by (apply nth_error_Some; congruence); lia).
      destruct (run_words _ _ _ _ _ _ _ _ RI EI x) as [RW _]. exact (RW LT). }
    assert (LS : forall k, lists_src db k <-> lists_src db1 k) by (intros k; rewrite <- (same_lists _ _ SD); unfold lists_src; now rewrite EM).
    exists db, old. split; [exact EW|]. split; [exact SZ|]. constructor.
    + apply (ku_good _ _ _ KU).
    + eapply anchored_more; [|apply (ku_anchored _ _ _ KU)]. cbn [map]. intros y Y. now right.
    + intros s' f rest EH. injection EH as <- <- <-. eapply same_faithful; [apply (gd_ok _ _ (ku_good _ _ _ KU))|apply (gd_ok _ _ GD)|exact SD|exact FA0].
    + intros s' f rest EH FS p mt. injection EH as <- <- <-. rewrite <- (RF FS p mt). split; intros (sz & Q); exists sz; now apply LS.
    + intros s' f rest EH p mt sz L. injection EH as <- <- <-. apply (RZ p mt sz). now apply LS.
    + intros s' f rest EH p. injection EH as <- <- <-. rewrite LS. apply RM.
  - (* written *)
    intros F' EF. injection EF as <-. exists db2, (match file with Some F => F | None => [] end). split; [exact EW|]. split; [exact SZ|].
    assert (LS : forall k, boxless k -> lists_src db2 k <-> lists_src db1 k) by (intros k Bk; destruct PU as [(_ & _ & ->)|(_ & PU & _)]; [reflexivity|now apply purged_lists]).
    constructor; [exact G2| | | | |].
    + cbn [map fst]. destruct PU as [(_ & _ & ->)|(_ & PU & _)]; [exact AN1|eapply purge_anchored; [apply G1|apply G2|exact PU|exact AN1]].
    + intros s' f rest EH. injection EH as <- <- <-. destruct PU as [(_ & _ & ->)|(_ & PU & _)]; [exact FA|eapply purge_faithful; [apply G1|apply G2|exact PU|exact FA]].
    + intros s' f rest EH FS p mt. injection EH as <- <- <-. rewrite <- (RF FS p mt). split; intros (sz & Q); exists sz; now apply LS.
    + intros s' f rest EH p mt sz L. injection EH as <- <- <-. apply (RZ p mt sz). now apply LS.
    + intros s' f rest EH p. injection EH as <- <- <-. rewrite LS by exact I. apply RM.
Qed.

Lemma history_in_step h file : history h file -> orderly h -> forall s, Forall (fun x => same_program (fst x) s) h -> in_step h (w_hash (s_world s)) file.
Proof.
  induction 1 as [|h fuel s0 file file' H IH FI SP E]; intros [OR UD] s SM; [intros F; discriminate|].
  inversion SM as [|? ? S1 S2]; subst. cbn [fst] in S1. destruct S1 as (_ & EH & _). rewrite EH.
  inversion OR as [|? ? HO OR']; subst. inversion UD as [|? ? U1 U2]; subst. apply (session_step h fuel); auto; [apply IH; [split; auto|exact SP]|].
  intros s1 I. apply in_map_iff in I as (y & <- & I). rewrite Forall_forall in SP, HO. split; [now apply SP|now apply (HO y)].
Qed.
Lemma same_self s : same_program s s.
Proof. repeat split. Qed.
Lemma head_in_step s file h F : history ((s, file) :: h) F -> orderly ((s, file) :: h) -> in_step ((s, file) :: h) (w_hash (s_world s)) F.
Proof. intros H O. apply (history_in_step _ _ H O). inversion H; subst. constructor; [apply same_self|assumption]. Qed.

Lemma history_main s file h F db : history ((s, file) :: h) (Some F) -> orderly ((s, file) :: h) -> holds_index (s_world s) F db ->
  exists dbF old, write_database dbF old = Ok F /\ kept_up ((s, file) :: h) (w_hash (s_world s)) dbF /\ same_db dbF db /\ good (w_hash (s_world s)) db.
Proof.
  intros H O E. destruct (head_in_step _ _ _ _ H O F eq_refl) as (dbF & old & EW & SZ & KU).
  destruct (load_good (w_hash (s_world s)) (fun _ => 0) 0 dbF old F (ku_good _ _ _ KU) SZ EW) as (d0 & E0 & S0 & G0); [intros; lia|now cbv|].
  unfold holds_index in E. rewrite E in E0. apply Ok_inj in E0. subst d0. eauto 10.
Qed.
Lemma history_faithful s file h F db : history ((s, file) :: h) (Some F) -> orderly ((s, file) :: h) -> holds_index (s_world s) F db -> faithful (s_world s) db.
Proof.
  intros H O E. destruct (history_main _ _ _ _ _ H O E) as (dbF & old & EW & KU & SD & G). apply (proj1 (same_faithful _ _ _ _ (gd_ok _ _ (ku_good _ _ _ KU)) (gd_ok _ _ G) SD)).
  eapply (ku_faithful _ _ _ KU); reflexivity.
Qed.
(* The sizes of files are those of their contents, if that was so at every session. *)
Lemma history_sized s file h F db : history ((s, file) :: h) (Some F) -> orderly ((s, file) :: h) -> holds_index (s_world s) F db -> sized (s :: map fst h) s db.
Proof.
  intros H O E p mt sz L. destruct (history_main _ _ _ _ _ H O E) as (dbF & old & EW & KU & SD & G). apply (ku_sized _ _ _ KU s file h eq_refl p mt sz). now apply (same_lists _ _ SD).
Qed.
Lemma history_search sd s file h F db r p w : history ((s, file) :: h) (Some F) -> orderly ((s, file) :: h) -> holds_index (s_world s) F db -> open_db F = Ok r ->
  w <> [] -> Forall plain w -> (forall c t, w = c :: t -> c <> ch "~" /\ c <> ch "^") ->
  exists l, search sd F r false [part_key p ++ bs ":" ++ w] = Ok l /\
    forall i, In i l <-> exists m rf w', message db i = Some m /\ says (s_world s) db m rf /\ mentions (w_alnum (s_world s)) rf p w' /\ lower w' = lower w.
Proof.
  intros H O E EO NE PW HW. pose proof (history_faithful _ _ _ _ _ H O E) as FA. destruct (history_main _ _ _ _ _ H O E) as (dbF & old & EW & KU & SD & G).
  destruct (word_main sd (w_hash (s_world s)) dbF old F r p w (gd_ok _ _ (ku_good _ _ _ KU)) EW EO NE PW HW) as (l & EL & HL). exists l. split; [exact EL|]. intros i. rewrite HL.
  destruct (same_alike _ _ _ (gd_ok _ _ (ku_good _ _ _ KU)) (gd_ok _ _ G) SD i) as (AW & _). pose proof SD as (_ & FM & _). split.
  - intros ((m & EM & ND) & RC). destruct (F2_nth _ _ _ FM _ _ EM) as (m' & EM' & X & _). apply AW in RC. destruct (FA i m' EM' ltac:(congruence)) as (R & _). destruct (proj1 (R _ _) RC) as (rf & w' & A & B & C). exists m', rf, w'. auto.
  - intros (m' & rf & w' & EM' & SA & ME & LW). destruct (F2_nth' _ _ _ FM _ _ EM') as (m & EM & X & _). assert (ND : src m' <> S_dead) by (intros Z; destruct SA; congruence). split; [exists m; split; [exact EM|congruence]|].
    apply AW. destruct (FA i m' EM' ND) as (R & _). apply R. exists rf, w'. auto.
Qed.
Lemma history_files sd s file h F db r p w : history ((s, file) :: h) (Some F) -> orderly ((s, file) :: h) -> holds_index (s_world s) F db -> open_db F = Ok r -> s_fast s = false ->
  w <> [] -> Forall plain w -> (forall c t, w = c :: t -> c <> ch "~" /\ c <> ch "^") ->
  exists l, search sd F r false [part_key p ++ bs ":" ++ w] = Ok l /\
    forall f, (exists i m mt sz, In i l /\ message db i = Some m /\ src m = S_file f mt sz) <->
      In {| is_imap := false; fpath := f |} (s_found s) /\ (exists mt sz, w_stat (s_world s) f = Some (M_Paths.K_reg, mt, sz)) /\ ~ hidden f /\
      exists va rf w', w_map (s_world s) f = Mapped va /\ fst (w_parse (s_world s) va) = Some rf /\ mentions (w_alnum (s_world s)) rf p w' /\ lower w' = lower w.
Proof.
  intros H O E EO FS NE PW HW. destruct (history_search sd _ _ _ _ _ _ p w H O E EO NE PW HW) as (l & EL & HL). exists l. split; [exact EL|]. intros f.
  destruct (history_main _ _ _ _ _ H O E) as (dbF & old & EW & KU & SD & G).
  assert (LF : forall mt, (exists sz, lists_src db (S_file f mt sz)) <-> In {| is_imap := false; fpath := f |} (s_found s) /\ exists sz, w_stat (s_world s) f = Some (M_Paths.K_reg, mt, sz)).
  { intros mt. rewrite <- (ku_files _ _ _ KU s file h eq_refl FS f mt). split; intros (sz & Q); exists sz; now apply (same_lists _ _ SD). }
  split.
  - intros (i & m & mt & sz & IL & EM & ES). apply HL in IL as (m2 & rf & w' & EM2 & SA & ME & LW). rewrite EM in EM2. injection EM2 as <-.
    destruct (proj1 (LF mt)) as (F1 & sz' & F2); [exists sz, m; split; [eapply nth_error_In; exact EM|exact ES]|]. split; [exact F1|]. split; [eauto|].
    destruct SA as [q mt' sz2 va E1 NH E2 E3|q E1|? ? ? ? ? ? ? E1]; rewrite ES in E1; try discriminate. injection E1 as <- <- <-. split; [exact NH|]. exists va, rf, w'. auto.
  - intros (IF & (mt & sz & WS) & NH & va & rf & w' & WM & WP & ME & LW). destruct (proj2 (LF mt)) as (sz' & m & IM & ES); [eauto|]. apply In_nth_error in IM as (k & K).
    exists (N.of_nat k), m, mt, sz'. assert (EM : message db (N.of_nat k) = Some m) by (unfold message; now rewrite Nat2N.id). split; [|auto]. apply HL. exists m, rf, w'. split; [exact EM|]. split; [|auto]. eapply Says_file; eauto.
Qed.
Lemma history_server sd s file h F db r p w : history ((s, file) :: h) (Some F) -> orderly ((s, file) :: h) -> holds_index (s_world s) F db -> open_db F = Ok r ->
  w <> [] -> Forall plain w -> (forall c t, w = c :: t -> c <> ch "~" /\ c <> ch "^") ->
  exists l, search sd F r false [part_key p ++ bs ":" ++ w] = Ok l /\
    forall f, (exists i m, In i l /\ message db i = Some m /\ src m = S_imap f) <->
      In {| is_imap := true; fpath := f |} (s_found s) /\ ~ hidden f /\
      exists rf w', w_imap (s_world s) f = Some rf /\ mentions (w_alnum (s_world s)) rf p w' /\ lower w' = lower w.
Proof.
  intros H O E EO NE PW HW. destruct (history_search sd _ _ _ _ _ _ p w H O E EO NE PW HW) as (l & EL & HL). exists l. split; [exact EL|]. intros f.
  destruct (history_main _ _ _ _ _ H O E) as (dbF & old & EW & KU & SD & G).
  assert (LF : lists_src db (S_imap f) <-> In {| is_imap := true; fpath := f |} (s_found s)) by (rewrite (same_lists _ _ SD); apply (ku_imap _ _ _ KU s file h eq_refl f)).
  split.
  - intros (i & m & IL & EM & ES). apply HL in IL as (m2 & rf & w' & EM2 & SA & ME & LW). rewrite EM in EM2. injection EM2 as <-.
    split; [apply LF; exists m; split; [eapply nth_error_In; exact EM|exact ES]|].
    destruct SA as [q mt' sz2 va E1|q E1 NH E2|? ? ? ? ? ? ? E1]; rewrite ES in E1; try discriminate. injection E1 as <-. split; [exact NH|]. exists rf, w'. auto.
  - intros (IF & NH & rf & w' & WM & ME & LW). destruct (proj2 LF IF) as (m & IM & ES). apply In_nth_error in IM as (k & K).
    exists (N.of_nat k), m. assert (EM : message db (N.of_nat k) = Some m) by (unfold message; now rewrite Nat2N.id). split; [|auto]. apply HL. exists m, rf, w'. split; [exact EM|]. split; [|auto]. eapply Says_imap; eauto.
Qed.
Lemma history_opens h F : history h (Some F) -> exists db r s file rest, h = (s, file) :: rest /\ holds_index (s_world s) F db /\ db_ok (w_hash (s_world s)) db /\ open_db F = Ok r.
Proof.
  intros H. inversion H as [|h0 fuel s file file' H0 FI SP E]; subst.
  assert (ST : stored (w_hash (s_world s)) (Some F)) by (apply (history_stored _ _ H s); constructor; [apply same_self|exact SP]).
  destruct (ST F eq_refl) as (db & old & EW & G & L). destruct (load_good (w_hash (s_world s)) (fun _ => 0) 0 db old F G L EW) as (d0 & E0 & S0 & G0); [intros; lia|now cbv|].
  destruct (written_view (w_hash (s_world s)) db old F (gd_ok _ _ G) EW) as (r & EO & _). exists d0, r, s, file, h0. split; [reflexivity|]. split; [exact E0|]. split; [apply G0|exact EO].
Qed.
