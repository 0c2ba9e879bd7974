From Verif Require Import Base M_DbFile S_DbFile M_Search S_Search M_Tokens M_Rfc822 M_Output S_Output L_Output L_Output4 L_Output6 L_Output7 M_Excerpt S_Excerpt.
Local Open Scope N_scope.

Section Out.
Context (csum : bytes -> bytes) (expand : bytes -> bytes -> option bytes) (isspc : N -> bool) (mktime : Z -> Z -> Z -> Z).
Context (from_imap : bytes -> res (option rfc822)) (day : Z -> bytes) (d : disc) (db : database) (F : bytes) (r : read_db).
Context (VIEW : forall i x, message db i = Some x -> out_facts F r db i x) (SMALL : places_small db) (MAPS : maps_small expand d).
Context (EN : forall m w st ln ck, In m (msgs db) -> indexed_at db m w st ln ck -> st + ln < 2 ^ 31).
Local Notation ex := (excerpt csum expand isspc mktime from_imap day d db).

Lemma field_shown label o l b : shown l b -> shown ((label, o) :: l) (field_line label o ++ b).
Proof. intros H. destruct o as [v|]; cbn [field_line]; [|now apply sh_not]. rewrite <- !app_assoc. now apply sh_there. Qed.
Lemma fields_ok o : of_parse day o (fields day o).
Proof.
  destruct o as [[h atts]|]; [|reflexivity]. cbn [of_parse fields].
  exists (field_line "  To:         " (h_to h) ++ field_line "  Cc:         " (h_cc h) ++ field_line "  From:       " (h_from h) ++
      field_line "  Subject:    " (h_subject h) ++ field_line "  Message-ID: " (h_message_id h) ++ field_line "  In-Reply-To:" (h_in_reply_to h)).
  split; [rewrite <- !app_assoc; reflexivity|].
  do 5 apply field_shown. rewrite <- (app_nil_r (field_line _ _)). apply field_shown, sh_none.
Qed.
Lemma raw_one i x : message db i = Some x -> (exists fi mi, src x = S_mbox fi mi) -> exists b, to_raw F r i = Ok b /\ raw_line db x b.
Proof.
  intros HM (fi & mi & ES). pose proof (nth_error_In _ _ HM) as HIN. destruct (type_of db F r VIEW i x HM) as [T _]. destruct (VIEW i x HM) as [_ PV PB]. unfold to_raw. rewrite T, ES. cbn [bind type_code].
  change (2 =? 1) with false. change (2 =? 3) with false. change (2 =? 2) with true. cbn [orb]. cbv iota.
  destruct (SMALL x fi mi HIN ES) as (w & st & ln & ck & IX & L1 & L2). pose proof (EN x w st ln ck HIN IX) as L3.
  destruct (PB _ _ _ _ IX) as (fi' & mi' & off & po & co & ES' & E1 & E2 & E3 & E4 & E5 & E6 & E7 & E8).
  rewrite E5. cbn [bind]. rewrite E6. cbn [bind]. apply N.leb_gt in L1, L2, L3. rewrite L1, L2, L3. cbn [orb].
  rewrite E1. cbn [bind]. rewrite E2. cbn [bind]. rewrite E3. cbn [bind]. rewrite E4. cbn [bind].
  eexists. split; [reflexivity|]. unfold raw_line. rewrite ES.
  exists w, st, ln, ck, (show_int st), (show_int (st + ln)). split; [exact IX|]. split; [apply show_int_written|]. split; [apply show_int_written|reflexivity].
Qed.
Lemma one_excerpt i x : message db i = Some x -> src x <> S_dead -> parses csum expand isspc mktime from_imap d db x ->
  exists b w, to_excerpt csum expand isspc mktime from_imap day F r d i = Ok (b, w) /\ ex x b /\ (w = true <-> changed csum expand d db x).
Proof.
  intros HM ND (P1 & P2). destruct (type_of db F r VIEW i x HM) as [T _]. pose proof (VIEW i x HM) as OF. pose proof OF as [_ PV _].
  assert (CN : (forall fi mi, src x <> S_mbox fi mi) -> (false = true <-> changed csum expand d db x)).
  { intros H. split; [discriminate|]. intros (w & t & (st & ln & ck & c & (fi & mi & mb & E & _) & _) & _). exfalso. eapply H. exact E. }
  unfold to_excerpt. rewrite T. cbn [bind]. destruct (src x) as [|q mt sz|q|fi mi] eqn:ES; [congruence|..]; cbn [type_code].
  - change (1 =? 1) with true. cbv iota. rewrite (PV q) by eauto. cbn [bind]. unfold parsed_file. destruct (MAPS q) as [o Ho]. rewrite Ho. cbn [bind]. destruct o as [t|].
    + destruct (P1 t) as (o & e & EP); [left; exists q, mt, sz; auto|]. rewrite EP. cbn [bind]. do 2 eexists. split; [reflexivity|]. split; [|apply CN; congruence].
      exists (q ++ bs_nl), (fields day o). split; [rewrite <- app_assoc; reflexivity|]. split; [unfold raw_line; now rewrite ES|]. rewrite ES. split; [|congruence].
      intros t' E. assert (t' = t) as -> by congruence. exists o, e. split; [exact EP|apply fields_ok].
    + do 2 eexists. split; [reflexivity|]. split; [|apply CN; congruence]. exists (q ++ bs_nl), []. split; [rewrite <- app_assoc; reflexivity|].
      split; [unfold raw_line; now rewrite ES|]. rewrite ES. split; [congruence|reflexivity].
  - change (3 =? 1) with false. change (3 =? 3) with true. cbv iota. rewrite (PV q) by eauto. cbn [bind]. destruct (P2 q eq_refl) as (o & EO). rewrite EO. cbn [bind].
    do 2 eexists. split; [reflexivity|]. split; [|apply CN; congruence]. exists (q ++ bs_nl), (fields day o). split; [rewrite <- app_assoc; reflexivity|].
    split; [unfold raw_line; now rewrite ES|]. rewrite ES. intros o' E. assert (o' = o) as -> by congruence. apply fields_ok.
  - change (2 =? 1) with false. change (2 =? 3) with false. change (2 =? 2) with true. cbv iota.
    destruct (raw_one i x HM ltac:(eauto)) as (line & EL & RL). rewrite EL. cbn [bind].
    destruct (SMALL x fi mi (nth_error_In _ _ HM) ES) as (w & st & ln & ck & IX & HS & HL). destruct (MAPS w) as [o Ho].
    destruct (validated_spec csum expand F r db d i x OF) as (v & EV & V1 & V2 & _); [exists w, st, ln, ck; eauto 6|]. rewrite EV. cbn [bind].
    destruct v as [| |w0 t0].
    + do 2 eexists. split; [reflexivity|]. split; [|rewrite <- V2; split; discriminate]. exists line, []. split; [now rewrite app_nil_r|]. split; [exact RL|]. rewrite ES.
      split; [|reflexivity]. intros w' t U. apply V1 in U. discriminate.
    + do 2 eexists. split; [reflexivity|]. split; [|rewrite <- V2; split; reflexivity]. exists line, []. split; [now rewrite app_nil_r|]. split; [exact RL|]. rewrite ES.
      split; [|reflexivity]. intros w' t U. apply V1 in U. discriminate.
    + assert (U0 : unchanged csum expand d db x w0 t0) by (apply V1; reflexivity). destruct (P1 t0) as (p & e & EP); [right; eauto|]. rewrite EP. cbn [bind].
      do 2 eexists. split; [reflexivity|]. split; [|rewrite <- V2; split; discriminate]. exists line, (fields day p). split; [reflexivity|]. split; [exact RL|]. rewrite ES.
      split; [|intros H; exfalso; eapply H; exact U0]. intros w' t U. apply V1 in U. injection U as <- <-. exists p, e. split; [exact EP|apply fields_ok].
Qed.
Lemma all_excerpts l xs : Forall2 (fun i x => message db i = Some x) l xs -> Forall (fun x => src x <> S_dead /\ parses csum expand isspc mktime from_imap d db x) xs ->
  exists o bs, output_excerpt csum expand isspc mktime from_imap day F r d l = Ok o /\ o_disc o = d /\ o_stdout o = concat bs /\ Forall2 ex xs bs /\
    (o_warned o = true <-> Exists (changed csum expand d db) xs).
Proof.
  intros HM HP.
  destruct (each_text_ok (to_excerpt csum expand isspc mktime from_imap day F r d) (fun i b => exists x, message db i = Some x /\ ex x b)
    (fun i => exists x, message db i = Some x /\ changed csum expand d db x) l) as (bs & w & ET & GT & WT).
  - intros i Hi. assert (X : exists x, message db i = Some x /\ In x xs).
    { clear -HM Hi. induction HM as [|j y l xs E H IH]; [destruct Hi|]. destruct Hi as [<-|Hi]; [exists y; split; [exact E|now left]|]. destruct (IH Hi) as (x & A & B). exists x. split; [exact A|now right]. }
    destruct X as (x & EX & IN). rewrite Forall_forall in HP. destruct (HP x IN) as [ND PA]. destruct (one_excerpt i x EX ND PA) as (b & w & E & G & W).
    exists b, w. split; [exact E|]. split; [eauto|]. rewrite W. split; [eauto|]. intros (y & A & B). rewrite EX in A. now injection A as <-.
  - eexists _, bs. unfold output_excerpt. rewrite ET. cbn [bind]. split; [reflexivity|]. cbn [o_disc o_stdout o_warned]. split; [reflexivity|]. split; [reflexivity|]. split.
    + clear -HM GT. revert bs GT. induction HM as [|j y l xs E H IH]; intros bs GT; inversion GT as [|a b c e (x & A & B) G]; subst; constructor; [|auto]. rewrite E in A. now injection A as <-.
    + rewrite WT, Exists_exists. clear -HM. split.
      * intros (i & Hi & x & A & B). exists x. split; [|exact B]. induction HM as [|j y l xs E H IH]; [destruct Hi|]. destruct Hi as [<-|Hi]; [left; congruence|right; auto].
      * intros (x & Hx & B). induction HM as [|j y l xs E H IH]; [destruct Hx|]. destruct Hx as [<-|Hx]; [exists j; split; [now left|eauto]|]. destruct (IH Hx) as (i & P & Q). exists i. split; [now right|exact Q].
Qed.
End Out.
