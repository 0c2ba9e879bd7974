(* From what the index says to what the mails say. *)
From Coq Require Import Sorted.
From Verif Require Import Base M_Encoding M_TokTable S_TokTable M_DbFile S_DbFile M_Search S_Search M_Tokens S_Tokens M_Mbox S_Mbox S_Header S_Words S_Rfc822 S_Multipart S_Mime M_Rfc822 M_Update S_Update M_Session S_Session M_Program S_Program S_Query
  L_Rfc822d L_Mime3 L_Session5 L_Program L_Program2 L_Query.
Local Open Scope N_scope.

Lemma identified_carries : forall lines ns w, identified lines ns w -> forall h atts, headers_of lines h -> depict ns atts -> carries (Rfc822 h atts) true w.
Proof.
  induction 1 as [lines ns v vs r ws w EV R Z A I|lines ns name lines' ns' w I H IH]; intros h atts HO D.
  - destruct HO as (_ & _ & _ & _ & F & _). rewrite EV in F. destruct F as (r' & E & S). rewrite (S _ R Z) in E. exact (Ca_own _ _ _ _ _ E A I).
  - destruct (depict_of _ _ D _ I) as (a & J & K). inversion K; subst. eapply Ca_nested; [exact J|]. apply IH; assumption.
Qed.
Lemma carries_identified : forall m own w, carries m own w -> own = true -> forall h atts lines ns, m = Rfc822 h atts -> headers_of lines h -> depict ns atts -> ids_legible lines ns -> identified lines ns w.
Proof.
  induction 1 as [h0 a0 t ws w E A I|h0 a0 t ws w E A I|h0 a0 fn m own w I C IH]; intros EO h atts lines ns EM HO D L; try discriminate; injection EM as -> ->; destruct L as [lines ns L1 L2].
  - destruct HO as (_ & _ & _ & _ & F & _). destruct (values "message-id" lines) as [|v vs] eqn:EV; [cbn in F; congruence|]. destruct F as (r & E' & S). rewrite E in E'. injection E' as <-.
    destruct (L1 v (or_introl eq_refl)) as (r' & R & Z). rewrite (S _ R Z) in A. eapply Id_own; eassumption.
  - destruct (depict_in _ _ D _ I) as (n & J & K). inversion K; subst. eapply Id_mail; [exact J|]. eapply IH; [reflexivity|reflexivity|eassumption|eassumption|exact (L2 _ _ _ J)].
Qed.
Lemma date_kept t : (0 <= t < 2 ^ 32)%Z -> Z.of_N (u32_of_int t) = t.
Proof. intros H. unfold u32_of_int. rewrite Z.mod_small by exact H. lia. Qed.

Section Mail.
Variable M : machine.
Hypothesis MO : machine_ok M.
Lemma mail_parsed data lines ns : S_Mime.message (m_isspc M) data lines ns -> Forall (fun c => c < 256) data -> legible lines ns -> ids_legible lines ns ->
  exists h atts, parse_text M data = (Some (Rfc822 h atts), false) /\ headers_of lines h /\ (forall p w, mentions (m_alnum M) (Rfc822 h atts) p w <-> bears (m_alnum M) lines ns p w) /\
    (forall w, carries (Rfc822 h atts) true w <-> identified lines ns w) /\ forall t, dated_at M lines t -> Z.of_N (u32_of_int (h_date h)) = t.
Proof.
  intros MS B L LI. destruct (mime_main (m_isspc M) (m_mktime M) (mo_space M MO) data lines ns [] MS B) as (h & atts & P & HO & D).
  exists h, atts. split; [|split; [exact HO|split; [|split]]].
  - rewrite app_nil_r in P. unfold parse_text. rewrite (small_memory _ B), P. reflexivity.
  - intros p w. split; intros H; [eapply (mentions_bears M MO); [exact H|reflexivity|exact HO|exact D|exact L]|eapply (bears_mentions M MO); eassumption].
  - intros w. split; intros H; [eapply carries_identified; [exact H|reflexivity|reflexivity|exact HO|exact D|exact LI]|eapply identified_carries; eassumption].
  - intros t DA. destruct MS as (body & HD & _ & _). destruct HD as [fs e body HF EN].
    pose proof (message_date (m_isspc M) (m_mktime M) (mo_space M MO) fs e body [] h atts _ HF EN B P) as MD.
    destruct DA as [(EV & ->)|(y & m & d & (v & r & EV & R & Z & DT) & ET & RG)]; rewrite EV in MD.
    + rewrite MD. reflexivity.
    + rewrite (MD r y m d R Z DT) by lia. rewrite <- ET. apply date_kept. lia.
Qed.
End Mail.

Lemma expressions_main : forall M D sd s file h F db r args, machine_ok M -> s_world s = program_world M D -> run_by M ((s, file) :: h) ->
  history ((s, file) :: h) (Some F) -> orderly ((s, file) :: h) -> holds_index (s_world s) F db -> open_db F = Ok r ->
  Forall (arg_ok sd db) args -> Forall about_text args ->
  exists l, search sd F r false (map show_arg args) = Ok l /\ StronglySorted N.lt l /\
    forall i m t lines ns at_, S_Search.message db i = Some m -> text_of D db m t -> Forall (fun c => c < 256) t -> S_Mime.message (m_isspc M) t lines ns ->
      legible lines ns -> ids_legible lines ns -> dated_at M lines at_ -> (In i l <-> Forall (says_of M sd lines ns at_) args).
Proof.
  intros M D sd s file h F db r args MO EW _ HH OR HI OD AO AT. destruct (history_any sd s file h F db r args HH OR HI OD AO) as (l & E & S & IN). exists l. split; [exact E|]. split; [exact S|].
  intros i m t lines ns at_ EM TX B MS L LI DA. rewrite IN. destruct (mail_parsed M MO t lines ns MS B L LI) as (hd & atts & P & _ & MB & MI & MD).
  assert (ND : src m <> S_dead) by (destruct TX; congruence). destruct (history_faithful _ _ _ _ _ HH OR HI i m EM ND) as (W & ID & _ & DT). rewrite EW in W, ID, DT. cbn [program_world w_alnum] in W.
  assert (SY : says (program_world M D) db m (Rfc822 hd atts)) by (eapply text_says; [exact TX|rewrite P; reflexivity]).
  assert (UN : forall rf, says (program_world M D) db m rf -> rf = Rfc822 hd atts) by (intros rf X; apply (says_text _ _ _ _ _ _ TX) in X; rewrite P in X; cbn [fst] in X; congruence).
  assert (LV : live db i) by (exists m; auto).
  assert (RC : forall p v, recorded db p v i <-> exists w, bears (m_alnum M) lines ns p w /\ v = lower w).
  { intros p v. rewrite W. split.
    - intros (rf & w & X & ME & ->). rewrite (UN _ X) in ME. exists w. split; [apply MB; exact ME|reflexivity].
    - intros (w & BE & ->). exists (Rfc822 hd atts), w. split; [exact SY|]. split; [apply MB; exact BE|reflexivity]. }
  assert (FD : forall key tm, ~ selects_path key -> S_Search.found db key tm i <-> fits (m_alnum M) lines ns key tm).
  { intros key tm NP. unfold S_Search.found, fits. split.
    - intros [(p & v & A & R & X)|(X & _)]; [|contradiction]. apply RC in R as (w & BE & ->). exists p, w. auto.
    - intros (p & w & A & BE & X). left. exists p, (lower w). split; [exact A|]. split; [apply RC; exists w; auto|exact X]. }
  assert (AR : forall a, about_text a -> arg_sat sd db a i <-> says_of M sd lines ns at_ a).
  { intros [key al|id|e|lo hi|fs] AB; cbn [about_text] in AB; cbn [arg_sat says_of]; try contradiction.
    - split; intros (ts & I & G); exists ts; (split; [exact I|]); intros tm J; specialize (G tm J); unfold term_sat in *; destruct (s_not tm); rewrite (FD _ _ AB) in *; exact G.
    - rewrite ID. split.
      + intros (rf & w & X & C & EL). rewrite (UN _ X) in C. exists w. split; [apply MI; exact C|congruence].
      + intros (w & C & EL). exists (Rfc822 hd atts), w. split; [exact SY|]. split; [apply MI; exact C|congruence].
    - rewrite EM. destruct (DT _ _ SY) as [ED _]. assert (Q : Z.of_N (date m) = at_) by (rewrite ED; apply MD; exact DA). split.
      + intros (x & lo & hi & X & A & Y). injection X as <-. rewrite Q in Y. eauto.
      + intros (lo & hi & A & Y). exists m, lo, hi. rewrite Q. auto. }
  rewrite Forall_forall in AT. split.
  - intros (_ & A). rewrite Forall_forall in *. intros a I. apply AR; auto.
  - intros A. split; [exact LV|]. rewrite Forall_forall in *. intros a I. apply AR; auto.
Qed.
