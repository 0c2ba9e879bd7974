(* The program from the bytes of the messages to the results of a search. *)
From Verif Require Import Base M_Encoding M_TokTable S_TokTable M_DbFile S_DbFile M_Search S_Search M_Tokens S_Tokens M_Mbox S_Mbox S_Words S_Rfc822 S_Multipart S_Mime M_Rfc822 M_Update S_Update M_Session S_Session M_Program S_Program
  L_DbFile7 L_Search6 L_Update14 L_Session2 L_Session5 L_Session6 L_Program.
From Verif Require M_Paths.
Local Open Scope N_scope.

Lemma says_text : forall M D db m t r, text_of D db m t -> says (program_world M D) db m r -> fst (parse_text M t) = Some r.
Proof.
  intros M D db m t r T S. destruct T as [p mt sz E H D1|p E H D1|fi mi mb p a b E EM EP ED ES EL]; destruct S as [p' mt' sz' va E' H' D' P'|p' E' H' D'|fi' mi' mb' p' va st ln E' EM' EP' ED' ES' EL' B' P'];
    rewrite E in E'; try discriminate; injection E'; intros; subst; cbn [program_world w_map w_imap w_parse] in *.
  - congruence.
  - unfold from_server in D'. rewrite D1 in D'. exact D'.
  - rewrite EM in EM'. injection EM' as <-. rewrite EP in EP'. injection EP' as <-. rewrite ED in ED'. injection ED' as <-. rewrite ES in ES'. injection ES' as <-. rewrite EL in EL'. injection EL' as <-.
    rewrite !Nat2N.id in P'. rewrite skipn_app, skipn_all, Nat.sub_diag in P'. cbn [skipn app] in P'. rewrite firstn_app, Nat.sub_diag, firstn_all in P'. cbn [firstn] in P'. rewrite app_nil_r in P'. exact P'.
Qed.
Lemma text_says : forall M D db m t r, text_of D db m t -> fst (parse_text M t) = Some r -> says (program_world M D) db m r.
Proof.
  intros M D db m t r T P. destruct T as [p mt sz E H D1|p E H D1|fi mi mb p a b E EM EP ED ES EL].
  - eapply Says_file; [exact E|exact H|exact D1|exact P].
  - eapply Says_imap; [exact E|exact H|]. cbn [program_world w_imap]. unfold from_server. rewrite D1. exact P.
  - eapply Says_mbox; [exact E|exact EM|exact EP|exact ED|exact ES|exact EL|rewrite !app_length; lia|]. cbn [program_world w_parse].
    rewrite !Nat2N.id, skipn_app, skipn_all, Nat.sub_diag. cbn [skipn app]. rewrite firstn_app, Nat.sub_diag, firstn_all. cbn [firstn]. rewrite app_nil_r. exact P.
Qed.
Lemma entries_main : forall M D sd s file h F db r p w, machine_ok M -> s_world s = program_world M D -> run_by M ((s, file) :: h) ->
  history ((s, file) :: h) (Some F) -> orderly ((s, file) :: h) -> holds_index (s_world s) F db -> open_db F = Ok r ->
  w <> [] -> Forall plain w -> (forall c t, w = c :: t -> c <> ch "~" /\ c <> ch "^") ->
  exists l, search sd F r false [part_key p ++ bs ":" ++ w] = Ok l /\
    forall i m t lines ns, S_Search.message db i = Some m -> text_of D db m t -> Forall (fun c => c < 256) t -> S_Mime.message (m_isspc M) t lines ns -> legible lines ns ->
      (In i l <-> exists w', bears (m_alnum M) lines ns p w' /\ lower w' = lower w).
Proof.
  intros M D sd s file h F db r p w MO EW _ HH OR HI OD NE PL NT. destruct (history_search sd s file h F db r p w HH OR HI OD NE PL NT) as (l & E & S). exists l. split; [exact E|].
  intros i m t lines ns EM TX B MS L. rewrite S. clear S. destruct (words_main M MO _ _ _ MS B L) as (rf & P & MB). rewrite EW. cbn [program_world w_alnum]. split.
  - intros (m' & rf' & w' & EM' & SY & ME & LO). rewrite EM in EM'. injection EM' as <-. pose proof (says_text _ _ _ _ _ _ TX SY) as X. rewrite P in X. injection X as <-. exists w'. split; [apply MB; exact ME|exact LO].
  - intros (w' & BE & LO). exists m, rf, w'. split; [exact EM|]. split; [eapply text_says; [exact TX|rewrite P; reflexivity]|]. split; [apply MB; exact BE|exact LO].
Qed.
Lemma files_main : forall M D sd s file h F db r p w, machine_ok M -> s_world s = program_world M D -> run_by M ((s, file) :: h) ->
  history ((s, file) :: h) (Some F) -> orderly ((s, file) :: h) -> holds_index (s_world s) F db -> open_db F = Ok r -> s_fast s = false ->
  w <> [] -> Forall plain w -> (forall c t, w = c :: t -> c <> ch "~" /\ c <> ch "^") ->
  exists l, search sd F r false [part_key p ++ bs ":" ++ w] = Ok l /\
    forall f mt sz t lines ns, In {| is_imap := false; fpath := f |} (s_found s) -> d_stat D f = Some (M_Paths.K_reg, mt, sz) -> ~ hidden f -> d_map D f = Mapped t ->
      Forall (fun c => c < 256) t -> S_Mime.message (m_isspc M) t lines ns -> legible lines ns ->
      ((exists i m mt' sz', In i l /\ S_Search.message db i = Some m /\ src m = S_file f mt' sz') <-> exists w', bears (m_alnum M) lines ns p w' /\ lower w' = lower w).
Proof.
  intros M D sd s file h F db r p w MO EW _ HH OR HI OD FA NE PL NT. destruct (history_files sd s file h F db r p w HH OR HI OD FA NE PL NT) as (l & E & S). exists l. split; [exact E|].
  intros f mt sz t lines ns I ST NH MP B MS L. rewrite S. clear S. destruct (words_main M MO _ _ _ MS B L) as (rf & P & MB). rewrite EW. cbn [program_world w_alnum w_stat w_map w_parse]. split.
  - intros (_ & _ & _ & va & rf' & w' & MP' & P' & ME & LO). rewrite MP in MP'. injection MP' as <-. rewrite P in P'. injection P' as <-. exists w'. split; [apply MB; exact ME|exact LO].
  - intros (w' & BE & LO). split; [exact I|]. split; [exists mt, sz; exact ST|]. split; [exact NH|]. exists t, rf, w'. split; [exact MP|]. split; [rewrite P; reflexivity|]. split; [apply MB; exact BE|exact LO].
Qed.
Lemma server_main : forall M D sd s file h F db r p w, machine_ok M -> s_world s = program_world M D -> run_by M ((s, file) :: h) ->
  history ((s, file) :: h) (Some F) -> orderly ((s, file) :: h) -> holds_index (s_world s) F db -> open_db F = Ok r ->
  w <> [] -> Forall plain w -> (forall c t, w = c :: t -> c <> ch "~" /\ c <> ch "^") ->
  exists l, search sd F r false [part_key p ++ bs ":" ++ w] = Ok l /\
    forall f t lines ns, In {| is_imap := true; fpath := f |} (s_found s) -> ~ hidden f -> d_server D f = Some t ->
      Forall (fun c => c < 256) t -> S_Mime.message (m_isspc M) t lines ns -> legible lines ns ->
      ((exists i m, In i l /\ S_Search.message db i = Some m /\ src m = S_imap f) <-> exists w', bears (m_alnum M) lines ns p w' /\ lower w' = lower w).
Proof.
  intros M D sd s file h F db r p w MO EW _ HH OR HI OD NE PL NT. destruct (history_server sd s file h F db r p w HH OR HI OD NE PL NT) as (l & E & S). exists l. split; [exact E|].
  intros f t lines ns I NH SV B MS L. rewrite S. clear S. destruct (words_main M MO _ _ _ MS B L) as (rf & P & MB). rewrite EW. cbn [program_world w_alnum w_imap]. unfold from_server. split.
  - intros (_ & _ & rf' & w' & P' & ME & LO). rewrite SV, P in P'. injection P' as <-. exists w'. split; [apply MB; exact ME|exact LO].
  - intros (w' & BE & LO). split; [exact I|]. split; [exact NH|]. exists rf, w'. rewrite SV, P. split; [reflexivity|]. split; [apply MB; exact BE|exact LO].
Qed.
