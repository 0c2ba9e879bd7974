(* Searches of every kind, from what the mails are. *)
From Coq Require Import Sorted.
From Verif Require Import Base M_Encoding M_TokTable S_TokTable M_DbFile S_DbFile M_Search S_Search M_Tokens S_Tokens M_Mbox S_Mbox S_Header S_Words S_Rfc822 S_Multipart S_Mime M_Rfc822 M_Update S_Update M_Session S_Session M_Program S_Program S_Query S_Query2
  L_Rfc822d L_Mime3 L_Session4 L_Session5 L_Program L_Program2 L_Query L_Query2.
From Verif Require M_Paths.
Local Open Scope N_scope.

Lemma lies_path db m p alone : lies db m p alone -> path_of db m = Some p.
Proof. unfold path_of. destruct 1 as [p mt sz E|p E|fi mi mb p E B P]; rewrite E; try reflexivity. now rewrite B. Qed.
Lemma flag_has db m p alone lines h c : lies db m p alone -> flags_of m h -> headers_of lines h -> In c (bs "sSrRfF") -> flag_on m c = true <-> has_flag p alone lines c.
Proof.
  intros L F (_ & _ & _ & _ & _ & _ & _ & H1 & H2 & H3) I.
  assert (G : (seen m = true <-> (if alone then marked p (ch "S") else In (ch "R") (concat (values "status" lines ++ values "x-status" lines)))) /\
    (replied m = true <-> (if alone then marked p (ch "R") else In (ch "A") (concat (values "status" lines ++ values "x-status" lines)))) /\
    (flagged m = true <-> (if alone then marked p (ch "F") else In (ch "F") (concat (values "status" lines ++ values "x-status" lines))))).
  { unfold flags_of in F. destruct L as [p mt sz E|p E|fi mi mb p E B P]; rewrite E in F; [exact F|exact F|]. destruct F as (-> & -> & ->). split; [exact H1|]. split; [exact H2|exact H3]. }
  destruct G as (G1 & G2 & G3). cbn [bs map] in I. destruct I as [<-|[<-|[<-|[<-|[<-|[<-|[]]]]]]]; [exact G1|exact G1|exact G2|exact G2|exact G3|exact G3].
Qed.
Lemma size_text M D s file h db m t z : s_world s = program_world M D -> sized (s :: map fst h) s db -> true_sizes ((s, file) :: h) -> In m (msgs db) -> text_of D db m t -> size_of db m = Some z -> z = N.of_nat (length t).
Proof.
  intros EW SZ TS IM TX E. unfold size_of in E. destruct TX as [p mt sz ES NH EM|p ES|fi mi mb p a b ES EB EP EM E1 E2]; rewrite ES in E; [|discriminate|].
  - injection E as <-. destruct (SZ p mt sz) as (s0 & I0 & W0 & MP); [exists m; auto|]. rewrite EW in MP. cbn [program_world w_map] in MP. rewrite EM in MP.
    unfold true_sizes in TS. rewrite Forall_forall in TS. change (s :: map fst h) with (map fst ((s, file) :: h)) in I0. apply in_map_iff in I0 as (x & <- & I0). exact (TS x I0 p mt sz t W0 (eq_sym MP)).
  - rewrite EB, E2 in E. congruence.
Qed.
Lemma size_known D db m t : no_imap db -> In m (msgs db) -> text_of D db m t -> exists z, size_of db m = Some z.
Proof.
  intros NI IM TX. unfold size_of. destruct TX as [p mt sz ES NH EM|p ES|fi mi mb p a b ES EB EP EM E1 E2]; rewrite ES; [eauto|exfalso; eapply NI; eauto|]. rewrite EB, E2. eauto.
Qed.

Lemma every_main : forall M D sd s file h F db r args, machine_ok M -> s_world s = program_world M D -> run_by M ((s, file) :: h) ->
  history ((s, file) :: h) (Some F) -> orderly ((s, file) :: h) -> holds_index (s_world s) F db -> open_db F = Ok r ->
  Forall (arg_ok sd db) args -> (forall lo hi, In (A_size lo hi) args -> true_sizes ((s, file) :: h)) ->
  exists l, search sd F r false (map show_arg args) = Ok l /\ StronglySorted N.lt l /\
    forall i m p alone t lines ns at_, S_Search.message db i = Some m -> lies db m p alone -> text_of D db m t -> Forall (fun c => c < 256) t -> S_Mime.message (m_isspc M) t lines ns ->
      legible lines ns -> ids_legible lines ns -> dated_at M lines at_ -> (In i l <-> Forall (says_all M sd p alone t lines ns at_) args).
Proof.
  intros M D sd s file h F db r args MO EW _ HH OR HI OD AO TZ. destruct (history_any sd s file h F db r args HH OR HI OD AO) as (l & E & S & IN). exists l. split; [exact E|]. split; [exact S|].
  intros i m p alone t lines ns at_ EM LP TX B MS L LI DA. rewrite IN. destruct (mail_parsed M MO t lines ns MS B L LI) as (hd & atts & P & HO & MB & MI & MD).
  assert (ND : src m <> S_dead) by (destruct TX; congruence). destruct (history_faithful _ _ _ _ _ HH OR HI i m EM ND) as (W & ID & _ & DT). pose proof (history_sized _ _ _ _ _ HH OR HI) as SZ. rewrite EW in W, ID, DT. cbn [program_world w_alnum] in W.
  assert (SY : says (program_world M D) db m (Rfc822 hd atts)) by (eapply text_says; [exact TX|rewrite P; reflexivity]).
  assert (UN : forall rf, says (program_world M D) db m rf -> rf = Rfc822 hd atts) by (intros rf X; apply (says_text _ _ _ _ _ _ TX) in X; rewrite P in X; cbn [fst] in X; congruence).
  assert (LV : live db i) by (exists m; auto). assert (IM : In m (msgs db)) by (eapply nth_error_In; exact EM).
  assert (RC : forall p v, recorded db p v i <-> exists w, bears (m_alnum M) lines ns p w /\ v = lower w).
  { intros q v. rewrite W. split.
    - intros (rf & w & X & ME & ->). rewrite (UN _ X) in ME. exists w. split; [apply MB; exact ME|reflexivity].
    - intros (w & BE & ->). exists (Rfc822 hd atts), w. split; [exact SY|]. split; [apply MB; exact BE|reflexivity]. }
  assert (FD : forall key tm, S_Search.found db key tm i <-> fits_all (m_alnum M) p lines ns key tm).
  { intros key tm. unfold S_Search.found, fits_all, fits. split.
    - intros [(q & v & A & R & X)|(X & m1 & w & E1 & E2 & E3)].
      + left. apply RC in R as (w & BE & ->). exists q, w. auto.
      + right. split; [exact X|]. rewrite EM in E1. injection E1 as <-. rewrite (lies_path _ _ _ _ LP) in E2. injection E2 as <-. exact E3.
    - intros [(q & w & A & BE & X)|(X & Y)].
      + left. exists q, (lower w). split; [exact A|]. split; [apply RC; exists w; auto|exact X].
      + right. split; [exact X|]. exists m, p. split; [exact EM|]. split; [exact (lies_path _ _ _ _ LP)|exact Y]. }
  destruct (DT _ _ SY) as [ED EF].
  assert (AR : forall a, In a args -> arg_sat sd db a i <-> says_all M sd p alone t lines ns at_ a).
  { rewrite Forall_forall in AO. intros a IA. pose proof (AO a IA) as OKA. destruct a as [key al|id|e|lo hi|fs]; cbn [arg_sat says_all].
    - split; intros (ts & I & G); exists ts; (split; [exact I|]); intros tm J; specialize (G tm J); unfold term_sat in *; destruct (s_not tm); rewrite FD in *; exact G.
    - rewrite ID. split.
      + intros (rf & w & X & C & EL). rewrite (UN _ X) in C. exists w. split; [apply MI; exact C|congruence].
      + intros (w & C & EL). exists (Rfc822 hd atts), w. split; [exact SY|]. split; [apply MI; exact C|congruence].
    - rewrite EM. assert (Q : Z.of_N (date m) = at_) by (rewrite ED; apply MD; exact DA). split.
      + intros (x & lo & hi & X & A & Y). injection X as <-. rewrite Q in Y. eauto.
      + intros (lo & hi & A & Y). exists m, lo, hi. rewrite Q. auto.
    - rewrite EM. cbn [arg_ok] in OKA. destruct OKA as (_ & _ & NI). destruct (size_known D db m t NI IM TX) as (z & Z1).
      pose proof (size_text M D s file h db m t z EW SZ (TZ lo hi IA) IM TX Z1) as Z2. assert (Z3 : Z.of_N z = Z.of_nat (length t)) by lia. split.
      + intros (x & z' & X & A & Y). injection X as <-. rewrite Z1 in A. injection A as <-. rewrite <- Z3. exact Y.
      + intros Y. exists m, z. rewrite Z3. auto.
    - rewrite EM. cbn [arg_ok] in OKA.
      assert (K : forall ng c, In (ng, c) fs -> flag_on m c = negb ng <-> (if ng then ~ has_flag p alone lines c else has_flag p alone lines c)).
      { intros ng c J. pose proof (flag_has db m p alone lines hd c LP EF HO (OKA ng c J)) as FH. destruct ng; cbn [negb].
        - rewrite <- FH. destruct (flag_on m c); split; intros; try discriminate; try reflexivity; congruence.
        - exact FH. }
      split.
      + intros (x & X & A) ng c J. injection X as <-. apply (proj1 (K ng c J)). exact (A ng c J).
      + intros A. exists m. split; [reflexivity|]. intros ng c J. apply (proj2 (K ng c J)). exact (A ng c J). }
  split.
  - intros (_ & A). rewrite Forall_forall in *. intros a I. apply AR; auto.
  - intros A. split; [exact LV|]. rewrite Forall_forall in *. intros a I. apply AR; auto.
Qed.
