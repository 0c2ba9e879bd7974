(* Excerpts from the index file on; and an example. *)
From Verif Require Import Base M_DbFile S_DbFile M_Search S_Search M_Tokens M_Rfc822 S_Header S_Rfc822 L_Rfc822d M_Output S_Output L_DbFile5 L_DbFile6 L_DbFile7 L_Search6 L_Output4 L_Output9 M_Excerpt S_Excerpt L_Excerpt.
Local Open Scope N_scope.

Lemma whole_excerpts hashf csum expand isspc mktime from_imap day db old F r d :
  db_ok hashf db -> write_database db old = Ok F -> open_db F = Ok r -> places_small db -> maps_small expand d ->
  (forall m w st ln ck, In m (msgs db) -> indexed_at db m w st ln ck -> st + ln < 2 ^ 31) ->
  forall results ms, Forall2 (fun i m => message db i = Some m) results ms ->
  Forall (fun m => src m <> S_dead /\ parses csum expand isspc mktime from_imap d db m) ms ->
  exists o bs, output_excerpt csum expand isspc mktime from_imap day F r d results = Ok o /\ o_disc o = d /\ o_stdout o = concat bs /\
    Forall2 (excerpt csum expand isspc mktime from_imap day d db) ms bs /\ (o_warned o = true <-> Exists (changed csum expand d db) ms).
Proof. intros OK EW EO SM MP EN. apply all_excerpts; auto. exact (out_written hashf db old F r OK EW EO). Qed.

Definition xc_msg (i : N) : msg := nth (N.to_nat i) (msgs ex_db) (mk_msg S_dead 0 0).
Definition xc_disc : disc := mk_disc [(bs "/m/new/1", File 0); (bs "/m/box", File 1)] [bs "Subject: hi" ++ [10; 10] ++ bs "x"; text0 ++ removelast text1 ++ bs "."].
Definition xc_imap (p : bytes) : res (option rfc822) := Ok None.
Definition xc_day (z : Z) : bytes := bs "Thu, 01 Jan 1970".
Lemma xc_maps : maps_small plain_file xc_disc.
Proof. apply ex_maps. now vm_compute. Qed.
Lemma xc_messages : Forall2 (fun i m => message ex_db i = Some m) [4; 0; 3; 1] (map xc_msg [4; 0; 3; 1]).
Proof. cbn [map]. repeat (constructor; [reflexivity|]). constructor. Qed.
Lemma xc_parses : Forall (fun m => src m <> S_dead /\ parses ex_csum plain_file isspace ex_mktime xc_imap xc_disc ex_db m) (map xc_msg [4; 0; 3; 1]).
Proof.
  assert (B : forall m fi mi w t, src m = S_mbox fi mi -> In m (msgs ex_db) -> unchanged ex_csum plain_file xc_disc ex_db m w t -> t = text0 \/ t = removelast text1 ++ bs ".").
  { intros m fi mi w t ES HI ((st & ln & ck & b & (fi' & mi' & mb & E & E1 & E2 & E3 & E4 & E5) & EM & ET) & _). rewrite ET. clear ET.
    cbn in HI. destruct HI as [<-|[<-|[<-|[<-|[<-|[]]]]]]; cbn in E; try discriminate E; injection E as <- <-; vm_compute in E1; injection E1 as <-;
      cbn in E3, E4; injection E3 as <-; injection E4 as <-; vm_compute in E2; injection E2 as <-; vm_compute in EM; injection EM as <-; [left|right]; vm_compute; reflexivity. }
  assert (P : forall t, t = text0 \/ t = removelast text1 ++ bs "." \/ t = bs "Subject: hi" ++ [10; 10] ++ bs "x" -> exists o e, data_to_rfc822 isspace ex_mktime t (length t) = Ok (o, e)).
  { intros t [-> |[-> | ->]]; (eexists _, _; vm_compute; reflexivity). }
  apply Forall_forall. intros m Hm. assert (HI : In m (msgs ex_db)) by (cbn in Hm |- *; tauto). split.
  - cbn in Hm. destruct Hm as [<-|[<-|[<-|[<-|[]]]]]; discriminate.
  - split; [|intros p _; exists None; reflexivity]. intros t [(p & mt & sz & ES & EM)|(w & U)]; apply P.
    + right. right. cbn in Hm. destruct Hm as [<-|[<-|[<-|[<-|[]]]]]; cbn in ES; try discriminate ES. injection ES as <- _ _. vm_compute in EM. injection EM as <-. reflexivity.
    + pose proof U as ((st & ln & ck & b & (fi & mi & mb & E & _) & _) & _). destruct (B m fi mi w t E HI U) as [-> | ->]; auto.
Qed.
Lemma xc_runs : exists o, output_excerpt ex_csum plain_file isspace ex_mktime xc_imap xc_day ex_F (exp_db ex_db) xc_disc [4; 0; 3; 1] = Ok o /\ o_warned o = true /\
  o_stdout o = dashes ++ bs "&3:INBOX" ++ [10] ++
    dashes ++ bs "/m/new/1" ++ [10] ++ bs "  Subject:     hi" ++ [10] ++ bs "  Date:        Thu, 01 Jan 1970" ++ [10] ++
    dashes ++ bs "mbox:/m/box [40,90)" ++ [10] ++
    dashes ++ bs "mbox:/m/box [0,40)" ++ [10] ++ bs "  From:        bob" ++ [10] ++ bs "  Date:        Thu, 01 Jan 1970" ++ [10].
Proof. eexists. split; [vm_compute; reflexivity|]. split; vm_compute; reflexivity. Qed.
