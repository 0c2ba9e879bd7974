(* The program on mailboxes: from the grammar of separator lines and of MIME messages to search results. *)
From Verif Require Import Base M_Encoding M_TokTable S_TokTable M_DbFile S_DbFile M_Search S_Search M_Thread M_Tokens S_Tokens M_Mbox S_Mbox S_Rfc822 S_Multipart S_Mime M_Rfc822 M_Update S_Update M_Session S_Session M_From M_Program S_Program S_Boxes S_Mails
  L_Search5 L_Search6 L_Mime3 L_Mime4 L_Mime6 L_From4 L_Program L_Program2 L_Boxes L_Boxes2 L_Boxes3 L_Boxes4 L_Boxes5.
From Verif Require S_From.
Local Open Scope N_scope.

(* ---- the mails of a program ---- *)
Lemma whole_box a : forall mails, Forall (fun m => S_Multipart.whole_lines (snd m)) mails -> S_Multipart.whole_lines a -> S_Multipart.whole_lines (a ++ box_text mails).
Proof.
  intros mails. revert a. induction mails as [|[l t] mails IH]; intros a F W; [cbn [box_text flat_map]; now rewrite app_nil_r|]. inversion F as [|? ? F1 F2]; subst. cbn [box_text flat_map fst snd]. fold (box_text mails). rewrite app_assoc. apply IH; [exact F2|].
  apply whole_app; [exact W|]. rewrite !app_assoc. apply whole_app; [right; exists (bs "From " ++ l); reflexivity|exact F1].
Qed.
Lemma mails_main M D s p mails : machine_ok M -> sound M D s -> In p (s_paths s) -> d_map D p = Mapped (box_text mails) -> program_mails M mails -> mails_ok (program_world M D) mails.
Proof.
  intros MO SO IP EM PM. unfold mails_ok. unfold program_mails in PM. rewrite Forall_forall in *. intros m IM. destruct (PM m IM) as ([X1 X2 X3 X4 X5 X6 X7] & lines & ns & MS & B). cbn [program_world w_from_ok w_parse].
  apply in_split in IM as (m1 & m2 & EQ). subst mails.
  assert (W1 : S_Multipart.whole_lines (box_text m1 ++ bs "From " ++ fst m ++ [10])).
  { rewrite !app_assoc. right. exists ((box_text m1 ++ bs "From ") ++ fst m). reflexivity. }
  constructor; auto.
  - intros rest. apply from_main. apply X2.
  - destruct (mime_main (m_isspc M) (m_mktime M) (mo_space M MO) (snd m) lines ns [] MS B) as (h & atts & P & _). rewrite app_nil_r in P. unfold parse_text. rewrite (small_memory _ B), P. cbn. discriminate.
  - intros a b WA E (rest & SE). apply from_main in SE. destruct (X6 a b WA E (ex_intro _ rest SE)) as [OA R]. split; [|exact R].
    assert (ST : sound_text M a). { eapply (so_boxes _ _ _ SO p _ (box_text m1 ++ bs "From " ++ fst m ++ [10]) a (bs "From " ++ b ++ box_text m2) IP EM); [|exact W1|now left]. rewrite box_app. change (box_text (m :: m2)) with ((bs "From " ++ fst m ++ [10] ++ snd m) ++ box_text m2). rewrite E, <- !app_assoc. reflexivity. }
    destruct ST as [BA ([r e] & P)]. destruct (told_main (m_isspc M) (m_mktime M) (mo_space M MO) a [] r e OA BA) as [_ ->]; [now rewrite app_nil_r|]. unfold parse_text. rewrite (small_memory _ BA), P. reflexivity.
  - intros l ND H. apply (X7 l ND). intros a I. destruct (H a I) as (WA & b & rest & E & SE). split; [exact WA|]. exists b, rest. split; [exact E|]. now apply from_main.
Qed.

Lemma place_mail : forall k mails l t b, nth_error mails k = Some (l, t) -> exists a c, box_text mails = a ++ t ++ c /\ nth_error (places b mails) k = Some (b + N.of_nat (length a), N.of_nat (length t)).
Proof.
  induction k as [|k IH]; intros [|[l' t'] mails] l t b E; try discriminate; cbn [nth_error] in E.
  - injection E as -> ->. exists (bs "From " ++ l ++ [10]), (box_text mails). cbn [box_text flat_map fst snd places nth_error]. fold (box_text mails). split; [rewrite <- !app_assoc; reflexivity|]. rewrite !app_length. change (length (bs "From ")) with 5%nat. cbn [length]. do 2 f_equal. lia.
  - destruct (IH mails l t (b + N.of_nat (length l') + 6 + N.of_nat (length t')) E) as (a & c & E1 & E2). exists (bs "From " ++ l' ++ [10] ++ t' ++ a), c. cbn [box_text flat_map fst snd places nth_error]. fold (box_text mails). rewrite E1. split; [rewrite <- !app_assoc; reflexivity|].
    rewrite E2. rewrite !app_length. change (length (bs "From ")) with 5%nat. cbn [length]. do 2 f_equal. lia.
Qed.

Lemma boxes_search : forall M D sd s file h F db r p mails q w, machine_ok M -> s_world s = program_world M D -> run_by M ((s, file) :: h) ->
  history ((s, file) :: h) (Some F) -> growing ((s, file) :: h) -> holds_index (s_world s) F db -> open_db F = Ok r ->
  (forall x, In x (s_paths s) -> d_map D x <> Map_failed) -> eligible (s_world s) (s_symlinks s) (s_paths s) p ->
  d_map D p = Mapped (box_text mails) -> sound M D s -> program_mails M mails ->
  w <> [] -> Forall plain w -> (forall c t, w = c :: t -> c <> ch "~" /\ c <> ch "^") ->
  exists l, search sd F r false [part_key q ++ bs ":" ++ w] = Ok l /\
    forall k line t lines ns, nth_error mails k = Some (line, t) -> S_Mime.message (m_isspc M) t lines ns -> Forall (fun c => c < 256) t -> legible lines ns ->
      ((exists i m fi mb, In i l /\ S_Search.message db i = Some m /\ src m = S_mbox fi (N.of_nat k) /\ nth_error (mboxen db) (N.to_nat fi) = Some mb /\ mb_path mb = Some p) <->
       exists w', bears (m_alnum M) lines ns q w' /\ lower w' = lower w).
Proof.
  intros M D sd s file h F db r p mails q w MO EW RB H GR HI EO NF EL EM SO PM W1 W2 W3. destruct (growing_orderly _ _ H GR) as [O SE].
  destruct (entries_main M D sd s file h F db r q w MO EW RB H O HI EO W1 W2 W3) as (l & ES & HL). exists l. split; [exact ES|].
  assert (OK : mails_ok (s_world s) mails) by (rewrite EW; eapply mails_main; eauto; apply EL).
  assert (EN : enters db p mails). { apply (boxes_main s file h F db p mails H O (SE p) HI); auto; rewrite EW; auto. }
  destruct EN as [EN1 EN2]. intros k line t lines ns EK MS B LG. destruct (place_mail k mails line t 0 EK) as (a & c & E1 & E2). rewrite N.add_0_l in E2. 
  assert (TX : forall m fi mb, In m (msgs db) -> src m = S_mbox fi (N.of_nat k) -> nth_error (mboxen db) (N.to_nat fi) = Some mb -> mb_path mb = Some p -> text_of D db m t).
  { intros m fi mb IM SM EB EP. destruct (EN2 m fi _ mb IM SM EB EP) as (st & ln & X & S1 & S2). rewrite Nat2N.id, E2 in X. injection X as <- <-. eapply (To_mbox D db m t fi (N.of_nat k) mb p a c); auto. now rewrite <- E1. }
  split.
  - intros (i & m & fi & mb & IL & EMG & SM & EB & EP). apply (HL i m t lines ns EMG); auto. eapply TX; eauto. eapply nth_error_In. exact EMG.
  - intros BE. destruct (EN1 k _ _ E2) as (m & fi & mb & IM & SM & EB & EP). pose proof IM as IM'. apply In_nth_error in IM' as (i & EI). exists (N.of_nat i), m, fi, mb.
    assert (EMG : S_Search.message db (N.of_nat i) = Some m) by (unfold S_Search.message; now rewrite Nat2N.id). split; [|auto]. apply (HL _ m t lines ns EMG); auto. eapply TX; eauto.
Qed.
