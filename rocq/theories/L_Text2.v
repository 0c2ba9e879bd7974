(* Whatever the data, a parsed message consists of C strings. *)
From Verif Require Import Base M_Tokens M_Decode M_Header M_Words M_Nvp M_Rfc822 S_Decode S_Header S_Words S_Nvp S_Rfc822 S_Multipart S_Mime S_Tokens M_Update S_Update
  L_Decode L_Header L_TokTable L_Words3 L_Nvp4 L_Multipart L_Multipart2 L_Output3 L_Rfc822 L_Rfc822b L_Rfc822c L_Rfc822d L_Mime L_Mime2 L_Mime3 L_Mime4 L_Text.
Local Open Scope N_scope.

Definition c_headers (h : headers) : Prop :=
  c_opt (h_to h) /\ c_opt (h_cc h) /\ c_opt (h_from h) /\ c_opt (h_subject h) /\ c_opt (h_message_id h) /\ c_opt (h_in_reply_to h) /\ c_opt (h_references h).
Inductive clean : rfc822 -> Prop :=
| Clean h atts : c_headers h -> clean_atts atts -> clean (Rfc822 h atts)
with clean_atts : list (option bytes * M_Tokens.body) -> Prop :=
| Clean_nil : clean_atts []
| Clean_cons name b atts : c_opt name -> clean_body b -> clean_atts atts -> clean_atts ((name, b) :: atts)
with clean_body : M_Tokens.body -> Prop :=
| Clean_plain s : small s -> clean_body (B_plain s)
| Clean_html s : small s -> clean_body (B_html s)
| Clean_other s : clean_body (B_other s)
| Clean_none : clean_body (B_message None)
| Clean_some m : clean m -> clean_body (B_message (Some m)).

Lemma atts_in : forall atts, clean_atts atts -> forall n b, In (n, b) atts -> c_opt n /\ clean_body b.
Proof.
  induction atts as [|[n b] atts IH]; intros C n' b' I; [destruct I|]. inversion C; subst. destruct I as [I|I]; [injection I as <- <-; auto|]. apply IH; assumption.
Qed.
Lemma atts_app : forall a b, clean_atts a -> clean_atts b -> clean_atts (a ++ b).
Proof. induction a as [|[n x] a IH]; intros b A B; [exact B|]. inversion A; subst. cbn [app]. constructor; auto. Qed.
Lemma run_c : forall good t w, c_string t -> is_run good t w -> c_string w.
Proof. intros good t w C (k & a & b & -> & _). apply Forall_app in C. destruct C as [_ C]. apply Forall_app in C. tauto. Qed.
Lemma visible_c : forall s t, small s -> visible s t -> c_string t.
Proof.
  intros s t S [N V]. assert (T : small t) by (destruct V as [->|[u ->]]; [exact S|]; apply Forall_app in S; tauto).
  unfold small, c_string, c_char in *. rewrite Forall_forall in *. intros c I. specialize (T _ I). assert (c <> 0) by congruence. lia.
Qed.
Lemma blank_c : forall s b, c_string s -> c_string (blank_tags b s).
Proof.
  intros s b C. revert b. assert (L : c_char (ch "<")) by (vm_compute; intuition congruence). induction C as [|c s H C IH]; intros b; cbn [blank_tags]; [constructor|].
  destruct b; [constructor; auto; apply IH|]. destruct (c =? ch "<"); constructor; auto; apply IH.
Qed.
Lemma angled_c : forall s ws, angled s ws -> c_string s -> forall w, In w ws -> c_string w.
Proof.
  intros s ws H. induction H as [|a w b ws A B H IH]; intros C v I; [destruct I|]. apply Forall_app in C. destruct C as [_ C]. inversion C as [|? ? _ C']; subst. apply Forall_app in C'. destruct C' as [C1 C2].
  destruct I as [<-|I]; [exact C1|]. inversion C2; subst. auto.
Qed.
Lemma clean_textual : forall alnum r, clean r -> textual alnum r.
Proof.
  intros alnum r C. split.
  - intros p w M. revert C. induction M as [h atts p t w AH R|h atts t w E R|h atts fn s t w I V R|h atts fn s t w I V R|h atts fn b I|h atts fn m p w I M IH]; intros C; inversion C as [? ? H T]; subst; try (destruct (atts_in _ T _ _ I) as [N B]).
    + destruct H as (H1 & H2 & H3 & _). assert (c_string t) by (destruct AH as [[_ E]|[[_ E]|[_ E]]]; [apply H1|apply H2|apply H3]; exact E). destruct R as [R|R]; eapply run_c; eassumption.
    + destruct H as (_ & _ & _ & H & _). eapply run_c; [|exact R]. apply H. exact E.
    + inversion B; subst. eapply run_c; [|exact R]. eapply visible_c; eassumption.
    + inversion B; subst. eapply run_c; [|exact R]. apply blank_c. eapply visible_c; eassumption.
    + apply N. reflexivity.
    + inversion B; subst. auto.
  - intros own w M. revert C. induction M as [h atts t ws w E A I|h atts t ws w E A I|h atts fn m own w I M IH]; intros C; inversion C as [? ? H T]; subst.
    + destruct H as (_ & _ & _ & _ & H & _). eapply angled_c; [exact A| |exact I]. apply H. exact E.
    + destruct H as (_ & _ & _ & _ & _ & H1 & H2). eapply angled_c; [exact A| |exact I]. destruct E as [E|E]; [apply H1|apply H2]; exact E.
    + destruct (atts_in _ T _ _ I) as [N B]. inversion B; subst. auto.
Qed.

Section Parse.
Variable isspc : N -> bool.
Variable mktime : Z -> Z -> Z -> Z.
Hypothesis A : forall c, c < 128 -> isspc c = isspace c.
Definition c_state (st : hstate) : Prop := c_headers (hs st) /\ c_hdr (hs_ct st) /\ c_hdr (hs_cte st) /\ c_hdr (hs_cd st).
Lemma try_c : forall slot x pfx h, c_string x -> try_nvp isspc slot x pfx = Ok h -> c_hdr h.
Proof. intros slot x pfx h C H. unfold try_nvp in H. destruct (unset slot); [eapply nvp_c; eassumption|]. apply Ok_inj in H. subst h. intros es E. discriminate. Qed.
Lemma flags_c : forall s h, c_headers h -> c_headers (scan_status_flags s h).
Proof.
  intros s h C. destruct (scan_flags s h) as (A1 & A2 & A3 & A4 & A5 & A6 & A7 & A8 & A9 & A10 & A11). unfold c_headers. rewrite A1, A2, A3, A4, A5, A6, A7. exact C.
Qed.
Lemma entry_c : forall st x st', c_string x -> c_state st -> header_entry isspc mktime st x = Ok st' -> c_state st'.
Proof.
  intros st x st' X (H & C1 & C2 & C3) E. unfold header_entry in E. cbv zeta in E. pose proof H as (H1 & H2 & H3 & H4 & H5 & H6 & H7).
  assert (K : forall h, c_headers h -> c_state (with_hs st h)) by (intros h HH; split; [exact HH|]; split; [exact C1|]; split; [exact C2|exact C3]).
  destruct (match_string (bs "to:") x). { step1 E v. apply Ok_inj in E. subst st'. apply K. pose proof (concat_c _ _ _ H1 X E0). unfold c_headers, with_to. cbn. tauto. }
  destruct (match_string (bs "cc:") x). { step1 E v. apply Ok_inj in E. subst st'. apply K. pose proof (concat_c _ _ _ H2 X E0). unfold c_headers. cbn. tauto. }
  destruct (unset (h_from _) && _). { step1 E v. apply Ok_inj in E. subst st'. apply K. pose proof (copy_c _ _ X E0). unfold c_headers. cbn. tauto. }
  destruct (unset (h_subject _) && _). { step1 E v. apply Ok_inj in E. subst st'. apply K. pose proof (copy_c _ _ X E0). unfold c_headers. cbn. tauto. }
  step1 E ct. destruct ct as [ct|]. { apply Ok_inj in E. subst st'. split; [exact H|]. split; [exact (try_c _ _ _ _ X E0)|]. split; [exact C2|exact C3]. }
  step1 E cte. destruct cte as [cte|]. { apply Ok_inj in E. subst st'. split; [exact H|]. split; [exact C1|]. split; [exact (try_c _ _ _ _ X E1)|exact C3]. }
  step1 E cd. destruct cd as [cd|]. { apply Ok_inj in E. subst st'. split; [exact H|]. split; [exact C1|]. split; [exact C2|exact (try_c _ _ _ _ X E2)]. }
  destruct (_ && match_string (bs "date:") x). { step1 E v. destruct v as [v|]; [|discriminate]. step1 E d. apply Ok_inj in E. subst st'. apply K. unfold c_headers. cbn. tauto. }
  destruct (_ && match_string (bs "message-id:") x). { step1 E v. apply Ok_inj in E. subst st'. apply K. pose proof (copy_c _ _ X E3). unfold c_headers. cbn. tauto. }
  destruct (_ && match_string (bs "in-reply-to:") x). { step1 E v. apply Ok_inj in E. subst st'. apply K. pose proof (copy_c _ _ X E3). unfold c_headers. cbn. tauto. }
  destruct (_ && match_string (bs "references:") x). { step1 E v. apply Ok_inj in E. subst st'. apply K. pose proof (copy_c _ _ X E3). unfold c_headers. cbn. tauto. }
  destruct (match_string (bs "status:") x). { apply Ok_inj in E. subst st'. apply K. apply flags_c. exact H. }
  destruct (match_string (bs "x-status:") x). { apply Ok_inj in E. subst st'. apply K. apply flags_c. exact H. }
  apply Ok_inj in E. subst st'. split; [exact H|]. split; [exact C1|]. split; [exact C2|exact C3].
Qed.
Lemma entries_c : forall lines st st', Forall c_string lines -> c_state st -> header_entries isspc mktime st lines = Ok st' -> c_state st'.
Proof.
  intros lines st st' C. revert st. induction C as [|x lines X C IH]; intros st S H; cbn [header_entries] in H; [apply Ok_inj in H; congruence|]. step1 H s. eapply IH; [|exact H]. eapply entry_c; eassumption.
Qed.
Lemma part_c : forall lines a b c a' b' c', Forall c_string lines -> c_hdr a -> c_hdr b -> c_hdr c -> part_headers isspc lines a b c = Ok (a', b', c') -> c_hdr a' /\ c_hdr b' /\ c_hdr c'.
Proof.
  intros lines a b c a' b' c' C. revert a b c. induction C as [|x lines X C IH]; intros a b c S1 S2 S3 H; cbn [part_headers] in H; [apply Ok_inj in H; injection H as <- <- <-; auto|].
  step1 H u. apply nvp_c in E; [|exact X]. destruct u; [eapply IH; [| | |exact H]; assumption|].
  step1 H u. apply nvp_c in E0; [|exact X]. destruct u; [eapply IH; [| | |exact H]; assumption|].
  step1 H u. apply nvp_c in E1; [|exact X]. destruct u; eapply IH; [| | |exact H| | | |exact H]; assumption.
Qed.
Lemma c_hnone : c_hdr None.
Proof. intros es E. discriminate. Qed.
Definition tidy (f : body_fn) : Prop := forall mem len ct cte cd atts e, small mem -> c_hdr ct -> c_hdr cte -> c_hdr cd -> f mem len ct cte cd = Ok (atts, e) -> clean_atts atts.
Lemma message_clean : forall f mem len m e, tidy f -> small mem -> data_to_rfc822_by isspc mktime f mem len = Ok (Some m, e) -> clean m.
Proof.
  intros f mem len m e F M H. unfold data_to_rfc822_by in H. destruct (split_view isspc A _ (small_first len _ M)) as [E|(lines & body & pre & E & P & C & N)]; rewrite E in H; cbn [bind] in H; [discriminate|].
  step1 H st. step2 H atts er. apply Ok_inj in H. injection H as <- _.
  assert (S : c_state st) by (eapply entries_c; [exact C| |exact E0]; unfold c_state, c_headers; cbn; auto 20 using c_none, c_hnone).
  destruct S as (S1 & S2 & S3 & S4). constructor; [exact S1|]. eapply F; [| | | |exact E1]; auto. apply small_skip. exact M.
Qed.
Lemma attachment_clean : forall f mem len atts, tidy f -> small mem -> do_attachment_by isspc f mem len = Ok atts -> clean_atts atts.
Proof.
  intros f mem len atts F M H. unfold do_attachment_by in H. destruct (split_view isspc A _ (small_first len _ M)) as [E|(lines & body & pre & E & P & C & N)]; rewrite E in H; cbn [bind] in H; [apply Ok_inj in H; subst atts; constructor|].
  step3 H ct cte cd. step2 H a er. apply Ok_inj in H. subst a. destruct (part_c _ _ _ _ _ _ _ C c_hnone c_hnone c_hnone E0) as (S1 & S2 & S3). eapply F; [| | | |exact E1]; auto. apply small_skip. exact M.
Qed.
Lemma parts_clean : forall f d ps atts, tidy f -> small d -> do_parts isspc f d ps = Ok atts -> clean_atts atts.
Proof.
  intros f d ps. induction ps as [|[i j] ps IH]; intros atts F D H; cbn [do_parts] in H; [apply Ok_inj in H; subst atts; constructor|].
  step1 H x. step1 H y. apply Ok_inj in H. subst atts. apply atts_app; [|apply IH; auto]. eapply attachment_clean; [exact F| |exact E]. apply small_skip. apply Forall_app. split; [exact D|]. constructor; [reflexivity|constructor].
Qed.
Lemma body_clean : forall fuel, tidy (do_body isspc mktime fuel).
Proof.
  induction fuel as [|f IH]; intros mem len ct cte cd atts e M CT CTE CD H; [discriminate|]. cbn [do_body] in H.
  assert (B : forall enc, (let! decoded := unencode_data isspc mem len enc in
      match ct with
      | None => Ok ([(None, B_plain decoded)], None)
      | Some ct =>
        let t := parse_content_type ct in
        if is (ct_major t) (bs "multipart") then do_multipart_by isspc (do_body isspc mktime f) decoded (ct_boundary t)
        else
          let name := file_name ct cd in
          if is (ct_major t) (bs "text") then
            Ok ([(name, if is (ct_minor t) (bs "plain") then B_plain decoded else if is (ct_minor t) (bs "html") then B_html decoded else B_other decoded)], None)
          else if is (ct_major t) (bs "message") && is (ct_minor t) (bs "rfc822") then
            let! (m, e) := data_to_rfc822_by isspc mktime (do_body isspc mktime f) (decoded ++ [0]) (length decoded) in
            Ok ([(name, B_message m)], Some e)
          else Ok ([(name, B_other decoded)], None)
      end) = Ok (atts, e) -> clean_atts atts).
  { clear H. intros enc G. destruct (unencode_cases isspc mem len enc M) as [U|(d & U & S & LD)]; rewrite U in G; cbn [bind] in G; [discriminate|].
    assert (ONE : forall n b, c_opt n -> clean_body b -> clean_atts [(n, b)]) by (intros; constructor; auto; constructor).
    destruct ct as [ct|]; [|apply Ok_inj in G; injection G as <- _; apply ONE; [apply c_none|constructor; exact S]]. cbv zeta in G.
    destruct (is _ (bs "multipart")).
    - unfold do_multipart_by in G. destruct (ct_boundary (parse_content_type ct)) as [b|]; [|apply Ok_inj in G; injection G as <- _; constructor]. step2 G ps er. step1 G a. apply Ok_inj in G. injection G as <- _. eapply parts_clean; [exact IH|exact S|exact E0].
    - pose proof (file_c ct cd (CT _ eq_refl) CD) as NM. destruct (is _ (bs "text")); [apply Ok_inj in G; injection G as <- _; apply ONE; [exact NM|]; destruct (is _ _); [|destruct (is _ _)]; constructor; exact S|].
      destruct (_ && _); [|apply Ok_inj in G; injection G as <- _; apply ONE; [exact NM|constructor]]. step2 G m er. apply Ok_inj in G. injection G as <- _. apply ONE; [exact NM|]. destruct m as [m|]; [|constructor].
      constructor. eapply message_clean; [exact IH| |exact E]. apply Forall_app. split; [exact S|]. constructor; [reflexivity|constructor]. }
  destruct cte as [cte|]; [|eapply B; exact H]. destruct (nvp_first cte); [eapply B; exact H|]. apply Ok_inj in H. injection H as <- _. constructor.
Qed.
Lemma textual_main : forall alnum mem len m e, small mem -> data_to_rfc822 isspc mktime mem len = Ok (Some m, e) -> textual alnum m.
Proof. intros alnum mem len m e M H. apply clean_textual. eapply message_clean; [apply body_clean|exact M|exact H]. Qed.
End Parse.
