(* The program put together: its world is one the earlier theorems speak of, and what is indexed of a
   MIME message. *)
From Verif Require Import Base M_Encoding M_TokTable M_Tokens S_TokTable S_Tokens S_Words S_Nvp S_Rfc822 S_Multipart S_Mime M_DbFile S_DbFile M_Mbox S_Mbox M_Md5 S_Md5 M_Rfc822 M_Update S_Update M_Program S_Program
  L_Md5b L_Output3 L_Rfc822b L_Mime3 L_Mime4 L_Text L_Text2.
From Verif Require M_Paths.
Local Open Scope N_scope.

Lemma memory_small : forall t, in_memory t = true -> small t.
Proof. intros t H. unfold in_memory in H. apply Forall_forall. intros c I. rewrite forallb_forall in H. apply N.ltb_lt. exact (H _ I). Qed.
Lemma small_memory : forall t, small t -> in_memory t = true.
Proof. intros t H. unfold in_memory. apply forallb_forall. intros c I. unfold small in H. rewrite Forall_forall in H. apply N.ltb_lt. exact (H _ I). Qed.
Lemma digest_len : forall m d, md5_of m d -> length d = 16%nat.
Proof.
  intros m d (z & bl & _ & _ & _ & H). destruct (fold_left compress (map (map value) bl) iv) as [[[a b] c] e]. rewrite H. rewrite !app_length. reflexivity.
Qed.
Lemma checksum_len : forall M t, length (m_stack M) = 64%nat -> length (checksum M t) = 16%nat.
Proof.
  intros M t L. unfold checksum. destruct (in_memory t) eqn:E; [|reflexivity]. destruct (long_main (m_stack M) t (memory_small _ E) L) as (d & -> & D). exact (digest_len _ _ D).
Qed.
Lemma parse_textual : forall M t r, machine_ok M -> fst (parse_text M t) = Some r -> textual (m_alnum M) r.
Proof.
  intros M t r MO H. unfold parse_text in H. destruct (in_memory t) eqn:E; [|discriminate]. destruct (data_to_rfc822 _ _ _ _) as [[m e]|] eqn:P; [|discriminate]. cbn [fst] in H. subst m.
  eapply textual_main; [exact (mo_space M MO)|exact (memory_small _ E)|exact P].
Qed.
Lemma program_ok : forall M D, machine_ok M -> disc_ok D -> world_ok (program_world M D).
Proof.
  intros M D MO DO. constructor; cbn [program_world w_alnum w_parse w_imap w_csum w_stat w_lstat w_map w_junk_msg w_junk_sum].
  - apply (mo_alnum M MO). cbn. auto.
  - apply (mo_alnum M MO). cbn. auto.
  - intros t r. apply parse_textual. exact MO.
  - intros p r. unfold from_server. destruct (d_server D p); [|discriminate]. apply parse_textual. exact MO.
  - intros t. apply checksum_len. exact (mo_stack M MO).
  - exact (do_stat D DO).
  - exact (do_lstat D DO).
  - exact (do_map D DO).
  - exact (do_junk D DO).
  - exact (do_sum D DO).
Qed.

(* words on either side of a character that belongs to none *)
Lemma run_split : forall (good : N -> Prop) a c b w, ~ good c -> is_run good (a ++ c :: b) w <-> is_run good a w \/ is_run good b w.
Proof.
  intros good a c b w NG. split.
  - intros (k & x & y & E & _ & NE & F & LB & RB). destruct (Nat.le_gt_cases (length x + length w) (length a)) as [L|L].
    + left. rewrite app_assoc in E. symmetry in E. destruct (L_Multipart.app_split _ _ _ _ _ E) as (m & E1 & E2); [rewrite app_length; lia|]. rewrite <- app_assoc in E1.
      exists (length x), x, m. split; [exact E1|]. split; [reflexivity|]. split; [exact NE|]. split; [exact F|]. split; [exact LB|]. intros d m' ->. apply (RB d (m' ++ c :: b)). rewrite E2. reflexivity.
    + destruct (Nat.le_gt_cases (length x) (length a)) as [L2|L2].
      * exfalso. symmetry in E. destruct (L_Multipart.app_split _ _ _ _ _ E L2) as (m & E1 & E2). assert (LM : (length m < length w)%nat) by (rewrite E1, app_length in L; lia).
        symmetry in E2. destruct (L_Multipart.app_split _ _ _ _ _ E2) as (m2 & E3 & E4); [lia|]. destruct m2 as [|d m2]; [rewrite app_nil_r in E3; subst w; lia|].
        injection E4 as <- _. apply NG. rewrite E3 in F. apply Forall_app in F. destruct F as [_ F]. inversion F; assumption.
      * right. destruct (L_Multipart.app_split _ _ _ _ _ E) as (m & E1 & E2); [lia|]. destruct m as [|d m]; [rewrite app_nil_r in E1; subst x; lia|]. injection E2 as <- E2.
        exists (length m), m, y. split; [exact E2|]. split; [reflexivity|]. split; [exact NE|]. split; [exact F|]. split; [|exact RB]. intros m' d ->. apply (LB (a ++ c :: m')). rewrite E1, <- app_assoc. reflexivity.
  - intros [(k & x & y & E & _ & NE & F & LB & RB)|(k & x & y & E & _ & NE & F & LB & RB)].
    + exists (length x), x, (y ++ c :: b). split; [rewrite E, <- !app_assoc; reflexivity|]. split; [reflexivity|]. split; [exact NE|]. split; [exact F|]. split; [exact LB|].
      intros d r H. destruct y as [|e y]; [injection H as <- _; exact NG|]. injection H as <- _. exact (RB _ _ eq_refl).
    + exists (length (a ++ c :: x)), (a ++ c :: x), y. split; [rewrite E, <- app_assoc; reflexivity|]. split; [reflexivity|]. split; [exact NE|]. split; [exact F|]. split; [|exact RB].
      intros r d H. destruct x as [|e x] using rev_ind.
      * apply app_inj_tail in H. destruct H as [_ <-]. exact NG.
      * rewrite app_comm_cons, app_assoc in H. apply app_inj_tail in H. destruct H as [_ <-]. exact (LB _ _ eq_refl).
Qed.
Lemma run_nil : forall good w, ~ is_run good [] w.
Proof. intros good w (k & x & y & E & _ & NE & _). destruct x; [|discriminate]. destruct w; [contradiction|discriminate]. Qed.
Lemma run_commas : forall (good : N -> Prop) rs w, ~ good 44 -> ~ good 32 -> is_run good (commas rs) w <-> exists r, In r rs /\ is_run good r w.
Proof.
  intros good rs w C S. induction rs as [|r [|r' rs] IH].
  - split; [intros H; exfalso; exact (run_nil _ _ H)|intros (r & [] & _)].
  - cbn [commas]. split; [intros H; exists r; split; [left; reflexivity|exact H]|intros (x & [<-|[]] & H); exact H].
  - change (commas (r :: r' :: rs)) with (r ++ bs ", " ++ commas (r' :: rs)). change (bs ", " ++ commas (r' :: rs)) with (44 :: 32 :: commas (r' :: rs)).
    rewrite run_split by exact C. change (32 :: commas (r' :: rs)) with ([] ++ 32 :: commas (r' :: rs)). rewrite (run_split good [] 32 _ w S). rewrite IH. split.
    + intros [H|[H|(x & I & H)]]; [exists r; split; [left; reflexivity|exact H]|exfalso; exact (run_nil _ _ H)|exists x; split; [right; exact I|exact H]].
    + intros (x & [<-|I] & H); [left; exact H|right; right; exists x; auto].
Qed.

(* The words of a MIME message are those indexed. *)
Lemma depict_in : forall ns atts, depict ns atts -> forall a, In a atts -> exists n, In n ns /\ depicts n a.
Proof.
  intros ns. induction ns as [|n ns IH]; intros atts D a I; inversion D; subst; [destruct I|]. destruct I as [<-|I]; [exists n; split; [left; reflexivity|assumption]|].
  destruct (IH _ ltac:(eassumption) _ I) as (m & J & K). exists m. split; [right; exact J|exact K].
Qed.
Lemma depict_of : forall ns atts, depict ns atts -> forall n, In n ns -> exists a, In a atts /\ depicts n a.
Proof.
  intros ns. induction ns as [|n ns IH]; intros atts D m I; inversion D; subst; [destruct I|]. destruct I as [<-|I]; [eexists; split; [left; reflexivity|eassumption]|].
  destruct (IH _ ltac:(eassumption) _ I) as (b & J & K). exists b. split; [right; exact J|exact K].
Qed.
Lemma depicts_name : forall n a, depicts n a -> fst a = name_of n.
Proof. intros n a D. inversion D; reflexivity. Qed.
Section Bears.
Variable M : machine.
Hypothesis MO : machine_ok M.
Let alnum := m_alnum M.
Lemma gap_word : forall c, c = 44 \/ c = 32 -> ~ word_char alnum c.
Proof. intros c H [E|E]; [|destruct H; subst c; discriminate]. unfold alnum in E. rewrite (mo_alnum M MO) in E; [discriminate|]. destruct H; subst c; cbn; auto. Qed.
Lemma gap_address : forall c, c = 44 \/ c = 32 -> ~ address_char alnum c.
Proof. intros c H [E|E]; [|destruct H; subst c; cbn in E; intuition discriminate]. unfold alnum in E. rewrite (mo_alnum M MO) in E; [discriminate|]. destruct H; subst c; cbn; auto. Qed.
Lemma read_shown : forall v good w r, in_value v good w -> S_Rfc822.shown v r -> is_run good r w.
Proof. intros v good w r (r' & R & Z & W) S. rewrite (S _ R Z). exact W. Qed.
Lemma shown_read : forall v good w r, (exists r', reads v r' /\ ~ In 0 r') -> S_Rfc822.shown v r -> is_run good r w -> in_value v good w.
Proof. intros v good w r (r' & R & Z) S W. pose proof (S _ R Z) as E. subst r'. exists r. auto. Qed.
Lemma many_in : forall vs o good w, ~ good 44 -> ~ good 32 -> all_values vs o -> (exists v, In v vs /\ in_value v good w) -> exists t, o = Some t /\ is_run good t w.
Proof.
  intros vs o good w C S A (v & I & V). unfold all_values in A. destruct vs as [|v0 vs]; [destruct I|]. destruct A as (rs & E & F). exists (commas rs). split; [exact E|].
  apply run_commas; [exact C|exact S|]. clear E. induction F as [|x y xs ys H F IH]; [destruct I|]. destruct I as [<-|I]; [exists y; split; [left; reflexivity|exact (read_shown _ _ _ _ V H)]|].
  destruct (IH I) as (r & J & K). exists r. split; [right; exact J|exact K].
Qed.
Lemma many_of : forall vs o good t w, ~ good 44 -> ~ good 32 -> (forall v, In v vs -> exists r, reads v r /\ ~ In 0 r) -> all_values vs o -> o = Some t -> is_run good t w ->
  exists v, In v vs /\ in_value v good w.
Proof.
  intros vs o good t w C S L A E R. unfold all_values in A. destruct vs as [|v0 vs]; [congruence|]. destruct A as (rs & E' & F). rewrite E' in E. injection E as <-. apply run_commas in R; [|exact C|exact S]. destruct R as (r & I & R).
  clear E'. induction F as [|x y xs ys H F IH]; [destruct I|]. destruct I as [<-|I]; [exists x; split; [left; reflexivity|exact (shown_read _ _ _ _ (L x (or_introl eq_refl)) H R)]|].
  destruct (IH (fun v J => L v (or_intror J)) I) as (v & J & K). exists v. split; [right; exact J|exact K].
Qed.
Lemma mentions_bears : forall m p w, mentions alnum m p w -> forall h atts lines ns, m = Rfc822 h atts -> headers_of lines h -> depict ns atts -> legible lines ns -> bears alnum lines ns p w.
Proof.
  induction 1 as [h0 a0 p t w AH R|h0 a0 t w HS R|h0 a0 fn s t w I V R|h0 a0 fn s t w I V R|h0 a0 fn b I|h0 a0 fn m p w I N IH]; intros h atts lines ns E HO D L; injection E as -> ->.
  all: destruct L as [lines ns L1 L2].
  - destruct HO as (T & C & F & S & _). destruct AH as [[-> HT]|[[-> HT]|[-> HT]]].
    + destruct R as [R|R].
      * destruct (many_of _ _ _ _ _ (gap_word 44 ltac:(auto)) (gap_word 32 ltac:(auto)) (fun v J => L1 "to"%string v ltac:(cbn; auto) J) T HT R) as (v & J & K). eapply Be_many; [left; split; reflexivity|exact J|left; exact K].
      * destruct (many_of _ _ _ _ _ (gap_address 44 ltac:(auto)) (gap_address 32 ltac:(auto)) (fun v J => L1 "to"%string v ltac:(cbn; auto) J) T HT R) as (v & J & K). eapply Be_many; [left; split; reflexivity|exact J|right; exact K].
    + destruct R as [R|R].
      * destruct (many_of _ _ _ _ _ (gap_word 44 ltac:(auto)) (gap_word 32 ltac:(auto)) (fun v J => L1 "cc"%string v ltac:(cbn; auto) J) C HT R) as (v & J & K). eapply Be_many; [right; split; reflexivity|exact J|left; exact K].
      * destruct (many_of _ _ _ _ _ (gap_address 44 ltac:(auto)) (gap_address 32 ltac:(auto)) (fun v J => L1 "cc"%string v ltac:(cbn; auto) J) C HT R) as (v & J & K). eapply Be_many; [right; split; reflexivity|exact J|right; exact K].
    + destruct (values "from" lines) as [|v vs] eqn:EV; [cbn in F; congruence|]. destruct F as (r & E & F). rewrite HT in E. injection E as <-. eapply Be_from; [exact EV|].
      pose proof (L1 "from"%string v ltac:(cbn; auto) ltac:(rewrite EV; left; reflexivity)) as RD. destruct R as [R|R]; [left|right]; exact (shown_read _ _ _ _ RD F R).
  - destruct HO as (T & C & F & S & _). destruct (values "subject" lines) as [|v vs] eqn:EV; [cbn in S; congruence|]. destruct S as (r & E & S). rewrite HS in E. injection E as <-. eapply Be_subject; [exact EV|].
    exact (shown_read _ _ _ _ (L1 "subject"%string v ltac:(cbn; auto) ltac:(rewrite EV; left; reflexivity)) S R).
  - destruct (depict_in _ _ D _ I) as (n & J & K). inversion K; subst. eapply Be_text; eassumption.
  - destruct (depict_in _ _ D _ I) as (n & J & K). inversion K; subst. eapply Be_html; eassumption.
  - destruct (depict_in _ _ D _ I) as (n & J & K). eapply Be_name; [exact J|]. symmetry. exact (depicts_name _ _ K).
  - destruct (depict_in _ _ D _ I) as (n & J & K). inversion K; subst. eapply Be_mail; [exact J|]. eapply IH; [reflexivity|eassumption|eassumption|exact (L2 _ _ _ J)].
Qed.
Lemma bears_mentions : forall lines ns p w, bears alnum lines ns p w -> forall h atts, headers_of lines h -> depict ns atts -> mentions alnum (Rfc822 h atts) p w.
Proof.
  induction 1 as [lines ns p name v w P I V|lines ns v vs w EV V|lines ns v vs w EV V|lines ns name d t w I V R|lines ns name d t w I V R|lines ns n w I NE|lines ns name lines' ns' p w I B IH]; intros h atts HO D.
  - destruct HO as (T & C & _). destruct P as [[-> ->]|[-> ->]].
    + destruct V as [V|V].
      * destruct (many_in _ _ _ w (gap_word 44 ltac:(auto)) (gap_word 32 ltac:(auto)) T (ex_intro _ v (conj I V))) as (t & E & R). eapply Me_address; [left; split; [reflexivity|exact E]|left; exact R].
      * destruct (many_in _ _ _ w (gap_address 44 ltac:(auto)) (gap_address 32 ltac:(auto)) T (ex_intro _ v (conj I V))) as (t & E & R). eapply Me_address; [left; split; [reflexivity|exact E]|right; exact R].
    + destruct V as [V|V].
      * destruct (many_in _ _ _ w (gap_word 44 ltac:(auto)) (gap_word 32 ltac:(auto)) C (ex_intro _ v (conj I V))) as (t & E & R). eapply Me_address; [right; left; split; [reflexivity|exact E]|left; exact R].
      * destruct (many_in _ _ _ w (gap_address 44 ltac:(auto)) (gap_address 32 ltac:(auto)) C (ex_intro _ v (conj I V))) as (t & E & R). eapply Me_address; [right; left; split; [reflexivity|exact E]|right; exact R].
  - destruct HO as (_ & _ & F & _). rewrite EV in F. destruct F as (r & E & S). eapply Me_address; [right; right; split; [reflexivity|exact E]|]. destruct V as [V|V]; [left|right]; exact (read_shown _ _ _ _ V S).
  - destruct HO as (_ & _ & _ & F & _). rewrite EV in F. destruct F as (r & E & S). eapply Me_subject; [exact E|exact (read_shown _ _ _ _ V S)].
  - destruct (depict_of _ _ D _ I) as (a & J & K). inversion K; subst. eapply Me_text; eassumption.
  - destruct (depict_of _ _ D _ I) as (a & J & K). inversion K; subst. eapply Me_html; eassumption.
  - destruct (depict_of _ _ D _ I) as ([fn b] & J & K). pose proof (depicts_name _ _ K) as E. cbn [fst] in E. rewrite NE in E. subst fn. eapply Me_name. exact J.
  - destruct (depict_of _ _ D _ I) as (a & J & K). inversion K; subst. eapply Me_nested; [exact J|]. apply IH; assumption.
Qed.
(* what is indexed of a MIME message *)
Lemma words_main : forall data lines ns, S_Mime.message (m_isspc M) data lines ns -> Forall (fun c => c < 256) data -> legible lines ns ->
  exists r, parse_text M data = (Some r, false) /\ forall p w, mentions (m_alnum M) r p w <-> bears (m_alnum M) lines ns p w.
Proof.
  intros data lines ns MS B L. destruct (mime_main (m_isspc M) (m_mktime M) (mo_space M MO) data lines ns [] MS B) as (h & atts & P & HO & D). rewrite app_nil_r in P.
  exists (Rfc822 h atts). split.
  - unfold parse_text. rewrite (small_memory _ B), P. reflexivity.
  - intros p w. split; intros H; [eapply mentions_bears; [exact H|reflexivity|exact HO|exact D|exact L]|eapply bears_mentions; eassumption].
Qed.
End Bears.
