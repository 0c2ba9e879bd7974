(* What a run can change on the server. *)
From Verif Require Import Base M_Output M_Search M_Tokens M_Rfc822 M_Imap S_Imap S_Server L_Imap L_Imap3.
Local Open Scope N_scope.

Lemma number_plain u : number_ok u -> ~ In 58 u /\ sendable (Atom u).
Proof.
  intros [NE F]. rewrite Forall_forall in F. split; [intros I; apply F in I; unfold digit in I; lia|]. split; [exact NE|]. apply Forall_forall. intros c I. apply F in I. unfold digit in I. unfold send_char. cbn [existsb].
  replace (c =? 34) with false by lia. replace (c =? 40) with false by lia. replace (c =? 41) with false by lia. replace (c =? 123) with false by lia. cbn [orb negb]. lia.
Qed.
Section Acts.
Variable S : Type.
Variable serve : S -> bytes -> S * option (list bytes).
Variable view : S -> post.
Variable mf : bytes.
Hypothesis OB : obeys view serve.
Hypothesis MF : name_ok mf.

Definition good_request (q : request) : Prop := asks q <> [] /\ Forall sendable (asks q) /\ Forall no_backslash (asks q).
Definition confined (q : request) : Prop :=
  match q with R_open f true => f = mf | R_copy _ f | R_create f | R_append f _ _ => f = mf | _ => True end.
Definition held (k : conn S) : Prop := (0 <= k_tag k)%Z /\ forall g, p_open (view (k_srv k)) = Some (g, true) -> g = mf.
Definition spared (k k' : conn S) : Prop := forall g, g <> mf -> box_named (view (k_srv k')) g = box_named (view (k_srv k)) g.
Lemma spared_refl k : spared k k.
Proof. intros g _. reflexivity. Qed.
Lemma spared_trans a b c : spared a b -> spared b c -> spared a c.
Proof. intros A B g H. rewrite (B g H). apply A. exact H. Qed.
Lemma command_sent k q r k' : (0 <= k_tag k)%Z -> good_request q -> command S serve k (a_cmd (map tok_of (asks q))) = Ok (r, k') ->
  exists t tag, received t = Some (tag, asks q) /\ k_srv k' = fst (serve (k_srv k) t) /\ (k_tag k' = k_tag k + 1)%Z /\ k_sel k' = k_sel k.
Proof.
  intros T (NE & SE & NB) E. unfold command in E. destruct (k_tag k + 1 <? 2147483648)%Z eqn:L; [|discriminate].
  exists (format_cmd (k_tag k + 1) (a_cmd (map tok_of (asks q))) ++ [13; 10]), (Z.to_N (k_tag k + 1)).
  assert (R : received (format_cmd (k_tag k + 1) (a_cmd (map tok_of (asks q))) ++ [13; 10]) = Some (Z.to_N (k_tag k + 1), asks q)).
  { replace (k_tag k + 1)%Z with (Z.of_N (Z.to_N (k_tag k + 1))) at 1 by lia. apply sent_main; try assumption. change (2 ^ 31) with 2147483648. lia. }
  split; [exact R|]. destruct (serve (k_srv k) _) as [s' [out|]]; cbn [fst].
  - destruct (collect _ _ _ _ _) as [[[l b] n]|e]; cbn [bind] in E; [|discriminate]. injection E as _ <-. repeat split.
  - injection E as _ <-. repeat split.
Qed.
Lemma command_held k q r k' : held k -> good_request q -> confined q -> command S serve k (a_cmd (map tok_of (asks q))) = Ok (r, k') -> held k' /\ spared k k'.
Proof.
  intros [T O] G C E. destruct (command_sent k q r k' T G E) as (t & tag & R & SV & TG & _). destruct (OB (k_srv k) t tag q R) as [LB LO]. rewrite <- SV in LB, LO. split.
  - split; [lia|]. intros g H. destruct LO as [LO|[LO|(f & w & -> & LO)]]; rewrite LO in H; [discriminate|apply O; exact H|]. injection H as -> ->. exact C.
  - intros g H. apply LB. intros M. apply H. destruct q as [f w| |u| | |u f|f|f fl t0]; cbn [may_change confined] in *; try discriminate M; try (injection M as <-; exact C).
    + destruct (p_open (view (k_srv k))) as [[f [|]]|] eqn:PO; try discriminate M. injection M as <-. apply O. reflexivity.
    + destruct (p_open (view (k_srv k))) as [[f [|]]|] eqn:PO; try discriminate M. injection M as <-. apply O. reflexivity.
Qed.
Lemma send_ok s : forallb send_char (bs s) && negb (bytes_eqb (bs s) []) = true -> sendable (Atom (bs s)).
Proof. intros H. apply andb_prop in H. destruct H as [A B]. cbn [sendable]. split; [intros E; rewrite E in B; discriminate|]. apply Forall_forall. intros c I. rewrite forallb_forall in A. apply A. exact I. Qed.
Lemma no_back s : no_backslash (Atom s).
Proof. exact I. Qed.
Lemma send_paren l : Forall sendable l -> sendable (Paren l).
Proof. intros H. apply (proj2 (all_in sendable l)). exact H. Qed.
Lemma back_paren l : Forall no_backslash l -> no_backslash (Paren l).
Proof. intros H. apply (proj2 (all_in no_backslash l)). exact H. Qed.
Ltac one := first [exact I | apply send_ok; reflexivity | assumption | (split; assumption)].
Ltac req := split; [discriminate|]; cbn [asks]; split; repeat (apply Forall_cons; [try one|]); try apply Forall_nil.
Lemma good_open f w : name_ok f -> good_request (R_open f w).
Proof. intros [A B]. destruct w; req. Qed.
Lemma select_held k f w u k' : held k -> name_ok f -> (w = true -> f = mf) -> imap_select S serve k f w = Ok (u, k') -> held k' /\ spared k k'.
Proof.
  intros H NM W E. unfold imap_select in E. destruct (match k_sel k with Some s => _ | None => _ end) as [x|]; [injection E as _ <-; split; [exact H|apply spared_refl]|].
  change [a_atom (if w then bs "SELECT" else bs "EXAMINE"); a_string f] with (map tok_of (asks (R_open f w))) in E.
  destruct (command S serve k (a_cmd (map tok_of (asks (R_open f w))))) as [[r k1]|e] eqn:C; cbn [bind] in E; [|discriminate].
  destruct (command_held _ (R_open f w) _ _ H (good_open f w NM) ltac:(destruct w; cbn [confined]; auto) C) as [H1 S1].
  destruct r as [ls|]; [|injection E as _ <-; split; assumption]. destruct (status (Some ls)) as [st|e]; cbn [bind] in E; [|discriminate]. destruct (negb _); [injection E as _ <-; split; assumption|].
  destruct (fold_left select_line (removelast ls) (None, 0%Z)) as [[v|] ex]; injection E as _ <-; split; assumption.
Qed.
Lemma scan_held k f ps k' : held k -> name_ok f -> scan_folder S serve k f = Ok (ps, k') -> held k' /\ spared k k'.
Proof.
  intros H NM E. unfold scan_folder in E. destruct (imap_select S serve k f false) as [[u k1]|e] eqn:SE; cbn [bind] in E; [|discriminate]. destruct (select_held _ _ false _ _ H NM ltac:(discriminate) SE) as [H1 S1].
  destruct u as [[uv ex]|]; [|injection E as _ <-; split; assumption]. destruct (ex <? 1)%Z; [injection E as _ <-; split; assumption|].
  match type of E with context [command S serve k1 ?c] => change c with (a_cmd (map tok_of (asks R_flags))) in E end.
  destruct (command S serve k1 (a_cmd (map tok_of (asks R_flags)))) as [[r k2]|e] eqn:C; cbn [bind] in E; [|discriminate].
  destruct (command_held _ R_flags _ _ H1 ltac:(req) I C) as [H2 S2]. pose proof (spared_trans _ _ _ S1 S2) as S3.
  destruct r as [ls|]; [|injection E as _ <-; split; assumption]. destruct (status (Some ls)) as [st|e]; cbn [bind] in E; [|discriminate]. destruct (negb _); [injection E as _ <-; split; assumption|].
  destruct (scan_lines f uv (removelast ls)); cbn [bind] in E; [|discriminate]. injection E as _ <-; split; assumption.
Qed.
Lemma build_held : forall fs k ps k', held k -> (forall f, In f fs -> name_ok f) -> build_imap_message_list S serve k fs = Ok (ps, k') -> held k' /\ spared k k'.
Proof.
  induction fs as [|f fs IH]; intros k ps k' H NM E; [injection E as _ <-; split; [exact H|apply spared_refl]|]. cbn [build_imap_message_list] in E.
  destruct (scan_folder S serve k f) as [[p k1]|e] eqn:SC; cbn [bind] in E; [|discriminate]. destruct (scan_held _ _ _ _ H (NM f (or_introl eq_refl)) SC) as [H1 S1].
  destruct (build_imap_message_list S serve k1 fs) as [[q k2]|e] eqn:B; cbn [bind] in E; [|discriminate]. injection E as _ <-. destruct (IH _ _ _ H1 (fun g I => NM g (or_intror I)) B) as [H2 S2]. split; [exact H2|eapply spared_trans; eassumption].
Qed.
Lemma at_colon_ok : forall u r, ~ In 58 u -> at_colon (u ++ 58 :: r) = Some (u, r).
Proof.
  induction u as [|c u IH]; intros r H; [reflexivity|]. cbn [app at_colon]. replace (c =? 58) with false by (symmetry; apply N.eqb_neq; intros ->; apply H; left; reflexivity). rewrite IH; [reflexivity|]. intros I. apply H. right. exact I.
Qed.
Lemma fetch_held k p r k' : held k -> path_ok p -> imap_fetch_message_raw S serve k p = Ok (r, k') -> held k' /\ spared k k'.
Proof.
  intros H (u & n & f & -> & NU & NN & NM) E. apply number_plain in NU, NN. destruct NU as [NU _], NN as [NN SN]. unfold imap_fetch_message_raw in E. cbn [app] in E. rewrite (at_colon_ok u _ NU), (at_colon_ok n _ NN) in E.
  destruct (imap_select S serve k f false) as [[x k1]|e] eqn:SE; cbn [bind] in E; [|discriminate]. destruct (select_held _ _ false _ _ H NM ltac:(discriminate) SE) as [H1 S1].
  destruct x as [[actual ex]|]; [|injection E as _ <-; split; assumption]. destruct (negb _); [injection E as _ <-; split; assumption|].
  match type of E with context [command S serve k1 ?c] => change c with (a_cmd (map tok_of (asks (R_text n)))) in E end.
  destruct (command S serve k1 (a_cmd (map tok_of (asks (R_text n))))) as [[q k2]|e] eqn:C; cbn [bind] in E; [|discriminate].
  destruct (command_held _ (R_text n) _ _ H1 ltac:(req) I C) as [H2 S2]. pose proof (spared_trans _ _ _ S1 S2) as S3.
  destruct q as [ls|]; [|injection E as _ <-; split; assumption]. destruct (status (Some ls)) as [st|e]; cbn [bind] in E; [|discriminate]. destruct (negb _); [injection E as _ <-; split; assumption|].
  destruct (fetch_lines n (removelast ls)); cbn [bind] in E; [|discriminate]. injection E as _ <-; split; assumption.
Qed.
Lemma twice_held k q f k' : held k -> good_request q -> confined q -> f = mf -> try_twice S serve k (a_cmd (map tok_of (asks q))) f = Ok k' -> held k' /\ spared k k'.
Proof.
  intros H G C -> E. unfold try_twice in E. destruct (command S serve k (a_cmd (map tok_of (asks q)))) as [[r k1]|e] eqn:C1; cbn [bind] in E; [|discriminate]. destruct (command_held _ _ _ _ H G C C1) as [H1 S1].
  destruct (is_trycreate r) as [tc|e]; cbn [bind] in E; [|discriminate]. destruct tc.
  - unfold create_folder in E. change [a_atom (bs "CREATE"); a_string mf] with (map tok_of (asks (R_create mf))) in E.
    destruct (command S serve k1 (a_cmd (map tok_of (asks (R_create mf))))) as [[r2 k2]|e] eqn:C2; cbn [bind] in E; [|discriminate]. destruct MF as [MA MB]. destruct (command_held _ (R_create mf) _ _ H1 ltac:(req) eq_refl C2) as [H2 S2].
    destruct (command S serve k2 (a_cmd (map tok_of (asks q)))) as [[r3 k3]|e] eqn:C3; cbn [bind] in E; [|discriminate]. destruct (command_held _ _ _ _ H2 G C C3) as [H3 S3].
    destruct (status r3); cbn [bind] in E; [|discriminate]. injection E as <-. split; [exact H3|]. eapply spared_trans; [exact S1|eapply spared_trans; eassumption].
  - destruct (status r); cbn [bind] in E; [|discriminate]. injection E as <-. split; assumption.
Qed.
Lemma copy_held k p k' : held k -> path_ok p -> imap_copy_message S serve k p mf = Ok k' -> held k' /\ spared k k'.
Proof.
  intros H (u & n & f & -> & NU & NN & NM) E. apply number_plain in NU, NN. destruct NU as [NU _], NN as [NN SN]. unfold imap_copy_message in E. cbn [app] in E. rewrite (at_colon_ok u _ NU), (at_colon_ok n _ NN) in E.
  destruct (imap_select S serve k f false) as [[x k1]|e] eqn:SE; cbn [bind] in E; [|discriminate]. destruct (select_held _ _ false _ _ H NM ltac:(discriminate) SE) as [H1 S1].
  destruct x as [[actual ex]|]; [|injection E as <-; split; assumption]. destruct (negb _); [injection E as <-; split; assumption|].
  destruct MF as [MA MB]. destruct (twice_held k1 (R_copy n mf) mf k' H1 ltac:(req) eq_refl eq_refl E) as [H2 S2]. split; [exact H2|eapply spared_trans; eassumption].
Qed.
Lemma clear_held k k' : held k -> imap_clear_folder S serve k mf = Ok k' -> held k' /\ spared k k'.
Proof.
  intros H E. unfold imap_clear_folder in E. destruct (imap_select S serve k mf true) as [[x k1]|e] eqn:SE; cbn [bind] in E; [|discriminate]. destruct (select_held _ _ true _ _ H MF ltac:(auto) SE) as [H1 S1].
  destruct x as [x|]; [|injection E as <-; split; assumption].
  change (a_cmd [a_atom (bs "STORE"); a_atom (bs "1:*"); a_atom (bs "+FLAGS"); a_atom (bs "\Deleted")]) with (a_cmd (map tok_of (asks R_delete))) in E. change (a_cmd [a_atom (bs "EXPUNGE")]) with (a_cmd (map tok_of (asks R_expunge))) in E.
  destruct (command S serve k1 (a_cmd (map tok_of (asks R_delete)))) as [[r2 k2]|e] eqn:C2; cbn [bind] in E; [|discriminate]. destruct (command_held _ R_delete _ _ H1 ltac:(req) I C2) as [H2 S2].
  destruct (command S serve k2 (a_cmd (map tok_of (asks R_expunge)))) as [[r3 k3]|e] eqn:C3; cbn [bind] in E; [|discriminate]. destruct (command_held _ R_expunge _ _ H2 ltac:(req) I C3) as [H3 S3].
  injection E as <-. split; [exact H3|]. eapply spared_trans; [exact S1|eapply spared_trans; eassumption].
Qed.
Lemma append_held k t a b c k' : held k -> sendable (Str t) /\ no_backslash (Str t) -> imap_append_new_message S serve k mf t a b c = Ok k' -> held k' /\ spared k k'.
Proof.
  intros H [TA TB] E. unfold imap_append_new_message in E. destruct (imap_select S serve k mf true) as [[x k1]|e] eqn:SE; cbn [bind] in E; [|discriminate]. destruct (select_held _ _ true _ _ H MF ltac:(auto) SE) as [H1 S1].
  destruct x as [x|]; [|injection E as <-; split; assumption]. destruct MF as [MA MB].
  set (fl := (if a then [bs "\Seen"] else []) ++ (if b then [bs "\Answered"] else []) ++ (if c then [bs "\Flagged"] else [])).
  assert (EQ : a_cmd (map tok_of (asks (R_append mf fl t))) = a_cmd [a_atom (bs "APPEND"); a_string mf; Tok T_list None ((if a then [a_atom (bs "\Seen")] else []) ++ (if b then [a_atom (bs "\Answered")] else []) ++ (if c then [a_atom (bs "\Flagged")] else [])); a_string t]) by (destruct a, b, c; reflexivity).
  rewrite <- EQ in E. clear EQ. assert (G : good_request (R_append mf fl t)) by (destruct a, b, c; unfold fl; cbn [app]; req; cbn [map]; first [apply send_paren | apply back_paren]; repeat (apply Forall_cons; [one|]); apply Forall_nil).
  destruct (twice_held k1 (R_append mf fl t) mf k' H1 G eq_refl eq_refl E) as [H2 S2]. split; [exact H2|eapply spared_trans; eassumption].
Qed.
Lemma acts_held : forall l k k', held k -> (forall a, In a l -> act_ok a) -> do_acts serve mf k l = Ok k' -> held k' /\ spared k k'.
Proof.
  induction l as [|a l IH]; intros k k' H A E; [injection E as <-; split; [exact H|apply spared_refl]|]. cbn [do_acts] in E. destruct (do_act serve mf k a) as [k1|e] eqn:D; cbn [bind] in E; [|discriminate].
  assert (X : held k1 /\ spared k k1).
  { pose proof (A a (or_introl eq_refl)) as AO. destruct a as [fs|p|p| |t s an fl]; cbn [do_act act_ok] in *.
    - destruct (build_imap_message_list S serve k fs) as [[ps k2]|e] eqn:B; cbn [bind] in D; [|discriminate]. injection D as <-. eapply build_held; eassumption.
    - destruct (imap_fetch_message_raw S serve k p) as [[ps k2]|e] eqn:B; cbn [bind] in D; [|discriminate]. injection D as <-. eapply fetch_held; eassumption.
    - eapply copy_held; eassumption.
    - eapply clear_held; eassumption.
    - eapply append_held; eassumption. }
  destruct X as [H1 S1]. destruct (IH k1 k' H1 (fun x I => A x (or_intror I)) E) as [H2 S2]. split; [exact H2|eapply spared_trans; eassumption].
Qed.
End Acts.
