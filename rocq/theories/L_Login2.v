(* The conversation with the server before anything else is asked of it. *)
From Verif Require Import Base M_Imap S_Imap S_Server M_Login S_Login L_Mbox L_Imap L_Imap2 L_Imap3 L_Login.
Local Open Scope N_scope.
Local Opaque bs.

Section Talk.
Context (T : Type) (serve : bool -> T -> bytes -> T * option (list bytes)) (handshake : T -> list bytes -> T * option (bool * option bytes)) (first : bytes).
Local Notation ST := (list event * T)%type.
Local Notation sv := (watched serve).
Local Notation hk := (watched_keys handshake).
Definition heard_by (l : list event) : bytes := first ++ came l.
Definition book (k : conn ST) : list event := fst (k_srv k).
Definition total (k : conn ST) : bytes := heard_by (book k).
Definition inv (k : conn ST) : Prop := (-1 <= k_tag k)%Z /\ within (k_buf k ++ concat (k_net k)) (total k).
Definition heard_all (k : conn ST) : list tok -> Prop := Forall (heard (total k)).
Lemma came_app a b : came (a ++ b) = came a ++ came b.
Proof. unfold came. now rewrite map_app, concat_app. Qed.
Lemma grows k k' l cap : book k' = book k ++ l -> within cap (total k) -> within cap (total k').
Proof. intros E H. unfold total, heard_by in *. rewrite E, came_app, app_assoc. now apply within_left. Qed.
Lemma command_talk tls k is r k' : inv k -> is <> [] -> Forall sendable is -> Forall no_backslash is -> command ST (sv tls) k (a_cmd (map tok_of is)) = Ok (r, k') ->
  inv k' /\ (exists e, requests tls is e /\ book k' = book k ++ [e]) /\ (forall ls, r = Some ls -> heard_all k' ls /\ ls <> []).
Proof.
  intros [T0 W] NE SE NB E. unfold command in E. destruct (k_tag k + 1 <? 2147483648)%Z eqn:L; [|discriminate].
  set (t := format_cmd (k_tag k + 1) (a_cmd (map tok_of is)) ++ [13; 10]) in *.
  assert (RC : received t = Some (Z.to_N (k_tag k + 1), is)).
  { unfold t. replace (k_tag k + 1)%Z with (Z.of_N (Z.to_N (k_tag k + 1))) at 1 by lia. apply sent_main; try assumption. change (2 ^ 31) with 2147483648. lia. }
  unfold watched in E. destruct (serve tls (snd (k_srv k)) t) as [s' [out|]] eqn:ES.
  - destruct (collect _ _ _ _ _) as [[[l b] n]|e] eqn:EC; cbn [bind] in E; [|discriminate]. injection E as <- <-.
    assert (W2 : within (k_buf k ++ concat (k_net k ++ out)) (heard_by (book k ++ [Sent tls t (Some out)]))).
    { unfold heard_by. rewrite concat_app, app_assoc, came_app, app_assoc. apply within_app; [exact W|]. unfold came. cbn. rewrite app_nil_r. apply within_refl. }
    destruct (collect_sound (heard_by (book k ++ [Sent tls t (Some out)])) _ _ _ _ _ _ _ _ W2 (Forall_nil _) EC) as [C1 C2]. split; [|split].
    + split; [cbn [k_tag]; lia|]. cbn [k_buf k_net]. unfold total, book. cbn [k_srv fst]. eapply within_trans; [exact C2|exact W2].
    + exists (Sent tls t (Some out)). split; [exists t, (Z.to_N (k_tag k + 1)), (Some out); auto|reflexivity].
    + exact C1.
  - injection E as <- <-. split; [|split].
    + split; [cbn [k_tag]; lia|]. cbn [k_buf k_net]. unfold total, book. cbn [k_srv fst]. unfold heard_by. rewrite came_app, app_assoc. apply within_left. exact W.
    + exists (Sent tls t None). split; [exists t, (Z.to_N (k_tag k + 1)), None; auto|reflexivity].
    + discriminate.
Qed.
Lemma word_sendable s : s <> [] -> forallb send_char s = true -> sendable (Atom s) /\ no_backslash (Atom s).
Proof. intros H1 H2. split; [|exact Logic.I]. split; [assumption|]. rewrite forallb_forall in H2. now apply Forall_forall. Qed.
Lemma word_talk tls k w r k' : inv k -> bs w <> [] -> forallb send_char (bs w) = true -> command ST (sv tls) k (a_cmd [a_atom (bs w)]) = Ok (r, k') ->
  inv k' /\ (exists e, requests tls [Atom (bs w)] e /\ book k' = book k ++ [e]) /\ (forall ls, r = Some ls -> heard_all k' ls /\ ls <> []).
Proof. intros K H1 H2 E. destruct (word_sendable _ H1 H2) as [W1 W2]. exact (command_talk tls k [Atom (bs w)] r k' K ltac:(discriminate) (Forall_cons _ W1 (Forall_nil _)) (Forall_cons _ W2 (Forall_nil _)) E). Qed.
Lemma asked_talk tls k c k' : inv k -> asked ST sv tls k = Ok (c, k') -> inv k' /\ (exists e, asks_caps tls e /\ book k' = book k ++ [e]) /\ heard_all k' c.
Proof.
  intros K E. unfold asked, ask_for_capabilities in E. destruct (command _ _ _ _) as [[r k1]|] eqn:EC; cbn [bind] in E; [|discriminate].
  destruct (word_talk tls k "CAPABILITY" r k1 K ltac:(discriminate) ltac:(now vm_compute) EC) as (I1 & (e & E1 & E2) & H1).
  destruct r as [ls|]; [|discriminate]. destruct (caps_untagged ls) as [c'|] eqn:EU; cbn [bind] in E; [|discriminate]. injection E as <- <-. split; [assumption|]. split; [exists e; auto|]. exact (untagged_heard _ _ _ (proj1 (H1 ls eq_refl)) EU).
Qed.
Definition maybe_asks tls (l : list event) : Prop := l = [] \/ exists c, asks_caps tls c /\ l = [c].
Lemma from_talk tls k l c k' : inv k -> heard (total k) l -> caps_from ST sv tls k l = Ok (c, k') -> inv k' /\ (exists a, maybe_asks tls a /\ book k' = book k ++ a) /\ heard_all k' c.
Proof.
  intros K H E. unfold caps_from in E. destruct (caps_bracket l) as [c'|] eqn:EB.
  - injection E as <- <-. split; [assumption|]. split; [exists []; split; [now left|now rewrite app_nil_r]|exact (bracket_heard _ _ _ H EB)].
  - destruct (asked_talk _ _ _ _ K E) as (I1 & (e & E1 & E2) & H1). split; [assumption|]. split; [exists [e]; split; [right; eauto|assumption]|assumption].
Qed.
Lemma untrusted server h : match h with Some (true, Some name) => name_suits server name = false | _ => True end -> ~ trusted server h.
Proof.
  intros H (full & -> & N). cbn in H. rewrite (trusted_suits server full N) in H. discriminate.
Qed.
Lemma starttls_talk k server o k' : inv k -> starttls ST sv hk k server = Ok (o, k') ->
  inv k' /\ exists s r, starts_tls s /\ book k' = book k ++ s :: r /\
    match o with TLS_FAILED_PROCEED => r = [] | TLS_SUCCESS => exists h, r = [Shook h] /\ trusted server h | _ => exists h, r = [Shook h] /\ ~ trusted server h end.
Proof.
  intros K E. unfold starttls in E. destruct (command _ _ _ _) as [[r k1]|] eqn:EC; cbn [bind] in E; [|discriminate].
  destruct (word_talk false k "STARTTLS" r k1 K ltac:(discriminate) ltac:(now vm_compute) EC) as (I1 & (e & E1 & E2) & H1).
  destruct (status r) as [st|]; cbn [bind] in E; [|discriminate]. destruct (negb _); [injection E as <- <-; split; [assumption|exists e, []; auto]|].
  unfold watched_keys in E. destruct (handshake (snd (k_srv k1)) (k_net k1)) as [t' h] eqn:EH. injection E as <- <-. split.
  - destruct I1 as [I1 I2]. split; [exact I1|]. cbn [k_buf k_net concat]. rewrite app_nil_r. unfold total, book. cbn [k_srv fst]. unfold heard_by. rewrite came_app, app_assoc. apply within_left. eapply within_trans; [|exact I2]. apply within_left, within_refl.
  - exists e, [Shook h]. split; [exact E1|]. unfold book at 1. cbn [k_srv fst]. fold (book k1). rewrite E2, <- app_assoc. split; [reflexivity|].
    destruct h as [[[|] [name|]]|]; try (eexists; split; [reflexivity|apply untrusted; exact Logic.I]).
    destruct (name_suits server name) eqn:EN; (eexists; split; [reflexivity|]); [exists name; split; [reflexivity|exact (suits_trusted _ _ EN)]|apply untrusted; exact EN].
Qed.
Lemma last_heard R ls d : Forall (heard R) ls -> ls <> [] -> heard R (last ls d).
Proof. induction ls as [|x ls IH]; [contradiction|]. intros F _. inversion F; subst. destruct ls as [|y ls]; [assumption|]. apply IH; [assumption|discriminate]. Qed.
Lemma logged_cap k c : heard_all k c -> logged_in c = L_ok -> within (bs "LITERAL+") (total k).
Proof. intros H E. unfold logged_in in E. destruct (has_cap c "LITERAL+") eqn:EC; [|discriminate]. exact (cap_heard _ _ _ H EC). Qed.
Definition told (k : conn ST) (l : list event) (r : login_result) : Prop :=
  (l <> [] -> within (bs "LITERAL+") (total k) /\ within (bs "AUTH=PLAIN") (total k)) /\ (r = L_ok -> within (bs "LITERAL+") (total k)).
Lemma nothing_told k : told k [] L_error /\ told k [] L_denied.
Proof. split; (split; [contradiction|discriminate]). Qed.
Definition caps_told (k : conn ST) (c : list tok) : Prop := forall cap, has_cap c cap = true -> within (bs cap) (total k).
Lemma told_heard k c : heard_all k c -> caps_told k c.
Proof. intros H cap E. exact (cap_heard _ _ _ H E). Qed.
Lemma log_in_talk tls k c user password r k' : inv k -> caps_told k c -> presentable user -> presentable password -> log_in ST sv tls k c user password = Ok (r, k') ->
  exists l, book k' = book k ++ l /\ goes_on tls user password l /\ told k' l r.
Proof.
  intros K H PU PP E. assert (QUIET : forall x, r = L_error \/ r = L_denied -> x = k' -> book x = book k -> exists l, book k' = book k ++ l /\ goes_on tls user password l /\ told k' l r).
  { intros x Q <- B. exists []. rewrite app_nil_r. split; [exact B|]. split; [now left|]. destruct Q as [-> | ->]; apply nothing_told. }
  unfold log_in in E. destruct (has_cap c "LITERAL+") eqn:C1; cbn [negb] in E; [|injection E as <- <-; eapply QUIET; auto].
  destruct user as [u|]; [|injection E as <- <-; eapply QUIET; auto]. destruct password as [p|]; [|injection E as <- <-; eapply QUIET; auto].
  destruct (has_cap c "AUTH=PLAIN") eqn:C2; cbn [negb] in E; [|injection E as <- <-; eapply QUIET; auto]. clear QUIET.
  destruct (command _ _ _ _) as [[a k1]|] eqn:EC; cbn [bind] in E; [|discriminate].
  destruct (PU u eq_refl) as [U1 U2]. destruct (PP p eq_refl) as [P1 P2]. destruct (word_sendable (bs "LOGIN") ltac:(discriminate) ltac:(now vm_compute)) as [W1 W2].
  destruct (command_talk tls k [Atom (bs "LOGIN"); Str u; Str p] a k1 K ltac:(discriminate) (Forall_cons _ W1 (Forall_cons _ U1 (Forall_cons _ P1 (Forall_nil _)))) (Forall_cons _ W2 (Forall_cons _ U2 (Forall_cons _ P2 (Forall_nil _)))) EC) as (I1 & (e & E1 & E2) & H1).
  pose proof (H _ C1) as T1. pose proof (H _ C2) as T2. assert (LI : logs_in tls (Some u) (Some p) e) by (exists u, p; auto).
  assert (DONE : r <> L_ok -> k1 = k' -> exists l, book k' = book k ++ l /\ goes_on tls (Some u) (Some p) l /\ told k' l r).
  { intros Q <-. exists [e]. split; [exact E2|]. split; [right; exists e, []; auto|]. split; [intros _; split; eapply grows; eassumption|contradiction]. }
  destruct (status a) as [st|]; cbn [bind] in E; [|discriminate]. destruct (bytes_eqb st (bs "OK")).
  - destruct a as [ls|]; [|discriminate]. destruct (H1 ls eq_refl) as [H2 H3]. destruct (caps_from _ _ _ _ _) as [[c2 k2]|] eqn:EF; cbn [bind] in E; [|discriminate]. injection E as <- <-.
    destruct (from_talk tls k1 _ c2 k2 I1 (last_heard _ _ _ H2 H3) EF) as (I2 & (b & B1 & B2) & H4). assert (EB : book k2 = book k ++ e :: b) by (now rewrite B2, E2, <- app_assoc).
    exists (e :: b). split; [exact EB|]. split; [right; exists e, b; auto|]. split; [intros _; split; eapply grows; eassumption|]. intros Q. destruct c2 as [|x c2]; [discriminate|]. exact (logged_cap _ _ H4 Q).
  - destruct (bytes_eqb st (bs "NO")); injection E as <- <-; apply DONE; (discriminate || reflexivity).
Qed.
Lemma login_talk use_ssl k0 user password server r k' : inv k0 -> book k0 = [] -> presentable user -> presentable password ->
  imap_login use_ssl ST sv hk k0 user password server = Ok (r, k') ->
  conversation use_ssl server user password (book k') /\ ((exists tls e, In e (book k') /\ logs_in tls user password e) -> within (bs "LITERAL+") (total k') /\ within (bs "AUTH=PLAIN") (total k')) /\
  (r = L_ok -> within (bs "LITERAL+") (total k')).
Proof.
  intros [K1 K2] B0 PU PP E. unfold imap_login in E. destruct (waitline _ _ _ _) as [[[l buf] net]|] eqn:EW; cbn [bind] in E; [|discriminate].
  destruct (line_sound (total k0) _ _ _ _ _ _ K2 EW) as [L1 L2]. set (k := {| k_tag := k_tag k0; k_buf := buf; k_net := net; k_sel := k_sel k0; k_srv := k_srv k0 |}) in *.
  assert (K : inv k) by (split; [exact K1|eapply within_trans; [exact L2|exact K2]]). assert (BK : book k = []) by exact B0. assert (HK : forall t, l = Some t -> heard (total k) t) by exact L1.
  assert (NOLOG : forall a, maybe_asks false a -> ~ (exists tls e, In e a /\ logs_in tls user password e)).
  { intros a [->|(c & (t & tag & an & -> & RC) & ->)] (tls & e & IN & (u & p & _ & _ & (t' & tag' & an' & -> & RC'))); [contradiction|]. destruct IN as [IN|[]]. injection IN as <- <- <-. rewrite RC in RC'. discriminate. }
  assert (ONLY : forall a x, maybe_asks false a -> book k' = a -> (x = L_ok -> within (bs "LITERAL+") (total k')) -> x = r -> conversation use_ssl server user password (book k') /\ ((exists tls e, In e (book k') /\ logs_in tls user password e) -> within (bs "LITERAL+") (total k') /\ within (bs "AUTH=PLAIN") (total k')) /\ (r = L_ok -> within (bs "LITERAL+") (total k'))).
  { intros a x A -> X <-. split; [exists a, []; split; [now rewrite app_nil_r|]; split; [exact A|left; now left]|]. split; [intros Q; exfalso; exact (NOLOG a A Q)|exact X]. }
  assert (NIL : maybe_asks false []) by now left.
  destruct l as [t|]; [|injection E as <- <-; exact (ONLY [] L_error NIL BK ltac:(discriminate) eq_refl)]. specialize (HK t eq_refl).
  destruct (t_kids t) as [|a ks]; [injection E as <- <-; exact (ONLY [] L_error NIL BK ltac:(discriminate) eq_refl)|].
  destruct (negb (is_atom a)); [injection E as <- <-; exact (ONLY [] L_error NIL BK ltac:(discriminate) eq_refl)|].
  destruct (leaf_is a "BYE"); [injection E as <- <-; exact (ONLY [] L_error NIL BK ltac:(discriminate) eq_refl)|].
  destruct (leaf_is a "PREAUTH").
  { destruct (caps_from _ _ _ _ _) as [[c k1]|] eqn:EF; cbn [bind] in E; [|discriminate]. destruct (from_talk false k t c k1 K HK EF) as (I1 & (x & X1 & X2) & H1). injection E as <- <-. rewrite BK in X2.
    refine (ONLY x _ X1 X2 _ eq_refl). intros Q. destruct c as [|y c]; [discriminate|]. exact (logged_cap _ _ H1 Q). }
  destruct (negb (leaf_is a "OK")); [injection E as <- <-; exact (ONLY [] L_error NIL BK ltac:(discriminate) eq_refl)|].
  destruct (caps_from _ _ _ _ _) as [[c k1]|] eqn:EF; cbn [bind] in E; [|discriminate]. destruct (from_talk false k t c k1 K HK EF) as (I1 & (x & X1 & X2) & H1). rewrite BK in X2. cbn [app] in X2.
  assert (E' : c = [] /\ r = L_error /\ k1 = k' \/ (if use_ssl && has_cap c "STARTTLS" then
                  let! (o, k2) := starttls ST sv hk k1 server in
                  match o with
                  | TLS_FAILED_PROCEED => log_in ST sv false k2 c user password
                  | TLS_FAILED | TLS_FAILED_CERT => Ok (L_error, k2)
                  | TLS_SUCCESS => let! (c', k3) := asked ST sv true k2 in match c' with [] => Ok (L_error, k3) | _ => log_in ST sv true k3 c' user password end
                  end
                else log_in ST sv false k1 c user password) = Ok (r, k')) by (destruct c; [left; injection E as <- <-; auto|right; exact E]).
  clear E. destruct E' as [(-> & -> & ->)|E]; [exact (ONLY x L_error X1 X2 ltac:(discriminate) eq_refl)|].
  assert (FIN : forall y l r0 tls, book k' = x ++ y ++ l -> (forall e, In e y -> ~ exists tls, logs_in tls user password e) -> goes_on tls user password l -> told k' l r0 ->
    ((exists tls e, In e (book k') /\ logs_in tls user password e) -> within (bs "LITERAL+") (total k') /\ within (bs "AUTH=PLAIN") (total k')) /\ (r0 = L_ok -> within (bs "LITERAL+") (total k'))).
  { intros y l r0 tls EB NY G [T1 T2]. split; [|exact T2]. intros (tl & e & IN & LI). apply T1. rewrite EB in IN. apply in_app_iff in IN as [IN|IN]; [exfalso; apply (NOLOG x X1); eauto|]. apply in_app_iff in IN as [IN|IN]; [exfalso; apply (NY e IN); eauto|]. intros ->. contradiction. }
  assert (NOREQ : forall tls w e, requests tls [Atom w] e -> ~ exists tls, logs_in tls user password e).
  { intros tls w e (t' & tag & an & -> & RC) (tl & u & p & _ & _ & (t2 & tag2 & an2 & EQ & RC2)). injection EQ as -> <- <-. rewrite RC in RC2. discriminate. }
  destruct (use_ssl && has_cap c "STARTTLS") eqn:EU.
  - apply andb_true_iff in EU as [EU _]. destruct (starttls _ _ _ _ _) as [[o k2]|] eqn:ES; cbn [bind] in E; [|discriminate]. destruct (starttls_talk k1 server o k2 I1 ES) as (I2 & s & rr & S1 & S2 & S3). rewrite X2 in S2.
    assert (NS : forall e, In e [s] -> ~ exists tls, logs_in tls user password e) by (intros e [<-|[]]; exact (NOREQ false _ _ S1)).
    assert (NH : forall h e, In e [s; Shook h] -> ~ exists tls, logs_in tls user password e) by (intros h e [<-|[<-|[]]]; [exact (NOREQ false _ _ S1)|intros (tl & u & p & _ & _ & (t2 & tag2 & an2 & EQ & RC2)); discriminate]).
    assert (FAILED : (exists h, rr = [Shook h] /\ ~ trusted server h) -> (L_error, k2) = (r, k') -> conversation use_ssl server user password (book k') /\ ((exists tls e, In e (book k') /\ logs_in tls user password e) -> within (bs "LITERAL+") (total k') /\ within (bs "AUTH=PLAIN") (total k')) /\ (r = L_ok -> within (bs "LITERAL+") (total k'))).
    { intros (h & -> & NT) [= <- <-]. split.
      - exists x, [s; Shook h]. split; [exact S2|]. split; [exact X1|]. right. split; [exact EU|]. exists s, [Shook h]. split; [exact S1|]. split; [reflexivity|]. right. exists h, []. auto.
      - apply (FIN [s; Shook h] [] L_error false); [now rewrite app_nil_r|exact (NH h)|now left|apply nothing_told]. }
    destruct o; [| apply FAILED; [exact S3|congruence] | apply FAILED; [exact S3|congruence] |].
    + subst rr. assert (H2 : caps_told k2 c) by (intros cap EQ; apply (grows k1 k2 [s] (bs cap)); [now rewrite X2|exact (told_heard _ _ H1 cap EQ)]).
      destruct (log_in_talk false k2 c user password r k' I2 H2 PU PP E) as (l & B1 & B2 & B3). rewrite S2, <- app_assoc in B1. cbn [app] in B1. split; [|exact (FIN [s] l r false B1 NS B2 B3)].
      exists x, (s :: l). split; [exact B1|]. split; [exact X1|]. right. split; [exact EU|]. exists s, l. auto.
    + destruct S3 as (h & -> & TR). destruct (asked _ _ _ _) as [[c' k3]|] eqn:EA; cbn [bind] in E; [|discriminate]. destruct (asked_talk true k2 c' k3 I2 EA) as (I3 & (q & Q1 & Q2) & H3). rewrite S2, <- app_assoc in Q2. cbn [app] in Q2.
      assert (NQ : forall e, In e [s; Shook h; q] -> ~ exists tls, logs_in tls user password e) by (intros e [<-|[<-|[<-|[]]]]; [apply (NH h); now left|apply (NH h); right; now left|exact (NOREQ true _ _ Q1)]).
      assert (E' : c' = [] /\ r = L_error /\ k3 = k' \/ log_in ST sv true k3 c' user password = Ok (r, k')) by (destruct c'; [left; injection E as <- <-; auto|right; exact E]). clear E.
      assert (CV : forall l, book k' = x ++ [s; Shook h; q] ++ l -> goes_on true user password l -> conversation use_ssl server user password (book k')).
      { intros l B G. exists x, ([s; Shook h; q] ++ l). split; [exact B|]. split; [exact X1|]. right. split; [exact EU|]. exists s, (Shook h :: q :: l). split; [exact S1|]. split; [reflexivity|]. right. exists h, (q :: l). split; [reflexivity|]. right. split; [exact TR|]. exists q, l. auto. }
      destruct E' as [(-> & -> & ->)|E].
      * split; [apply (CV []); [exact Q2|now left]|]. apply (FIN [s; Shook h; q] [] L_error true); [exact Q2|exact NQ|now left|apply nothing_told].
      * destruct (log_in_talk true k3 c' user password r k' I3 (told_heard _ _ H3) PU PP E) as (l & B1 & B2 & B3). rewrite Q2, <- app_assoc in B1. split; [exact (CV l B1 B2)|exact (FIN [s; Shook h; q] l r true B1 NQ B2 B3)].
  - destruct (log_in_talk false k1 c user password r k' I1 (told_heard _ _ H1) PU PP E) as (l & B1 & B2 & B3). rewrite X2 in B1. split; [exists x, l; auto|exact (FIN [] l r false B1 ltac:(contradiction) B2 B3)].
Qed.
End Talk.
