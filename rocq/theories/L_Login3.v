(* Greetings that offer TLS; servers that do harm. *)
From Verif Require Import Base M_Imap S_Imap S_Server M_Login S_Login L_Mbox L_Imap L_Imap2 L_Imap3 L_Imap4 L_Imap5 L_Login L_Login2.
Local Open Scope N_scope.
Local Opaque bs.

Definition settled (r : reader) : Prop := r_state r <> 0 /\ r_state r <> 2.
Lemma finish_state ty r r' : finish ty r = Ok r' -> r_state r' = r_state r.
Proof.
  unfold finish. destruct (r_cur r) as [c|]; [|now intros [= <-]]. destruct (mktoken ty c); cbn [bind]; [|discriminate]. destruct (grow_leaf _ _); cbn [bind]; [|discriminate]. now intros [= <-].
Qed.
Ltac go :=
  repeat match goal with
  | H : bind ?e _ = Ok _ |- _ => let E := fresh "E" in destruct e eqn:E; cbn [bind] in H; [|discriminate H]
  | H : Ok _ = Ok _ |- _ => injection H as <-
  | H : Err _ = Ok _ |- _ => discriminate H
  | H : context [if ?b then _ else _] |- _ => destruct b eqn:?
  | H : context [match r_open ?r with _ => _ end] |- _ => destruct (r_open r) as [|[? ?] ?] eqn:?
  | H : context [match r_cur ?r with _ => _ end] |- _ => destruct (r_cur r) as [[? ?]|] eqn:?
  end.
Lemma step_tag tag tag' r c : settled r -> step tag r c = step tag' r c.
Proof. intros [S0 S2]. unfold step. destruct (r_state r) as [|p]; [congruence|]. do 3 (try destruct p as [p|p|]); try reflexivity; congruence. Qed.
Lemma step_settled tag r c r' : settled r -> step tag r c = Ok (More r') -> settled r'.
Proof.
  intros S E. pose proof S as [S0 S2]. unfold step in E. destruct ((c =? 10) && (r_state r <? 7)).
  { destruct (r_state r =? 4); [|discriminate]. destruct (finish T_atom r); cbn [bind] in E; discriminate. }
  unfold settled in *. remember (r_state r) as st eqn:EST. destruct st as [|p]; [congruence|]. do 3 (try destruct p as [p|p|]); try congruence; cbn iota in E;
    go; try injection E as <-; try match goal with |- context [if ?b then _ else _] => destruct b end; cbn [with_state with_open with_num with_cur r_state]; rewrite <- ?EST;
    repeat match goal with H : finish _ ?x = Ok ?y |- context [r_state ?y] => rewrite (finish_state _ _ _ H); cbn [with_cur r_state] end; rewrite <- ?EST; split; try discriminate; try assumption.
Qed.
Lemma eat_tag tag tag' : forall buf r, settled r -> eat tag r buf = eat tag' r buf.
Proof.
  induction buf as [|c buf IH]; intros r S; [reflexivity|]. cbn [eat]. rewrite (step_tag tag tag' r c S). destruct (step tag' r c) as [[r'|l]|] eqn:E; cbn [bind]; try reflexivity. apply IH. exact (step_settled _ _ _ _ S E).
Qed.

Lemma greeting_eat tag tag' is g rest : line_spelt tag (Says is) g -> tag < 2 ^ 31 -> eat tag' reader0 (g ++ rest) = Ok (inr (Some (tok_of_line (Says is)), rest)).
Proof.
  intros SP LT. rewrite <- (line_eat tag (Says is) g rest SP LT). inversion SP as [is' t' S' E1 E2|]; subst.
  change (bs "* " ++ t' ++ [13; 10]) with (42 :: 32 :: t' ++ [13; 10]). cbn [app eat].
  change (step tag' reader0 42) with (Ok (More (with_state reader0 1))). change (step (Z.of_N tag) reader0 42) with (Ok (More (with_state reader0 1))). cbn [bind].
  change (step tag' (with_state reader0 1) 32) with (Ok (More (with_state (with_open (with_state reader0 1) [(T_untagged, [])]) 4))). change (step (Z.of_N tag) (with_state reader0 1) 32) with (Ok (More (with_state (with_open (with_state reader0 1) [(T_untagged, [])]) 4))). cbn [bind].
  apply eat_tag. split; discriminate.
Qed.
Lemma greeting_reads tag tag' is g rest net : line_spelt tag (Says is) g -> tag < 2 ^ 31 -> concat net = g ++ rest ->
  exists b n, waitline tag' reader0 [] net = Ok (Some (tok_of_line (Says is)), b, n) /\ b ++ concat n = rest.
Proof.
  intros SP LT EQ. pose proof (wait_all tag' net reader0 []) as W. cbn [app] in W. rewrite EQ, (greeting_eat _ _ _ _ _ SP LT) in W. cbn [rest_of] in W.
  destruct (waitline tag' reader0 [] net) as [[[l' b] n]|e]; [|discriminate]. injection W as -> <-. exists b, n. split; reflexivity.
Qed.

Lemma able_caps word caps more l : l = map tok_of (able word caps more) -> caps_bracket (Tok T_untagged None l) = Some (map a_atom caps) /\ caps_bracket (Tok T_tagged None l) = Some (map a_atom caps).
Proof. intros ->. unfold caps_bracket, able. cbn [t_kids map tok_of t_type same_type]. replace (leaf_is (Tok T_atom (Some (bs "CAPABILITY")) []) "CAPABILITY") with true by reflexivity. rewrite map_map. auto. Qed.
Lemma cap_in cap caps : (forall c, In c caps -> ~ In 0 c) -> has_cap (map a_atom caps) cap = true <-> In (bs cap) caps.
Proof.
  intros NU. unfold has_cap. rewrite existsb_exists. split.
  - intros (x & IN & L). apply in_map_iff in IN as (c & <- & IN). unfold a_atom in L. rewrite leaf_atom in L by (apply NU; exact IN). apply bytes_eqb_iff in L. now subst c.
  - intros IN. exists (a_atom (bs cap)). split; [now apply in_map|]. unfold a_atom. rewrite leaf_atom by (apply NU; exact IN). now apply bytes_eqb_iff.
Qed.
Lemma able_no_nul word caps more tag t : line_spelt tag (Says (able word caps more)) t \/ line_spelt tag (Ends (able word caps more)) t -> ~ In 0 word /\ forall c, In c caps -> ~ In 0 c.
Proof.
  intros H. assert (F : Forall no_nul (able word caps more)) by (destruct H as [H|H]; inversion H; subst; eapply spelt_no_nul; eassumption).
  inversion F as [|? ? A F1]; subst. inversion F1 as [|? ? B F2]; subst. split; [exact A|]. cbn [no_nul] in B. destruct B as [_ B]. intros c IN. clear - B IN.
  induction caps as [|x caps IH]; [contradiction|]. cbn [map] in B. destruct B as [B1 B2]. destruct IN as [<-|IN]; [exact B1|exact (IH B2 IN)].
Qed.
Lemma start_inv {T} (t : T) net : inv T (concat net) (new_conn ([], t) net).
Proof. split; [cbn; lia|]. cbn [new_conn k_buf k_net app]. unfold total, heard_by, book. cbn [new_conn k_srv fst]. change (came []) with (@nil N). rewrite app_nil_r. apply within_refl. Qed.

Lemma login_main : forall (T : Type) (serve : bool -> T -> bytes -> T * option (list bytes)) (handshake : T -> list bytes -> T * option (bool * option bytes))
    (t : T) (net : list bytes) use_ssl user password server r k, presentable user -> presentable password ->
  imap_login use_ssl (list event * T) (watched serve) (watched_keys handshake) (new_conn ([], t) net) user password server = Ok (r, k) ->
  let log := fst (k_srv k) in
  conversation use_ssl server user password log /\
  (forall tls e, In e log -> logs_in tls user password e -> within (bs "LITERAL+") (concat net ++ came log) /\ within (bs "AUTH=PLAIN") (concat net ++ came log)) /\
  (r = L_ok -> within (bs "LITERAL+") (concat net ++ came log)).
Proof.
  intros T serve handshake t net use_ssl user password server r k PU PP E. destruct (login_talk T serve handshake (concat net) use_ssl _ user password server r k (start_inv t net) eq_refl PU PP E) as (A & B & C).
  split; [exact A|]. split; [|exact C]. intros tls e IN L. apply B. exists tls, e. auto.
Qed.

Lemma offered_main : forall (T : Type) (serve : bool -> T -> bytes -> T * option (list bytes)) (handshake : T -> list bytes -> T * option (bool * option bytes))
    (t : T) (net : list bytes) user password server r k caps more g rest, presentable user -> presentable password ->
  line_spelt 0 (Says (able (bs "OK") caps more)) g -> concat net = g ++ rest -> In (bs "STARTTLS") caps ->
  imap_login true (list event * T) (watched serve) (watched_keys handshake) (new_conn ([], t) net) user password server = Ok (r, k) ->
  exists e l, fst (k_srv k) = e :: l /\ starts_tls e.
Proof.
  intros T serve handshake t net user password server r k caps more g rest PU PP SP EQ IN E. destruct (greeting_reads 0 (-1)%Z _ g rest net SP ltac:(reflexivity) EQ) as (b & n & W & RE).
  destruct (able_no_nul _ _ _ 0 g (or_introl SP)) as [_ NU]. destruct (line_sound (concat net) (-1)%Z [] net _ _ _ (within_refl _) W) as [L1 L2]. specialize (L1 _ eq_refl).
  unfold imap_login in E. cbn [new_conn k_tag k_buf k_net] in E. rewrite W in E. cbn [bind] in E. set (k0 := {| k_tag := _; k_buf := b; k_net := n; k_sel := _; k_srv := _ |}) in E.
  unfold tok_of_line in E. destruct (able_caps (bs "OK") caps more _ eq_refl) as [CB _]. cbn [t_kids] in E.
  change (map tok_of (able (bs "OK") caps more)) with (a_atom (bs "OK") :: tl (map tok_of (able (bs "OK") caps more))) in E at 1. cbn iota in E. change (negb (is_atom (a_atom (bs "OK")))) with false in E. change (leaf_is (a_atom (bs "OK")) "BYE") with false in E. change (leaf_is (a_atom (bs "OK")) "PREAUTH") with false in E. change (leaf_is (a_atom (bs "OK")) "OK") with true in E. cbn [negb] in E. cbn iota in E.
  unfold caps_from in E. rewrite CB in E. cbn [bind] in E. destruct caps as [|c0 caps']; [contradiction|]. set (caps := c0 :: caps') in *. change (map a_atom caps) with (a_atom c0 :: map a_atom caps') in E at 1. cbn iota in E.
  rewrite (proj2 (cap_in "STARTTLS" caps NU) IN) in E. cbn [andb] in E. cbn iota in E.
  assert (K0 : inv T (concat net) k0). { split; [cbn; lia|]. cbn [k0 k_buf k_net]. unfold total, heard_by, book. cbn [k0 k_srv new_conn fst]. change (came []) with (@nil N). rewrite app_nil_r. exact L2. }
  destruct (starttls _ _ _ _ _) as [[o k2]|] eqn:ES; cbn [bind] in E; [|discriminate]. destruct (starttls_talk T serve handshake (concat net) k0 server o k2 K0 ES) as (K2 & s & rr & S1 & S2 & S3).
  change (book T k0) with (@nil event) in S2. cbn [app] in S2.
  assert (H0 : heard_all T (concat net) k0 (map a_atom caps)).
  { apply (bracket_heard _ (Tok T_untagged None (map tok_of (able (bs "OK") caps more)))); [|exact CB]. unfold total, heard_by, book. cbn [k0 k_srv new_conn fst]. change (came []) with (@nil N). rewrite app_nil_r. exact L1. }
  assert (GO : forall l, book T k = book T k2 ++ l -> exists e l0, fst (k_srv k) = e :: l0 /\ starts_tls e). { intros l X. unfold book at 1 in X. rewrite S2 in X. exists s, (rr ++ l). auto. }
  destruct o.
  - assert (CT : caps_told T (concat net) k2 (map a_atom caps)). { intros cap HC. apply (grows T (concat net) k0 k2 (s :: rr)); [exact S2|]. apply (told_heard _ _ _ _ H0). exact HC. }
    destruct (log_in_talk T serve handshake (concat net) false k2 _ user password r k K2 CT PU PP E) as (l & BL & _). exact (GO l BL).
  - injection E as <- <-. apply (GO []). now rewrite app_nil_r.
  - injection E as <- <-. apply (GO []). now rewrite app_nil_r.
  - destruct (asked _ _ _ _) as [[c k3]|] eqn:EA; cbn [bind] in E; [|discriminate]. destruct (asked_talk T serve handshake (concat net) true k2 c k3 K2 EA) as (K3 & (e & AC & B3) & H3).
    destruct c as [|c1 c']; [injection E as <- <-; exact (GO [e] B3)|].
    destruct (log_in_talk T serve handshake (concat net) true k3 _ user password r k K3 (told_heard _ _ _ _ H3) PU PP E) as (l & BL & _). apply (GO (e :: l)). rewrite BL, B3, <- app_assoc. reflexivity.
Qed.

Definition result_of (v : verdict) : login_result := match v with Let_in => L_ok | Refused => L_denied | Wrong => L_error end.
Lemma plain_main : forall (T : Type) (serve : bool -> T -> bytes -> T * option (list bytes)) (handshake : T -> list bytes -> T * option (bool * option bytes))
    (t : T) (net : list bytes) use_ssl u p server caps more g word caps' more' lines ts te v,
  presentable (Some u) -> presentable (Some p) ->
  line_spelt 0 (Says (able (bs "OK") caps more)) g -> concat net = g ->
  In (bs "LITERAL+") caps -> In (bs "AUTH=PLAIN") caps -> (use_ssl = true -> ~ In (bs "STARTTLS") caps) ->
  Forall2 (fun is x => line_spelt 0 (Says is) x) lines ts -> line_spelt 0 (Ends (able word caps' more')) te ->
  (forall b, received b = Some (0, [Atom (bs "LOGIN"); Str u; Str p]) -> exists t' out, serve false t b = (t', Some out) /\ concat out = concat ts ++ te) ->
  verdict_of word caps' v ->
  exists k, imap_login use_ssl T serve handshake (new_conn t net) (Some u) (Some p) server = Ok (result_of v, k).
Proof.
  intros T serve handshake t net use_ssl u p server caps more g word caps' more' lines ts te v PU PP SP EQ C1 C2 C3 FL SE SV V.
  destruct (greeting_reads 0 (-1)%Z _ g [] net SP ltac:(reflexivity) ltac:(rewrite app_nil_r; exact EQ)) as (b & n & W & RE).
  destruct (able_no_nul _ _ _ 0 g (or_introl SP)) as [_ NU]. destruct (able_no_nul _ _ _ 0 te (or_intror SE)) as [NW NU'].
  unfold imap_login. cbn [new_conn k_tag k_buf k_net]. rewrite W. cbn [bind]. set (k0 := {| k_tag := _; k_buf := b; k_net := n; k_sel := _; k_srv := _ |}).
  unfold tok_of_line. destruct (able_caps (bs "OK") caps more _ eq_refl) as [CB _]. cbn [t_kids].
  change (map tok_of (able (bs "OK") caps more)) with (a_atom (bs "OK") :: tl (map tok_of (able (bs "OK") caps more))) at 1. cbn iota. change (negb (is_atom (a_atom (bs "OK")))) with false. change (leaf_is (a_atom (bs "OK")) "BYE") with false. change (leaf_is (a_atom (bs "OK")) "PREAUTH") with false. change (leaf_is (a_atom (bs "OK")) "OK") with true. cbn [negb]. cbn iota.
  unfold caps_from at 1. rewrite CB. cbn [bind]. destruct caps as [|c0 cs]; [contradiction|]. set (caps := c0 :: cs) in *. change (map a_atom caps) with (a_atom c0 :: map a_atom cs) at 1. cbn iota.
  assert (NS : use_ssl && has_cap (map a_atom caps) "STARTTLS" = false).
  { destruct use_ssl; [|reflexivity]. cbn [andb]. destruct (has_cap (map a_atom caps) "STARTTLS") eqn:EH; [|reflexivity]. exfalso. apply (C3 eq_refl). apply (cap_in "STARTTLS" caps NU). exact EH. }
  rewrite NS. unfold log_in. rewrite (proj2 (cap_in "LITERAL+" caps NU) C1), (proj2 (cap_in "AUTH=PLAIN" caps NU) C2). cbn [negb].
  destruct (PU u eq_refl) as [U1 U2]. destruct (PP p eq_refl) as [P1 P2]. destruct (word_sendable (bs "LOGIN") ltac:(discriminate) ltac:(now vm_compute)) as [W1 W2].
  pose proof (sent_main 0 [Atom (bs "LOGIN"); Str u; Str p] ltac:(reflexivity) ltac:(discriminate) (Forall_cons _ W1 (Forall_cons _ U1 (Forall_cons _ P1 (Forall_nil _)))) (Forall_cons _ W2 (Forall_cons _ U2 (Forall_cons _ P2 (Forall_nil _))))) as RC.
  destruct (SV _ RC) as (t' & out & S1 & S2). unfold command at 1. change (k_tag k0 + 1)%Z with 0%Z. change (0 <? 2147483648)%Z with true. cbn iota. change (k_srv k0) with t.
  change (a_cmd [a_atom (bs "LOGIN"); a_string u; a_string p]) with (a_cmd (map tok_of [Atom (bs "LOGIN"); Str u; Str p])). change (Z.of_N 0) with 0%Z in S1. rewrite S1. cbn [k0 k_buf k_net].
  assert (CC : b ++ concat (n ++ out) = concat ts ++ te) by (rewrite concat_app, app_assoc, RE; exact S2).
  destruct (collect_reads 0 ltac:(reflexivity) lines ts _ te FL SE (1 + length b + length (concat (n ++ out))) b (n ++ out) [] CC) as (b' & n' & CO & _).
  { pose proof (lines_long _ _ _ FL) as L. pose proof (f_equal (@length N) CC) as L2. rewrite !app_length in L2. lia. }
  change (Z.of_N 0) with 0%Z in CO. rewrite CO. cbn [bind app]. set (k1 := {| k_tag := _; k_buf := b'; k_net := _; k_sel := _; k_srv := _ |}).
  assert (ST : status (Some (map (fun is => tok_of_line (Says is)) lines ++ [tok_of_line (Ends (able word caps' more'))])) = Ok word).
  { unfold status. rewrite rev_app_distr. cbn [rev app tok_of_line t_kids able map tok_of]. change (is_atom (Tok T_atom (Some word) [])) with true. cbn [t_leaf]. rewrite c_str_same by exact NW. reflexivity. }
  rewrite ST. cbn [bind]. rewrite last_last. unfold caps_from, tok_of_line. destruct (able_caps word caps' more' _ eq_refl) as [_ CB']. rewrite CB'. cbn [bind].
  destruct (bytes_eqb word (bs "OK")) eqn:EW.
  - apply bytes_eqb_iff in EW. subst word. exists k1. do 2 f_equal. unfold logged_in. destruct (has_cap (map a_atom caps') "LITERAL+") eqn:EH.
    + apply (cap_in _ _ NU') in EH. destruct v; [|discriminate V|destruct V as [[V _]|[_ V]]; contradiction]. destruct caps'; [contradiction|reflexivity].
    + assert (NI : ~ In (bs "LITERAL+") caps') by (intros X; apply (cap_in _ _ NU') in X; congruence). destruct v; [destruct V; contradiction|discriminate V|]. destruct caps'; reflexivity.
  - assert (N1 : word <> bs "OK") by (intros X; apply bytes_eqb_iff in X; congruence). destruct (bytes_eqb word (bs "NO")) eqn:EN.
    + apply bytes_eqb_iff in EN. exists k1. destruct v; [destruct V; contradiction|reflexivity|destruct V as [[_ V]|[V _]]; contradiction].
    + assert (N2 : word <> bs "NO") by (intros X; apply bytes_eqb_iff in X; congruence). exists k1. destruct v; [destruct V; contradiction|contradiction|reflexivity].
Qed.

(* ---- servers, given by what they answer to the first, second, ... request ---- *)
Definition scripted (answers : list (option (list bytes))) (_ : bool) (n : nat) (_ : bytes) : nat * option (list bytes) := (S n, nth n answers (Some [])).
Definition shows (name : bytes) (n : nat) (_ : list bytes) : nat * option (bool * option bytes) := (n, Some (true, Some name)).
Definition crlf (s : string) : bytes := bs s ++ [13; 10].
Definition joe : option bytes := Some (bs "joe").
Definition word : option bytes := Some (bs "pass").
Definition host : option bytes := Some (bs "mail.home.net").
Definition greet : list bytes := [crlf "* OK [CAPABILITY LITERAL+ STARTTLS AUTH=PLAIN] hi"].
Lemma presentable_if s : forallb (fun c => (c <? 128) && negb (c =? 92)) s = true -> N.of_nat (length s) < 2 ^ 31 -> presentable (Some s).
Proof.
  intros F L x [= <-]. rewrite forallb_forall in F. split; [split; [|exact L]|].
  - intros c IN. specialize (F c IN). lia.
  - intros IN. specialize (F _ IN). discriminate.
Qed.
Lemma joe_presentable : presentable joe /\ presentable word.
Proof. split; apply presentable_if; vm_compute; reflexivity. Qed.
Definition the_run (answers : list (option (list bytes))) (name : bytes) : res (login_result * conn (list event * nat)) :=
  imap_login true (list event * nat) (watched (scripted answers)) (watched_keys (shows name)) (new_conn ([], O) greet) joe word host.
Definition good_answers : list (option (list bytes)) :=
  [Some [crlf "t0 OK"]; Some [crlf "* CAPABILITY LITERAL+ AUTH=PLAIN" ++ crlf "t1 OK"]; Some [crlf "t2 OK [CAPABILITY LITERAL+] hi joe"]].
Definition log_of {T} (x : res (login_result * conn (list event * T))) : list event := match x with Ok (_, k) => fst (k_srv k) | Err _ => [] end.
Definition kind (e : event) : option (bool * list item) := match e with Sent tls b _ => match received b with Some (_, is) => Some (tls, is) | None => None end | Shook _ => None end.
Definition login_items : list item := [Atom (bs "LOGIN"); Str (bs "joe"); Str (bs "pass")].
Lemma kind_logs tls e : kind e = Some (tls, login_items) -> logs_in tls joe word e.
Proof.
  destruct e as [b t a|]; [|discriminate]. cbn [kind]. destruct (received t) as [[tag is]|] eqn:R; [|discriminate]. intros [= -> ->]. exists (bs "joe"), (bs "pass"). split; [reflexivity|]. split; [reflexivity|]. exists t, tag, a. auto.
Qed.
Lemma log_kind n l tls : option_map kind (nth_error l n) = Some (Some (tls, login_items)) -> exists e, In e l /\ logs_in tls joe word e.
Proof. destruct (nth_error l n) as [e|] eqn:E; [|discriminate]. cbn. intros [= H]. exists e. split; [exact (nth_error_In _ _ E)|exact (kind_logs _ _ H)]. Qed.
Lemma good_login : exists k, the_run good_answers (bs "*.home.net") = Ok (L_ok, k) /\ map kind (fst (k_srv k)) =
  [Some (false, [Atom (bs "STARTTLS")]); None; Some (true, [Atom (bs "CAPABILITY")]); Some (true, login_items)].
Proof. eexists. split; vm_compute; reflexivity. Qed.

Definition plain_word (s : bytes) : bool := negb (bytes_eqb s []) && forallb (fun c => forallb (fun d => negb (c =? d)) [0; 9; 10; 13; 32; 34; 40; 123; 91; 41; 93]) s.
Lemma plain_spelt p s : plain_word s = true -> spelt p (Atom s) s.
Proof.
  intros H. unfold plain_word in H. apply andb_true_iff in H as [H1 H2]. apply sp_atom; [intros ->; discriminate|]. rewrite forallb_forall in H2. apply Forall_forall. intros c IN. specialize (H2 c IN). cbn [forallb] in H2.
  repeat (apply andb_true_iff in H2 as [?H H2]). rewrite !negb_true_iff, !N.eqb_neq in *. split; [cbn; intuition congruence|]. destruct p; auto.
Qed.
Fixpoint spaced (ws : list bytes) : bytes := match ws with [] => [] | [w] => w | w :: ws' => w ++ [32] ++ spaced ws' end.
Lemma words_spelt : forall ws p, forallb plain_word ws = true -> spelt_all p (map Atom ws) (spaced ws).
Proof.
  induction ws as [|w ws IH]; intros p H; [constructor|]. cbn [forallb] in H. apply andb_true_iff in H as [H1 H2]. destruct ws as [|v ws]; [apply sa_one, plain_spelt, H1|].
  change (map Atom (w :: v :: ws)) with (Atom w :: map Atom (v :: ws)). apply sa_more; [now apply plain_spelt|discriminate|repeat constructor|discriminate|apply IH, H2].
Qed.
Lemma able_spelt w caps more : plain_word w = true -> forallb plain_word caps = true -> more <> [] -> forallb plain_word more = true ->
  spelt_all (On_line 0) (able w caps (map Atom more)) (w ++ [32] ++ (91 :: spaced (bs "CAPABILITY" :: caps) ++ [93]) ++ [32] ++ spaced more).
Proof.
  intros A B NE C. unfold able. apply sa_more; [now apply plain_spelt|discriminate|repeat constructor|discriminate|]. apply sa_more; [|discriminate|repeat constructor|destruct more; [contradiction|discriminate]|now apply words_spelt].
  apply sp_square. apply (words_spelt (bs "CAPABILITY" :: caps)). cbn [forallb]. rewrite B. reflexivity.
Qed.
Lemma greet_spelt : exists g, line_spelt 0 (Says (able (bs "OK") [bs "LITERAL+"; bs "STARTTLS"; bs "AUTH=PLAIN"] [Atom (bs "hi")])) g /\ concat greet = g ++ [].
Proof. eexists. split; [apply ls_says; apply (able_spelt (bs "OK") [bs "LITERAL+"; bs "STARTTLS"; bs "AUTH=PLAIN"] [bs "hi"]); try reflexivity; discriminate|reflexivity]. Qed.

(* ---- the refutations ---- *)
Definition no_answers : list (option (list bytes)) := [Some [crlf "t0 NO"]; Some [crlf "t1 OK [CAPABILITY LITERAL+] hi joe"]].
Lemma clear_run : exists k, the_run no_answers [] = Ok (L_ok, k) /\ map kind (fst (k_srv k)) = [Some (false, [Atom (bs "STARTTLS")]); Some (false, login_items)].
Proof. eexists. split; vm_compute; reflexivity. Qed.
(* all that mairix will read is sent before the keys are agreed on *)
Definition early_answers : list (option (list bytes)) :=
  [Some [crlf "t0 OK" ++ crlf "* CAPABILITY LITERAL+ AUTH=PLAIN" ++ crlf "t1 OK" ++ crlf "t2 OK [CAPABILITY LITERAL+] hi joe"]].
Lemma early_run : exists k, the_run early_answers (bs "mail.home.net") = Ok (L_ok, k) /\ came_by_tls (fst (k_srv k)) = [] /\
  map kind (fst (k_srv k)) = [Some (false, [Atom (bs "STARTTLS")]); None; Some (true, [Atom (bs "CAPABILITY")]); Some (true, login_items)].
Proof. eexists. split; [|split]; vm_compute; reflexivity. Qed.
Lemma silent_run : the_run [] [] = Err E_ub.
Proof. vm_compute. reflexivity. Qed.
Lemma star_run : exists k, the_run good_answers [42] = Ok (L_ok, k) /\ map kind (fst (k_srv k)) =
  [Some (false, [Atom (bs "STARTTLS")]); None; Some (true, [Atom (bs "CAPABILITY")]); Some (true, login_items)] /\ nth_error (fst (k_srv k)) 1 = Some (Shook (Some (true, Some [42]))).
Proof. eexists. split; [|split]; vm_compute; reflexivity. Qed.
Definition two_names : bytes := bs "mail.home.net" ++ [0] ++ bs ".evil.org".
Lemma nul_run : exists k, the_run good_answers two_names = Ok (L_ok, k) /\ map kind (fst (k_srv k)) =
  [Some (false, [Atom (bs "STARTTLS")]); None; Some (true, [Atom (bs "CAPABILITY")]); Some (true, login_items)] /\ nth_error (fst (k_srv k)) 1 = Some (Shook (Some (true, Some two_names))).
Proof. eexists. split; [|split]; vm_compute; reflexivity. Qed.
Lemma kinds_in n l ks tls : map kind l = ks -> nth_error ks n = Some (Some (tls, login_items)) -> exists e, In e l /\ logs_in tls joe word e.
Proof. intros <- H. apply (log_kind n). rewrite <- H. symmetry. apply nth_error_map. Qed.

Lemma clear_refuted : ~ (forall (T : Type) (serve : bool -> T -> bytes -> T * option (list bytes)) (handshake : T -> list bytes -> T * option (bool * option bytes))
    (t : T) (net : list bytes) user password server r k caps more g rest, presentable user -> presentable password ->
  line_spelt 0 (Says (able (bs "OK") caps more)) g -> concat net = g ++ rest -> In (bs "STARTTLS") caps ->
  imap_login true (list event * T) (watched serve) (watched_keys handshake) (new_conn ([], t) net) user password server = Ok (r, k) ->
  forall e, In e (fst (k_srv k)) -> ~ logs_in false user password e).
Proof.
  intros H. destruct clear_run as (k & R & K). destruct greet_spelt as (g & G1 & G2). destruct joe_presentable as [J1 J2]. destruct (kinds_in 1 _ _ false K eq_refl) as (e & IN & L).
  exact (H nat (scripted no_answers) (shows []) O greet joe word host L_ok k _ _ g [] J1 J2 G1 G2 ltac:(cbn; tauto) R e IN L).
Qed.
Lemma early_refuted : ~ (forall (T : Type) (serve : bool -> T -> bytes -> T * option (list bytes)) (handshake : T -> list bytes -> T * option (bool * option bytes))
    (t : T) (net : list bytes) user password server r k, presentable user -> presentable password ->
  imap_login true (list event * T) (watched serve) (watched_keys handshake) (new_conn ([], t) net) user password server = Ok (r, k) ->
  forall e, In e (fst (k_srv k)) -> logs_in true user password e -> within (bs "AUTH=PLAIN") (came_by_tls (fst (k_srv k)))).
Proof.
  intros H. destruct early_run as (k & R & C & K). destruct joe_presentable as [J1 J2]. destruct (kinds_in 3 _ _ true K eq_refl) as (e & IN & L).
  pose proof (H nat (scripted early_answers) (shows (bs "mail.home.net")) O greet joe word host L_ok k J1 J2 R e IN L) as W. rewrite C in W. inversion W.
Qed.
Lemma silent_refuted : ~ (forall (T : Type) (serve : bool -> T -> bytes -> T * option (list bytes)) (handshake : T -> list bytes -> T * option (bool * option bytes))
    (t : T) (net : list bytes) use_ssl user password server, presentable user -> presentable password -> no_huge (concat net) -> (forall tls s b s' out, serve tls s b = (s', Some out) -> no_huge (concat out)) ->
  imap_login use_ssl (list event * T) (watched serve) (watched_keys handshake) (new_conn ([], t) net) user password server <> Err E_ub).
Proof.
  intros H. destruct joe_presentable as [J1 J2]. apply (H nat (scripted []) (shows []) O greet true joe word host J1 J2); [| |exact silent_run].
  - intros a ds b c E C _. exfalso. assert (F : forallb (fun c => negb ((c =? 116) || (c =? 123))) (concat greet) = true) by (vm_compute; reflexivity). rewrite forallb_forall in F. specialize (F c ltac:(rewrite E; apply in_elt)). destruct C as [-> | ->]; discriminate F.
  - intros tls s b s' out E. unfold scripted in E. destruct s; injection E as _ <-; intros a ds b0 c E; destruct a; discriminate E.
Qed.
Lemma only_shook ks l n x y : map kind l = ks -> nth_error l n = Some (Shook x) -> (forall i, nth_error ks i = Some None -> i = n) -> In (Shook y) l -> y = x.
Proof.
  intros <- N1 U IN. apply In_nth_error in IN as [i J]. assert (i = n). { apply U. rewrite nth_error_map, J. reflexivity. } subst i. rewrite N1 in J. injection J as ->. reflexivity.
Qed.
Lemma name_refuted name : (exists k, the_run good_answers name = Ok (L_ok, k) /\ map kind (fst (k_srv k)) =
    [Some (false, [Atom (bs "STARTTLS")]); None; Some (true, [Atom (bs "CAPABILITY")]); Some (true, login_items)] /\ nth_error (fst (k_srv k)) 1 = Some (Shook (Some (true, Some name)))) ->
  ~ properly_bears name (bs "mail.home.net") ->
  exists (T : Type) (serve : bool -> T -> bytes -> T * option (list bytes)) (handshake : T -> list bytes -> T * option (bool * option bytes)) t net user password server r k e,
    presentable user /\ presentable password /\ imap_login true (list event * T) (watched serve) (watched_keys handshake) (new_conn ([], t) net) user password (Some server) = Ok (r, k) /\
    In e (fst (k_srv k)) /\ logs_in true user password e /\ forall full, In (Shook (Some (true, Some full))) (fst (k_srv k)) -> full = name /\ ~ properly_bears full server.
Proof.
  intros (k & R & K & N1) NP. destruct joe_presentable as [J1 J2]. destruct (kinds_in 3 _ _ true K eq_refl) as (e & IN & L).
  exists nat, (scripted good_answers), (shows name), O, greet, joe, word, (bs "mail.home.net"), L_ok, k, e. do 5 (split; [assumption|]). intros full SH.
  pose proof (only_shook _ _ 1 _ _ K N1 ltac:(intros [|[|[|[|i]]]] Q; try discriminate Q; [reflexivity|destruct i; discriminate Q]) SH) as X. injection X as ->. auto.
Qed.
Lemma alike_length a b : alike a b -> length a = length b.
Proof. intros H. apply (f_equal (@length N)) in H. now rewrite !map_length in H. Qed.
Lemma star_improper : ~ properly_bears [42] (bs "mail.home.net").
Proof. intros [H|(l & r & r' & E & _)]; [|discriminate E]. apply alike_length in H. discriminate H. Qed.
Lemma nul_improper : ~ properly_bears two_names (bs "mail.home.net").
Proof. intros [H|(l & r & r' & E & _)]; [|discriminate E]. apply alike_length in H. discriminate H. Qed.
Lemma name_main : forall full server, name_suits (Some server) full = true <-> exists name, short_name full name /\ bears name server.
Proof.
  intros full server. split; [intros H; exact (suits_trusted _ _ H server eq_refl)|]. intros H. apply trusted_suits. intros s [= <-]. exact H.
Qed.
Lemma plain_example : exists g te, line_spelt 0 (Says (able (bs "OK") [bs "LITERAL+"; bs "AUTH=PLAIN"] [Atom (bs "hi")])) g /\
  line_spelt 0 (Ends (able (bs "NO") [bs "LITERAL+"] [Atom (bs "sorry")])) te /\ te = bs "t0 NO [CAPABILITY LITERAL+] sorry" ++ [13; 10] /\
  exists k, imap_login false nat (scripted [Some [te]]) (shows []) (new_conn O [g]) (Some (bs "joe")) (Some (bs "pass")) None = Ok (L_denied, k).
Proof.
  eexists. eexists. split; [apply ls_says; apply (able_spelt (bs "OK") [bs "LITERAL+"; bs "AUTH=PLAIN"] [bs "hi"]); try reflexivity; discriminate|].
  split; [eapply (ls_ends 0 _ _ [48]); [apply (able_spelt (bs "NO") [bs "LITERAL+"] [bs "sorry"]); try reflexivity; discriminate|discriminate|constructor; [split; discriminate|constructor]|reflexivity]|].
  split; [reflexivity|]. eexists. vm_compute. reflexivity.
Qed.
