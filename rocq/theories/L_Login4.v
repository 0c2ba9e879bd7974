(* A whole login by way of TLS. *)
From Verif Require Import Base M_Imap S_Imap S_Server M_Login S_Login L_Mbox L_Imap L_Imap2 L_Imap3 L_Imap4 L_Imap5 L_Login L_Login2 L_Login3.
Local Open Scope N_scope.
Local Opaque bs.

Definition rests {S} (k : conn S) : Prop := k_buf k ++ concat (k_net k) = [].
Lemma command_reads S serve k tag is lines ts ends te t' out : k_tag k = (Z.of_N tag - 1)%Z -> tag < 2 ^ 31 -> rests k -> is <> [] -> Forall sendable is -> Forall no_backslash is ->
  Forall2 (fun is x => line_spelt tag (Says is) x) lines ts -> line_spelt tag (Ends ends) te ->
  (forall b, received b = Some (tag, is) -> serve (k_srv k) b = (t', Some out)) -> concat out = concat ts ++ te ->
  exists k', command S serve k (a_cmd (map tok_of is)) = Ok (Some (map (fun is => tok_of_line (Says is)) lines ++ [tok_of_line (Ends ends)]), k') /\ k_tag k' = Z.of_N tag /\ rests k' /\ k_srv k' = t'.
Proof.
  intros KT LT RE NE SE NB FL SP SV CO. unfold command. replace (k_tag k + 1)%Z with (Z.of_N tag) by lia. replace (_ <? _)%Z with true by (change (2 ^ 31) with 2147483648 in LT; lia).
  rewrite (SV _ (sent_main tag is LT NE SE NB)). assert (CC : k_buf k ++ concat (k_net k ++ out) = concat ts ++ te) by (rewrite concat_app, app_assoc, RE; exact CO).
  destruct (collect_reads tag LT lines ts ends te FL SP (1 + length (k_buf k) + length (concat (k_net k ++ out))) (k_buf k) (k_net k ++ out) [] CC) as (b' & n' & C & R).
  { pose proof (lines_long _ _ _ FL) as L. pose proof (f_equal (@length N) CC) as L2. rewrite !app_length in L2. lia. }
  rewrite C. cbn [bind app]. eexists. split; [reflexivity|]. repeat split. exact R.
Qed.
Lemma status_word lines w more : ~ In 0 w -> status (Some (map (fun is => tok_of_line (Says is)) lines ++ [tok_of_line (Ends (Atom w :: more))])) = Ok w.
Proof. intros NW. unfold status. rewrite rev_app_distr. cbn [rev app tok_of_line t_kids map tok_of]. change (is_atom (Tok T_atom (Some w) [])) with true. cbn [t_leaf]. rewrite c_str_same by exact NW. reflexivity. Qed.
Lemma one_word w : bs w <> [] -> forallb send_char (bs w) = true -> Forall sendable [Atom (bs w)] /\ Forall no_backslash [Atom (bs w)].
Proof. intros A B. destruct (word_sendable _ A B) as [X Y]. split; (apply Forall_cons; [assumption|apply Forall_nil]). Qed.

Lemma log_in_ends T serve tls k tag caps u p word caps' more' lines ts te t' out v : k_tag k = (Z.of_N tag - 1)%Z -> tag < 2 ^ 31 -> rests k -> presentable (Some u) -> presentable (Some p) ->
  (forall c, In c caps -> ~ In 0 c) -> In (bs "LITERAL+") caps -> In (bs "AUTH=PLAIN") caps ->
  Forall2 (fun is x => line_spelt tag (Says is) x) lines ts -> line_spelt tag (Ends (able word caps' more')) te ->
  (forall b, received b = Some (tag, [Atom (bs "LOGIN"); Str u; Str p]) -> serve tls (k_srv k) b = (t', Some out)) -> concat out = concat ts ++ te ->
  verdict_of word caps' v ->
  exists k', log_in T serve tls k (map a_atom caps) (Some u) (Some p) = Ok (result_of v, k') /\ k_srv k' = t'.
Proof.
  intros KT LT RE PU PP NU C1 C2 FL SE SV CO V. destruct (able_no_nul _ _ _ tag te (or_intror SE)) as [NW NU']. unfold log_in. rewrite (proj2 (cap_in "LITERAL+" caps NU) C1), (proj2 (cap_in "AUTH=PLAIN" caps NU) C2). cbn [negb].
  destruct (PU u eq_refl) as [U1 U2]. destruct (PP p eq_refl) as [P1 P2]. destruct (word_sendable (bs "LOGIN") ltac:(discriminate) ltac:(now vm_compute)) as [W1 W2].
  destruct (command_reads T (serve tls) k tag [Atom (bs "LOGIN"); Str u; Str p] lines ts _ te t' out KT LT RE ltac:(discriminate) (Forall_cons _ W1 (Forall_cons _ U1 (Forall_cons _ P1 (Forall_nil _)))) (Forall_cons _ W2 (Forall_cons _ U2 (Forall_cons _ P2 (Forall_nil _)))) FL SE SV CO) as (k1 & EC & _ & _ & KS).
  change (a_cmd [a_atom (bs "LOGIN"); a_string u; a_string p]) with (a_cmd (map tok_of [Atom (bs "LOGIN"); Str u; Str p])). rewrite EC. cbn [bind]. unfold able at 1. rewrite status_word by exact NW. cbn [bind].
  rewrite last_last. unfold caps_from, tok_of_line. destruct (able_caps word caps' more' _ eq_refl) as [_ CB']. rewrite CB'. cbn [bind].
  destruct (bytes_eqb word (bs "OK")) eqn:EW.
  - apply bytes_eqb_iff in EW. subst word. exists k1. split; [|exact KS]. do 2 f_equal. unfold logged_in. destruct (has_cap (map a_atom caps') "LITERAL+") eqn:EH.
    + apply (cap_in _ _ NU') in EH. destruct v; [|discriminate V|destruct V as [[V _]|[_ V]]; contradiction]. destruct caps'; [contradiction|reflexivity].
    + assert (NI : ~ In (bs "LITERAL+") caps') by (intros X; apply (cap_in _ _ NU') in X; congruence). destruct v; [destruct V; contradiction|discriminate V|]. destruct caps'; reflexivity.
  - assert (N1 : word <> bs "OK") by (intros X; apply bytes_eqb_iff in X; congruence). destruct (bytes_eqb word (bs "NO")) eqn:EN.
    + apply bytes_eqb_iff in EN. exists k1. split; [|exact KS]. destruct v; [destruct V; contradiction|reflexivity|destruct V as [[_ V]|[V _]]; contradiction].
    + assert (N2 : word <> bs "NO") by (intros X; apply bytes_eqb_iff in X; congruence). exists k1. split; [|exact KS]. destruct v; [destruct V; contradiction|contradiction|reflexivity].
Qed.
Lemma untagged_caps caps more l : l = map tok_of (Atom (bs "CAPABILITY") :: map Atom caps) -> caps_untagged (Tok T_untagged None l :: more) = Ok (map a_atom caps).
Proof. intros ->. cbn [caps_untagged t_type same_type t_kids map tok_of]. change (is_atom (Tok T_atom (Some (bs "CAPABILITY")) []) && leaf_is (Tok T_atom (Some (bs "CAPABILITY")) []) "CAPABILITY") with true. cbn iota. now rewrite map_map. Qed.

Lemma starttls_reads T serve handshake k server t1 out1 te1 more1 t2 h : k_tag k = (-1)%Z -> rests k ->
  line_spelt 0 (Ends (Atom (bs "OK") :: more1)) te1 -> (forall b, received b = Some (0, [Atom (bs "STARTTLS")]) -> serve false (k_srv k) b = (t1, Some out1)) -> concat out1 = te1 ->
  (forall n, concat n = [] -> handshake t1 n = (t2, h)) ->
  exists o k', starttls T serve handshake k server = Ok (o, k') /\ k_tag k' = 0%Z /\ rests k' /\ k_srv k' = t2 /\ (trusted server h -> o = TLS_SUCCESS) /\ (~ trusted server h -> o = TLS_FAILED \/ o = TLS_FAILED_CERT).
Proof.
  intros KT RE SP SV CO HK. destruct (one_word "STARTTLS" ltac:(discriminate) ltac:(now vm_compute)) as [W1 W2].
  destruct (command_reads T (serve false) k 0 [Atom (bs "STARTTLS")] [] [] _ te1 t1 out1 KT ltac:(reflexivity) RE ltac:(discriminate) W1 W2 (Forall2_nil _) SP SV CO) as (k1 & EC & KT1 & RE1 & KS1).
  unfold starttls. change (a_cmd [a_atom (bs "STARTTLS")]) with (a_cmd (map tok_of [Atom (bs "STARTTLS")])). rewrite EC. cbn [bind]. rewrite status_word by (vm_compute; intuition discriminate). cbn [bind].
  replace (bytes_eqb (bs "OK") (bs "OK")) with true by reflexivity. cbn [negb]. unfold rests in RE1. apply app_eq_nil in RE1 as [RB RN]. rewrite KS1, (HK _ RN). eexists. eexists. split; [reflexivity|]. cbn [k_tag k_srv].
  split; [exact KT1|]. split; [unfold rests; cbn [k_buf k_net concat]; rewrite RB; reflexivity|]. split; [reflexivity|]. split.
  - intros (full & -> & B). rewrite (trusted_suits _ _ B). reflexivity.
  - intros NT. destruct h as [[[|] [name|]]|]; auto. destruct (name_suits server name) eqn:EN; [|auto]. exfalso. apply NT. exists name. split; [reflexivity|exact (suits_trusted _ _ EN)].
Qed.
Lemma asked_reads T serve k tag caps tc ends te t' out : k_tag k = (Z.of_N tag - 1)%Z -> tag < 2 ^ 31 -> rests k ->
  line_spelt tag (Says (Atom (bs "CAPABILITY") :: map Atom caps)) tc -> line_spelt tag (Ends ends) te ->
  (forall b, received b = Some (tag, [Atom (bs "CAPABILITY")]) -> serve true (k_srv k) b = (t', Some out)) -> concat out = tc ++ te ->
  exists k', asked T serve true k = Ok (map a_atom caps, k') /\ k_tag k' = Z.of_N tag /\ rests k' /\ k_srv k' = t'.
Proof.
  intros KT LT RE SP SE SV CO. destruct (one_word "CAPABILITY" ltac:(discriminate) ltac:(now vm_compute)) as [W1 W2].
  destruct (command_reads T (serve true) k tag [Atom (bs "CAPABILITY")] [Atom (bs "CAPABILITY") :: map Atom caps] [tc] ends te t' out KT LT RE ltac:(discriminate) W1 W2 (Forall2_cons _ _ SP (Forall2_nil _)) SE SV ltac:(cbn [concat]; rewrite app_nil_r; exact CO)) as (k1 & EC & KT1 & RE1 & KS1).
  unfold asked, ask_for_capabilities. change (a_cmd [a_atom (bs "CAPABILITY")]) with (a_cmd (map tok_of [Atom (bs "CAPABILITY")])). rewrite EC. cbn [bind app map]. unfold tok_of_line at 1. rewrite (untagged_caps caps _ _ eq_refl). cbn [bind]. exists k1. auto.
Qed.
Lemma says_no_nul tag caps tc : line_spelt tag (Says (Atom (bs "CAPABILITY") :: map Atom caps)) tc -> forall c, In c caps -> ~ In 0 c.
Proof.
  intros H. apply line_no_nul in H. inversion H as [|? ? _ F]; subst. intros c IN. rewrite Forall_forall in F. exact (F (Atom c) (in_map Atom _ _ IN)).
Qed.
Lemma tls_main : forall (T : Type) (serve : bool -> T -> bytes -> T * option (list bytes)) (handshake : T -> list bytes -> T * option (bool * option bytes))
    (t t1 t2 t3 : T) (net out1 out2 : list bytes) u p server caps more g more1 te1 h caps2 tc ends2 te2, presentable (Some u) -> presentable (Some p) ->
  line_spelt 0 (Says (able (bs "OK") caps more)) g -> concat net = g -> In (bs "STARTTLS") caps ->
  (forall b, received b = Some (0, [Atom (bs "STARTTLS")]) -> serve false t b = (t1, Some out1)) -> concat out1 = te1 -> line_spelt 0 (Ends (Atom (bs "OK") :: more1)) te1 ->
  (forall n, concat n = [] -> handshake t1 n = (t2, h)) ->
  (forall b, received b = Some (1, [Atom (bs "CAPABILITY")]) -> serve true t2 b = (t3, Some out2)) -> concat out2 = tc ++ te2 ->
  line_spelt 1 (Says (Atom (bs "CAPABILITY") :: map Atom caps2)) tc -> line_spelt 1 (Ends ends2) te2 ->
  let run := imap_login true T serve handshake (new_conn t net) (Some u) (Some p) server in
  (~ trusted server h -> exists k, run = Ok (L_error, k) /\ k_srv k = t2) /\
  (trusted server h -> ~ In (bs "LITERAL+") caps2 \/ ~ In (bs "AUTH=PLAIN") caps2 -> exists k, run = Ok (L_error, k) /\ k_srv k = t3) /\
  (trusted server h -> In (bs "LITERAL+") caps2 -> In (bs "AUTH=PLAIN") caps2 ->
   forall t4 out3 word caps' more' lines ts te v, Forall2 (fun is x => line_spelt 2 (Says is) x) lines ts -> line_spelt 2 (Ends (able word caps' more')) te ->
   (forall b, received b = Some (2, [Atom (bs "LOGIN"); Str u; Str p]) -> serve true t3 b = (t4, Some out3)) -> concat out3 = concat ts ++ te -> verdict_of word caps' v ->
   exists k, run = Ok (result_of v, k) /\ k_srv k = t4).
Proof.
  intros T serve handshake t t1 t2 t3 net out1 out2 u p server caps more g more1 te1 h caps2 tc ends2 te2 PU PP SP EQ IN A1 O1 S1 HK A2 O2 S2 E2 run.
  destruct (greeting_reads 0 (-1)%Z _ g [] net SP ltac:(reflexivity) ltac:(rewrite app_nil_r; exact EQ)) as (b & n & W & RE).
  destruct (able_no_nul _ _ _ 0 g (or_introl SP)) as [_ NU]. pose proof (says_no_nul _ _ _ S2) as NU2.
  set (k0 := {| k_tag := (-1)%Z; k_buf := b; k_net := n; k_sel := None; k_srv := t |}).
  destruct (starttls_reads T serve handshake k0 server t1 out1 te1 more1 t2 h eq_refl RE S1 A1 O1 HK) as (o & k1 & ES & KT1 & RE1 & KS1 & TR & NT).
  destruct (asked_reads T serve k1 1 caps2 tc ends2 te2 t3 out2 KT1 ltac:(reflexivity) RE1 S2 E2 ltac:(rewrite KS1; exact A2) O2) as (k2 & EA & KT2 & RE2 & KS2).
  assert (RUN : run = match o with TLS_FAILED_PROCEED => log_in T serve false k1 (map a_atom caps) (Some u) (Some p) | TLS_FAILED | TLS_FAILED_CERT => Ok (L_error, k1)
    | TLS_SUCCESS => match map a_atom caps2 with [] => Ok (L_error, k2) | _ => log_in T serve true k2 (map a_atom caps2) (Some u) (Some p) end end).
  { unfold run, imap_login. cbn [new_conn k_tag k_buf k_net k_sel k_srv]. rewrite W. cbn [bind]. fold k0.
    unfold tok_of_line. destruct (able_caps (bs "OK") caps more _ eq_refl) as [CB _]. cbn [t_kids].
    change (map tok_of (able (bs "OK") caps more)) with (a_atom (bs "OK") :: tl (map tok_of (able (bs "OK") caps more))) at 1. cbn iota. change (negb (is_atom (a_atom (bs "OK")))) with false. change (leaf_is (a_atom (bs "OK")) "BYE") with false. change (leaf_is (a_atom (bs "OK")) "PREAUTH") with false. change (leaf_is (a_atom (bs "OK")) "OK") with true. cbn [negb]. cbn iota.
    unfold caps_from at 1. rewrite CB. cbn [bind]. destruct caps as [|c0 cs]; [contradiction|]. set (caps := c0 :: cs) in *. change (map a_atom caps) with (a_atom c0 :: map a_atom cs) at 1. cbn iota.
    rewrite (proj2 (cap_in "STARTTLS" caps NU) IN). cbn [andb]. cbn iota. rewrite ES. cbn [bind]. destruct o; try reflexivity. rewrite EA. cbn [bind]. reflexivity. }
  rewrite RUN. split; [|split].
  - intros X. destruct (NT X) as [-> | ->]; exists k1; auto.
  - intros X M. rewrite (TR X). exists k2. split; [|exact KS2]. destruct caps2 as [|c0 cs]; [reflexivity|]. set (caps2 := c0 :: cs) in *. change (map a_atom caps2) with (a_atom c0 :: map a_atom cs) at 1. cbn iota. unfold log_in.
    destruct (has_cap (map a_atom caps2) "LITERAL+") eqn:H1; [|reflexivity]. cbn [negb]. destruct (has_cap (map a_atom caps2) "AUTH=PLAIN") eqn:H2; [|reflexivity]. exfalso. apply (cap_in _ _ NU2) in H1. apply (cap_in _ _ NU2) in H2. destruct M; contradiction.
  - intros X M1 M2 t4 out3 word caps' more' lines ts te v FL SE SV CO V. rewrite (TR X).
    destruct (log_in_ends T serve true k2 2 caps2 u p word caps' more' lines ts te t4 out3 v KT2 ltac:(reflexivity) RE2 PU PP NU2 M1 M2 FL SE ltac:(rewrite KS2; exact SV) CO V) as (k3 & E3 & KS3).
    exists k3. split; [|exact KS3]. destruct caps2 as [|c0 cs]; [contradiction|]. exact E3.
Qed.
(* the theorem applied to a server *)
Lemma tls_example : exists k, imap_login true nat (scripted good_answers) (shows (bs "*.home.net")) (new_conn O greet) (Some (bs "joe")) (Some (bs "pass")) (Some (bs "mail.home.net")) = Ok (L_ok, k) /\ k_srv k = 3%nat.
Proof.
  destruct joe_presentable as [J1 J2]. destruct greet_spelt as (g & G1 & G2). rewrite app_nil_r in G2.
  assert (E1 : line_spelt 0 (Ends [Atom (bs "OK")]) (crlf "t0 OK")). { apply (ls_ends 0 [Atom (bs "OK")] (bs "OK") [48]); [apply (words_spelt [bs "OK"]); reflexivity|discriminate|repeat constructor; discriminate|reflexivity]. }
  assert (E2 : line_spelt 1 (Ends [Atom (bs "OK")]) (crlf "t1 OK")). { apply (ls_ends 1 [Atom (bs "OK")] (bs "OK") [49]); [apply (words_spelt [bs "OK"]); reflexivity|discriminate|repeat constructor; discriminate|reflexivity]. }
  assert (S2 : line_spelt 1 (Says (Atom (bs "CAPABILITY") :: map Atom [bs "LITERAL+"; bs "AUTH=PLAIN"])) (crlf "* CAPABILITY LITERAL+ AUTH=PLAIN")). { apply (ls_says 1 _ (bs "CAPABILITY LITERAL+ AUTH=PLAIN")). apply (words_spelt [bs "CAPABILITY"; bs "LITERAL+"; bs "AUTH=PLAIN"]). reflexivity. }
  assert (E3 : line_spelt 2 (Ends (able (bs "OK") [bs "LITERAL+"] [Atom (bs "hi"); Atom (bs "joe")])) (crlf "t2 OK [CAPABILITY LITERAL+] hi joe")).
  { apply (ls_ends 2 _ (bs "OK [CAPABILITY LITERAL+] hi joe") [50]); [apply (able_spelt (bs "OK") [bs "LITERAL+"] [bs "hi"; bs "joe"]); try reflexivity; discriminate|discriminate|repeat constructor; discriminate|reflexivity]. }
  assert (TR : trusted host (Some (true, Some (bs "*.home.net")))). { exists (bs "*.home.net"). split; [reflexivity|]. apply suits_trusted. reflexivity. }
  destruct (tls_main nat (scripted good_answers) (shows (bs "*.home.net")) 0%nat 1%nat 1%nat 2%nat greet [crlf "t0 OK"] [crlf "* CAPABILITY LITERAL+ AUTH=PLAIN" ++ crlf "t1 OK"] (bs "joe") (bs "pass") host _ _ g [] _ _ [bs "LITERAL+"; bs "AUTH=PLAIN"] _ _ _
    J1 J2 G1 G2 ltac:(cbn; tauto) ltac:(reflexivity) (app_nil_r _) E1 ltac:(reflexivity) ltac:(reflexivity) (app_nil_r _) S2 E2) as (_ & _ & M).
  apply (M TR ltac:(cbn; tauto) ltac:(cbn; tauto) 3%nat [crlf "t2 OK [CAPABILITY LITERAL+] hi joe"] (bs "OK") [bs "LITERAL+"] _ [] [] _ Let_in (Forall2_nil _) E3 ltac:(reflexivity) (app_nil_r _)). split; [reflexivity|left; reflexivity].
Qed.
