(* Introducing oneself to an IMAP server: C117-C120. *)
From Verif Require Import Base M_Imap S_Imap S_Server M_Login S_Login L_Login3 L_Login4.
Local Open Scope N_scope.

(* C117: whatever the server says and however it says it, what is sent is a conversation as described in S_Login; name
   and password are sent only if the server has said that it knows LITERAL+ and AUTH=PLAIN; and without
   LITERAL+ mairix does not go on.  (Of runs that end in a crash it says nothing: see C120.) *)
Theorem C117_login : forall (T : Type) (serve : bool -> T -> bytes -> T * option (list bytes)) (handshake : T -> list bytes -> T * option (bool * option bytes))
    (t : T) (net : list bytes) use_ssl user password server r k, presentable user -> presentable password ->
  imap_login use_ssl (list event * T) (watched serve) (watched_keys handshake) (new_conn ([], t) net) user password server = Ok (r, k) ->
  let log := fst (k_srv k) in
  conversation use_ssl server user password log /\
  (forall tls e, In e log -> logs_in tls user password e -> within (bs "LITERAL+") (concat net ++ came log) /\ within (bs "AUTH=PLAIN") (concat net ++ came log)) /\
  (r = L_ok -> within (bs "LITERAL+") (concat net ++ came log)).
Proof. exact login_main. Qed.
Print Assumptions C117_login.
Example C117_example : presentable joe /\ presentable word /\ exists k, the_run good_answers (bs "*.home.net") = Ok (L_ok, k) /\ map kind (fst (k_srv k)) =
  [Some (false, [Atom (bs "STARTTLS")]); None; Some (true, [Atom (bs "CAPABILITY")]); Some (true, [Atom (bs "LOGIN"); Str (bs "joe"); Str (bs "pass")])].
Proof. split; [exact (proj1 joe_presentable)|]. split; [exact (proj2 joe_presentable)|exact good_login]. Qed.

(* C117: which names in a certificate suit. *)
Theorem C117_name : forall full server, name_suits (Some server) full = true <-> exists name, short_name full name /\ bears name server.
Proof. exact name_main. Qed.
Print Assumptions C117_name.
Example C117_name_example : name_suits (Some (bs "Mail.home.net")) (bs "*.HOME.net") = true /\ name_suits (Some (bs "mail.home.net")) (bs "*.work.net") = false /\ name_suits (Some (bs "home.net")) (bs "*.home.net") = false.
Proof. vm_compute. auto. Qed.
(* It is not the rule for certificates: a star alone suits every server, and what is after a NUL is not looked at. *)
Theorem C117_star_refuted :
  exists (T : Type) (serve : bool -> T -> bytes -> T * option (list bytes)) (handshake : T -> list bytes -> T * option (bool * option bytes)) t net user password server r k e,
    presentable user /\ presentable password /\ imap_login true (list event * T) (watched serve) (watched_keys handshake) (new_conn ([], t) net) user password (Some server) = Ok (r, k) /\
    In e (fst (k_srv k)) /\ logs_in true user password e /\ forall full, In (Shook (Some (true, Some full))) (fst (k_srv k)) -> full = [42] /\ ~ properly_bears full server.
Proof. exact (name_refuted [42] star_run star_improper). Qed.
Print Assumptions C117_star_refuted.
Theorem C117_nul_refuted :
  exists (T : Type) (serve : bool -> T -> bytes -> T * option (list bytes)) (handshake : T -> list bytes -> T * option (bool * option bytes)) t net user password server r k e,
    presentable user /\ presentable password /\ imap_login true (list event * T) (watched serve) (watched_keys handshake) (new_conn ([], t) net) user password (Some server) = Ok (r, k) /\
    In e (fst (k_srv k)) /\ logs_in true user password e /\ forall full, In (Shook (Some (true, Some full))) (fst (k_srv k)) -> full = bs "mail.home.net" ++ [0] ++ bs ".evil.org" /\ ~ properly_bears full server.
Proof. exact (name_refuted two_names nul_run nul_improper). Qed.
Print Assumptions C117_nul_refuted.

(* C118: if the greeting offers TLS, the first thing that is sent asks for it. *)
Theorem C118_offered_partial : forall (T : Type) (serve : bool -> T -> bytes -> T * option (list bytes)) (handshake : T -> list bytes -> T * option (bool * option bytes))
    (t : T) (net : list bytes) user password server r k caps more g rest, presentable user -> presentable password ->
  line_spelt 0 (Says (able (bs "OK") caps more)) g -> concat net = g ++ rest -> In (bs "STARTTLS") caps ->
  imap_login true (list event * T) (watched serve) (watched_keys handshake) (new_conn ([], t) net) user password server = Ok (r, k) ->
  exists e l, fst (k_srv k) = e :: l /\ starts_tls e.
Proof. exact offered_main. Qed.
Print Assumptions C118_offered_partial.
Example C118_offered_example : exists g, line_spelt 0 (Says (able (bs "OK") [bs "LITERAL+"; bs "STARTTLS"; bs "AUTH=PLAIN"] [Atom (bs "hi")])) g /\ concat greet = g ++ [].
Proof. exact greet_spelt. Qed.
(* The whole of it is false: where TLS is offered, name and password are sent in the clear if the server then refuses it. *)
Theorem C118_clear_refuted : ~ (forall (T : Type) (serve : bool -> T -> bytes -> T * option (list bytes)) (handshake : T -> list bytes -> T * option (bool * option bytes))
    (t : T) (net : list bytes) user password server r k caps more g rest, presentable user -> presentable password ->
  line_spelt 0 (Says (able (bs "OK") caps more)) g -> concat net = g ++ rest -> In (bs "STARTTLS") caps ->
  imap_login true (list event * T) (watched serve) (watched_keys handshake) (new_conn ([], t) net) user password server = Ok (r, k) ->
  forall e, In e (fst (k_srv k)) -> ~ logs_in false user password e).
Proof. exact clear_refuted. Qed.
Print Assumptions C118_clear_refuted.
(* Nor is what was said before TLS forgotten: the server need not have said by way of TLS what LOGIN depends on. *)
Theorem C118_early_refuted : ~ (forall (T : Type) (serve : bool -> T -> bytes -> T * option (list bytes)) (handshake : T -> list bytes -> T * option (bool * option bytes))
    (t : T) (net : list bytes) user password server r k, presentable user -> presentable password ->
  imap_login true (list event * T) (watched serve) (watched_keys handshake) (new_conn ([], t) net) user password server = Ok (r, k) ->
  forall e, In e (fst (k_srv k)) -> logs_in true user password e -> within (bs "AUTH=PLAIN") (came_by_tls (fst (k_srv k)))).
Proof. exact early_refuted. Qed.
Print Assumptions C118_early_refuted.
(* The server that shows it: mairix takes itself to be logged in though nothing came by way of TLS. *)
Example C118_early_example : exists k, the_run early_answers (bs "mail.home.net") = Ok (L_ok, k) /\ came_by_tls (fst (k_srv k)) = [].
Proof. destruct early_run as (k & A & B & _). exists k. auto. Qed.

(* C119: with a server that greets and answers as it should, mairix is let in, refused or gives up as the answer says. *)
Theorem C119_plain : forall (T : Type) (serve : bool -> T -> bytes -> T * option (list bytes)) (handshake : T -> list bytes -> T * option (bool * option bytes))
    (t : T) (net : list bytes) use_ssl u p server caps more g word caps' more' lines ts te v,
  presentable (Some u) -> presentable (Some p) ->
  line_spelt 0 (Says (able (bs "OK") caps more)) g -> concat net = g ->
  In (bs "LITERAL+") caps -> In (bs "AUTH=PLAIN") caps -> (use_ssl = true -> ~ In (bs "STARTTLS") caps) ->
  Forall2 (fun is x => line_spelt 0 (Says is) x) lines ts -> line_spelt 0 (Ends (able word caps' more')) te ->
  (forall b, received b = Some (0, [Atom (bs "LOGIN"); Str u; Str p]) -> exists t' out, serve false t b = (t', Some out) /\ concat out = concat ts ++ te) ->
  verdict_of word caps' v ->
  exists k, imap_login use_ssl T serve handshake (new_conn t net) (Some u) (Some p) server = Ok (match v with Let_in => L_ok | Refused => L_denied | Wrong => L_error end, k).
Proof. exact plain_main. Qed.
Print Assumptions C119_plain.
Example C119_example : exists g te, line_spelt 0 (Says (able (bs "OK") [bs "LITERAL+"; bs "AUTH=PLAIN"] [Atom (bs "hi")])) g /\
  line_spelt 0 (Ends (able (bs "NO") [bs "LITERAL+"] [Atom (bs "sorry")])) te /\ te = bs "t0 NO [CAPABILITY LITERAL+] sorry" ++ [13; 10] /\
  exists k, imap_login false nat (scripted [Some [te]]) (shows []) (new_conn O [g]) (Some (bs "joe")) (Some (bs "pass")) None = Ok (L_denied, k).
Proof. exact plain_example. Qed.

(* C119, with TLS: to a server without a certificate to be trusted nothing is sent after the handshake; what it says it can do after
   the handshake decides whether LOGIN is sent, whatever it said before; and its answer decides what comes of it. *)
Theorem C119_tls : forall (T : Type) (serve : bool -> T -> bytes -> T * option (list bytes)) (handshake : T -> list bytes -> T * option (bool * option bytes))
    (t t1 t2 t3 : T) (net out1 out2 : list bytes) u p server caps more g more1 te1 h caps2 tc ends2 te2, presentable (Some u) -> presentable (Some p) ->
  line_spelt 0 (Says (able (bs "OK") caps more)) g -> concat net = g -> In (bs "STARTTLS") caps ->
  (forall b, received b = Some (0, [Atom (bs "STARTTLS")]) -> serve false t b = (t1, Some out1)) -> concat out1 = te1 -> line_spelt 0 (Ends (Atom (bs "OK") :: more1)) te1 ->
  (forall n, concat n = [] -> handshake t1 n = (t2, h)) ->
  (forall b, received b = Some (1, [Atom (bs "CAPABILITY")]) -> serve true t2 b = (t3, Some out2)) -> concat out2 = tc ++ te2 ->
  line_spelt 1 (Says (Atom (bs "CAPABILITY") :: map Atom caps2)) tc -> line_spelt 1 (Ends ends2) te2 ->
  let run := imap_login true T serve handshake (new_conn t net) (Some u) (Some p) server in
  (~ trusted server h -> exists k, run = Ok (L_error, k) /\ k_srv k = t2) /\
  (trusted server h -> ~ In (bs "LITERAL+") caps2 \/ ~ In (bs "AUTH=PLAIN") caps2 -> exists k, run = Ok (L_error, k) /\ k_srv k = t3) /\
  (trusted server h -> In (bs "LITERAL+") caps2 -> In (bs "AUTH=PLAIN") caps2 ->
   forall t4 out3 word caps' more' lines ts te v, Forall2 (fun is x => line_spelt 2 (Says is) x) lines ts -> line_spelt 2 (Ends (able word caps' more')) te ->
   (forall b, received b = Some (2, [Atom (bs "LOGIN"); Str u; Str p]) -> serve true t3 b = (t4, Some out3)) -> concat out3 = concat ts ++ te -> verdict_of word caps' v ->
   exists k, run = Ok (match v with Let_in => L_ok | Refused => L_denied | Wrong => L_error end, k) /\ k_srv k = t4).
Proof. exact tls_main. Qed.
Print Assumptions C119_tls.
(* A server that meets all of that, and what the theorem then says. *)
Example C119_tls_example : exists k, imap_login true nat (scripted good_answers) (shows (bs "*.home.net")) (new_conn O greet) (Some (bs "joe")) (Some (bs "pass")) (Some (bs "mail.home.net")) = Ok (L_ok, k) /\ k_srv k = 3%nat.
Proof. exact tls_example. Qed.

(* C120: it is false that no server can make mairix follow a null pointer; one that greets and then says nothing does. *)
Theorem C120_silent_refuted : ~ (forall (T : Type) (serve : bool -> T -> bytes -> T * option (list bytes)) (handshake : T -> list bytes -> T * option (bool * option bytes))
    (t : T) (net : list bytes) use_ssl user password server, presentable user -> presentable password -> no_huge (concat net) -> (forall tls s b s' out, serve tls s b = (s', Some out) -> no_huge (concat out)) ->
  imap_login use_ssl (list event * T) (watched serve) (watched_keys handshake) (new_conn ([], t) net) user password server <> Err E_ub).
Proof. exact silent_refuted. Qed.
Print Assumptions C120_silent_refuted.
Example C120_example : the_run [] [] = Err E_ub.
Proof. exact silent_run. Qed.
