(* How mairix introduces itself to an IMAP server, as one who watches the line sees it. *)
From Verif Require Import Base S_Imap.
Local Open Scope N_scope.

(* Something is sent, in the clear or by way of TLS, and something comes back (None: sending fails); the keys are
   agreed on, with a result: none, or whether the certificate is valid and the name in it. *)
Inductive event := Sent (tls : bool) (text : bytes) (answer : option (list bytes)) | Shook (result : option (bool * option bytes)).
(* A server that is watched. *)
Definition watched {T} (serve : bool -> T -> bytes -> T * option (list bytes)) (tls : bool) (s : list event * T) (b : bytes) : (list event * T) * option (list bytes) :=
  let (t, a) := serve tls (snd s) b in ((fst s ++ [Sent tls b a], t), a).
Definition watched_keys {T} (handshake : T -> list bytes -> T * option (bool * option bytes)) (s : list event * T) (net : list bytes) : (list event * T) * option (bool * option bytes) :=
  let (t, h) := handshake (snd s) net in ((fst s ++ [Shook h], t), h).
(* All that has come from the server, in the clear at first. *)
Definition came (l : list event) : bytes := concat (map (fun e => match e with Sent _ _ (Some a) => concat a | _ => [] end) l).

(* What the requests are, as the server reads them. *)
Definition requests (tls : bool) (is : list item) (e : event) : Prop := exists t tag a, e = Sent tls t a /\ received t = Some (tag, is).
Definition asks_caps (tls : bool) : event -> Prop := requests tls [Atom (bs "CAPABILITY")].
Definition starts_tls : event -> Prop := requests false [Atom (bs "STARTTLS")].
Definition logs_in (tls : bool) (user password : option bytes) (e : event) : Prop :=
  exists u p, user = Some u /\ password = Some p /\ requests tls [Atom (bs "LOGIN"); Str u; Str p] e.

(* A certificate that bears the name of the server: letter for letter, or with a star for any beginning. *)
Definition alike (a b : bytes) : Prop := map tolower a = map tolower b.
Definition bears (name server : bytes) : Prop := alike name server \/ exists r a b, name = 42 :: r /\ server = a ++ b /\ alike r b.
(* What is before the first NUL, of 255 bytes at most. *)
Definition short_name (full name : bytes) : Prop := exists r, firstn 255 full = name ++ r /\ ~ In 0 name /\ (r = [] \/ exists r', r = 0 :: r').
Definition trusted (server : option bytes) (result : option (bool * option bytes)) : Prop :=
  exists full, result = Some (true, Some full) /\ forall s, server = Some s -> exists name, short_name full name /\ bears name s.

(* The name and the password are sent once or not at all; after that there may be a question. *)
Definition goes_on (tls : bool) (user password : option bytes) (l : list event) : Prop :=
  l = [] \/ exists e r, logs_in tls user password e /\ l = e :: r /\ (r = [] \/ exists c, asks_caps tls c /\ r = [c]).
(* The whole conversation: perhaps a question in the clear, then name and password in the clear, or a request for TLS. *)
Definition conversation (use_ssl : bool) (server user password : option bytes) (l : list event) : Prop :=
  exists a b, l = a ++ b /\ (a = [] \/ exists c, asks_caps false c /\ a = [c]) /\
    (goes_on false user password b \/
     use_ssl = true /\ exists s r, starts_tls s /\ b = s :: r /\
       (goes_on false user password r \/
        exists h r', r = Shook h :: r' /\ (~ trusted server h /\ r' = [] \/
          trusted server h /\ exists c r'', asks_caps true c /\ r' = c :: r'' /\ goes_on true user password r''))).

(* One text with others in between. *)
Inductive within : bytes -> bytes -> Prop :=
| W_end : within [] []
| W_take c a b : within a b -> within (c :: a) (c :: b)
| W_skip c a b : within a b -> within a (c :: b).
(* A name or password that can be sent. *)
Definition presentable (o : option bytes) : Prop := forall s, o = Some s -> sendable (Str s) /\ no_backslash (Str s).
(* A line that says what the server can do, in brackets after a word. *)
Definition able (word : bytes) (caps : list bytes) (more : list item) : list item := Atom word :: Square (Atom (bs "CAPABILITY") :: map Atom caps) :: more.
(* What comes of an answer to LOGIN: let in, refused, or something is wrong. *)
Inductive verdict := Let_in | Refused | Wrong.
Definition verdict_of (word : bytes) (caps : list bytes) (v : verdict) : Prop :=
  match v with
  | Let_in => word = bs "OK" /\ In (bs "LITERAL+") caps
  | Refused => word = bs "NO"
  | Wrong => word <> bs "OK" /\ word <> bs "NO" \/ word = bs "OK" /\ ~ In (bs "LITERAL+") caps
  end.
(* What has come by way of TLS. *)
Definition came_by_tls (l : list event) : bytes := concat (map (fun e => match e with Sent true _ (Some a) => concat a | _ => [] end) l).
(* As the rules for certificates have it: the whole name, or a star for the part before the first dot. *)
Definition properly_bears (full server : bytes) : Prop :=
  alike full server \/ exists label r r', full = 42 :: 46 :: r /\ server = label ++ 46 :: r' /\ ~ In 46 label /\ label <> [] /\ alike r r'.
