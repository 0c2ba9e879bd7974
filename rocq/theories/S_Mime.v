(* What a MIME message is, apart from the code: text, or parts, or a message inside the message. *)
From Verif Require Import Base M_Tokens S_Decode S_Header S_Words S_Nvp S_Rfc822 S_Multipart.
Local Open Scope N_scope.

Inductive kind := Plain | Html | Other.
Inductive node :=
| Leaf (name : option bytes) (k : kind) (content : bytes)
| Mail (name : option bytes) (lines : list bytes) (inside : list node).

(* A content header: it is absent, or there is one and it is a list of components. *)
Definition content (name : string) (lines : list bytes) (o : option (list component)) : Prop :=
  match o with
  | None => values name lines = []
  | Some cs => exists v, values name lines = [v] /\ listed cs v
  end.
(* How the body is encoded. *)
Inductive transfer (isspc : N -> bool) : option (list component) -> bytes -> bytes -> Prop :=
| tr_none raw : transfer isspc None raw raw
| tr_plain e cs raw : names isspc "7bit" e \/ names isspc "8bit" e \/ names isspc "binary" e -> transfer isspc (Some (Word e :: cs)) raw raw
| tr_qp e cs raw d : names isspc "quoted-printable" e -> qp_of isspc d raw -> transfer isspc (Some (Word e :: cs)) raw d
| tr_base64 e cs u junk d : names isspc "base64" e -> Forall (fun c => c < 256) d -> spread (base64_of d) u -> (length d mod 3 = 0 -> junk = [])%nat ->
    transfer isspc (Some (Word e :: cs)) (u ++ junk) d.
(* The type of the body. *)
Definition has_type (cs : list component) (major : string) (minor : bytes -> Prop) : Prop :=
  exists a b r, cs = Type_of a b :: r /\ same_name a (bs major) /\ minor b.
Definition is_text (k : kind) (b : bytes) : Prop :=
  match k with
  | Plain => same_name b (bs "plain")
  | Html => same_name b (bs "html")
  | Other => ~ same_name b (bs "plain") /\ ~ same_name b (bs "html")
  end.
Definition leaf_type (cs : list component) (k : kind) : Prop :=
  has_type cs "text" (is_text k) \/
  k = Other /\ exists a b r, cs = Type_of a b :: r /\ ~ same_name a (bs "text") /\ ~ same_name a (bs "multipart") /\ ~ (same_name a (bs "message") /\ same_name b (bs "rfc822")).
(* A parameter, given once. *)
Definition param (cs : list component) (key : bytes) (o : option bytes) : Prop :=
  match o with
  | Some v => exists pre n post, cs = pre ++ Param n v :: post /\ same_name n key /\ forall c, In c (pre ++ post) -> ~ about key c
  | None => forall c, In c cs -> ~ about key c
  end.
(* The name of an attachment: in the disposition; or in the type, where it has to be in small letters. *)
Inductive file_named : option (list component) -> list component -> option bytes -> Prop :=
| fn_none ct : file_named None ct None
| fn_inline w cd ct : ~ same_name w (bs "attachment") -> file_named (Some (Word w :: cd)) ct None
| fn_filename w cd ct f : same_name w (bs "attachment") -> param (Word w :: cd) (bs "filename") (Some f) -> file_named (Some (Word w :: cd)) ct (Some f)
| fn_name w cd ct o : same_name w (bs "attachment") -> param (Word w :: cd) (bs "filename") None -> param ct (bs "name") o ->
    (forall n v, In (Param n v) ct -> same_name n (bs "name") -> n = bs "name") -> file_named (Some (Word w :: cd)) ct o.
(* Dates that can be read. *)
Definition dates_ok (isspc : N -> bool) (lines : list bytes) : Prop :=
  values "date" lines = [] \/ exists v r y m d, values "date" lines = [v] /\ reads v r /\ ~ In 0 r /\ dated isspc r y m d.

(* A header and a body *)
Inductive headed (isspc : N -> bool) : bytes -> list bytes -> bytes -> Prop :=
| headed_intro fs e body : header_ok isspc fs -> ends isspc e body -> headed isspc (concat (map folded fs) ++ e) (map unfolded fs) body.
(* entity lines raw ns: the body raw, under a header of these lines, consists of ns. *)
Inductive entity (isspc : N -> bool) : list bytes -> bytes -> list node -> Prop :=
| en_untyped lines cte raw d : content "content-type" lines None -> content "content-transfer-encoding" lines cte -> transfer isspc cte raw d ->
    (exists cd, content "content-disposition" lines cd) -> entity isspc lines raw [Leaf None Plain d]
| en_leaf lines ct cte cd raw d k name : content "content-type" lines (Some ct) -> content "content-transfer-encoding" lines cte -> content "content-disposition" lines cd ->
    transfer isspc cte raw d -> leaf_type ct k -> file_named cd ct name -> entity isspc lines raw [Leaf name k d]
| en_mail lines ct cte cd raw d name inner body ns : content "content-type" lines (Some ct) -> content "content-transfer-encoding" lines cte -> content "content-disposition" lines cd ->
    transfer isspc cte raw d -> has_type ct "message" (fun b => same_name b (bs "rfc822")) -> file_named cd ct name ->
    headed isspc d inner body -> dates_ok isspc inner -> entity isspc inner body ns -> entity isspc lines raw [Mail name inner ns]
| en_multi lines ct cte cd raw d b parts ns : content "content-type" lines (Some ct) -> content "content-transfer-encoding" lines cte -> content "content-disposition" lines cd ->
    transfer isspc cte raw d -> has_type ct "multipart" (fun _ => True) -> param ct (bs "boundary") (Some b) -> multipart b parts d -> entities isspc parts ns ->
    entity isspc lines raw ns
with entities (isspc : N -> bool) : list bytes -> list node -> Prop :=
| es_nil : entities isspc [] []
| es_cons p ps lines body ns ms : headed isspc p lines body -> entity isspc lines body ns -> entities isspc ps ms -> entities isspc (p :: ps) (ns ++ ms).
(* A message *)
Definition message (isspc : N -> bool) (data : bytes) (lines : list bytes) (ns : list node) : Prop :=
  exists body, headed isspc data lines body /\ dates_ok isspc lines /\ entity isspc lines body ns.

(* The attachment that stands for a node. *)
Inductive depicts : node -> option bytes * M_Tokens.body -> Prop :=
| de_plain name d : depicts (Leaf name Plain d) (name, B_plain d)
| de_html name d : depicts (Leaf name Html d) (name, B_html d)
| de_other name d : depicts (Leaf name Other d) (name, B_other d)
| de_mail name lines ns h atts : headers_of lines h -> depict ns atts -> depicts (Mail name lines ns) (name, B_message (Some (Rfc822 h atts)))
with depict : list node -> list (option bytes * M_Tokens.body) -> Prop :=
| de_nil : depict [] []
| de_cons n a ns atts : depicts n a -> depict ns atts -> depict (n :: ns) (a :: atts).

(* A message in parts, no line of which is the last boundary. *)
Definition open_ended (isspc : N -> bool) (data : bytes) : Prop :=
  exists lines body ct cte d b, headed isspc data lines body /\ content "content-type" lines (Some ct) /\ content "content-transfer-encoding" lines cte /\
    transfer isspc cte body d /\ has_type ct "multipart" (fun _ => True) /\ param ct (bs "boundary") (Some b) /\
    whole_lines d /\ ~ In 0 d /\ forall x y, d = x ++ mark b ++ y -> whole_lines x -> ~ closing y.
