(* A mail server, apart from the code: folders of letters, requests, what they change and what the server
   says to them.  And what a run of mairix asks of one. *)
From Verif Require Import Base M_Imap S_Imap.
Local Open Scope N_scope.

(* What the program makes of an item and of a line. *)
Fixpoint tok_of (i : item) : tok :=
  match i with
  | Atom s => Tok T_atom (Some s) []
  | Str s => Tok T_string (Some s) []
  | Paren l => Tok T_list None (map tok_of l)
  | Square l => Tok T_sqlist None (map tok_of l)
  end.
Definition tok_of_line (l : line) : tok := match l with Says is => Tok T_untagged None (map tok_of is) | Ends is => Tok T_tagged None (map tok_of is) end.

Record letter := { l_uid : bytes; l_flags : list bytes; l_text : bytes }.
Record box := { b_name : bytes; b_validity : bytes; b_letters : list letter }.
(* the folders, and the one that is open, perhaps for writing *)
Record post := { p_boxes : list box; p_open : option (bytes * bool) }.
Definition box_named (v : post) (f : bytes) : option box := find (fun b => bytes_eqb (b_name b) f) (p_boxes v).

Inductive request :=
| R_open (f : bytes) (writable : bool)
| R_flags                       (* of all letters in the open folder *)
| R_text (uid : bytes)          (* of a letter in the open folder *)
| R_delete                      (* mark all letters in the open folder *)
| R_expunge                     (* remove the marked ones *)
| R_copy (uid : bytes) (f : bytes)
| R_create (f : bytes)
| R_append (f : bytes) (flags : list bytes) (text : bytes).
Definition asks (q : request) : list item :=
  match q with
  | R_open f w => [Atom (if w then bs "SELECT" else bs "EXAMINE"); Str f]
  | R_flags => [Atom (bs "UID"); Atom (bs "FETCH"); Atom (bs "1:*"); Atom (bs "FLAGS")]
  | R_text u => [Atom (bs "UID"); Atom (bs "FETCH"); Atom u; Atom (bs "BODY.PEEK[]")]
  | R_delete => [Atom (bs "STORE"); Atom (bs "1:*"); Atom (bs "+FLAGS"); Atom (bs "\Deleted")]
  | R_expunge => [Atom (bs "EXPUNGE")]
  | R_copy u f => [Atom (bs "UID"); Atom (bs "COPY"); Atom u; Str f]
  | R_create f => [Atom (bs "CREATE"); Str f]
  | R_append f fl t => [Atom (bs "APPEND"); Str f; Paren (map Atom fl); Str t]
  end.

(* What a request may change: at most one folder, and which one is open. *)
Definition may_change (v : post) (q : request) : option bytes :=
  match q with
  | R_open _ _ | R_flags | R_text _ => None
  | R_delete | R_expunge => match p_open v with Some (f, true) => Some f | _ => None end
  | R_copy _ f | R_create f | R_append f _ _ => Some f
  end.
Definition lawful (v : post) (q : request) (v' : post) : Prop :=
  (forall g, may_change v q <> Some g -> box_named v' g = box_named v g) /\
  (p_open v' = None \/ p_open v' = p_open v \/ exists f w, q = R_open f w /\ p_open v' = Some (f, w)).
(* A server that keeps to this, whatever it answers. *)
Definition obeys {S : Type} (view : S -> post) (serve : S -> bytes -> S * option (list bytes)) : Prop :=
  forall s t tag q, received t = Some (tag, asks q) -> lawful (view s) q (view (fst (serve s t))).

(* What a server says to requests that only read. *)
Definition says_validity (is : list item) (u : bytes) : Prop := exists more rest, is = Atom (bs "OK") :: Square (Atom (bs "UIDVALIDITY") :: Atom u :: more) :: rest.
Definition says_count (is : list item) (n : N) : Prop := exists ds rest, is = Atom ds :: Atom (bs "EXISTS") :: rest /\ Forall digit ds /\ number ds = n.
Definition about_flags (l : letter) (is : list item) : Prop :=
  exists n rest, is = Atom n :: Atom (bs "FETCH") :: Paren rest :: [] /\
  let uid := [Atom (bs "UID"); Atom (l_uid l)] in let flags := [Atom (bs "FLAGS"); Paren (map Atom (l_flags l))] in
  (rest = uid ++ flags \/ rest = flags ++ uid).
Definition about_text (l : letter) (is : list item) : Prop :=
  exists n rest, is = Atom n :: Atom (bs "FETCH") :: Paren rest :: [] /\
  let uid := [Atom (bs "UID"); Atom (l_uid l)] in let text := [Atom (bs "BODY[]"); Str (l_text l)] in
  (rest = uid ++ text \/ rest = text ++ uid).
(* a line about something else *)
Definition other (is : list item) : Prop := match is with _ :: b :: _ => b <> Atom (bs "FETCH") | _ => False end.
(* a line about each letter, and perhaps others *)
Inductive among (P : letter -> list item -> Prop) : list letter -> list (list item) -> Prop :=
| am_nil : among P [] []
| am_line l is ls lines : P l is -> among P ls lines -> among P (l :: ls) (is :: lines)
| am_other is ls lines : other is -> among P ls lines -> among P ls (is :: lines).
Inductive tells (v : post) : request -> list (list item) -> post -> Prop :=
| te_open f w b lines : box_named v f = Some b ->
    (exists is, In is lines /\ says_validity is (b_validity b)) -> (forall is u, In is lines -> says_validity is u -> u = b_validity b) ->
    (exists is, In is lines /\ says_count is (N.of_nat (length (b_letters b)))) -> (forall is x rest, In is lines -> is = Atom x :: Atom (bs "EXISTS") :: rest -> says_count is (N.of_nat (length (b_letters b)))) ->
    tells v (R_open f w) lines {| p_boxes := p_boxes v; p_open := Some (f, w) |}
| te_flags f w b lines : p_open v = Some (f, w) -> box_named v f = Some b -> among about_flags (b_letters b) lines -> tells v R_flags lines v
| te_text u f w b lines : p_open v = Some (f, w) -> box_named v f = Some b -> among about_text (filter (fun l => bytes_eqb (l_uid l) u) (b_letters b)) lines -> tells v (R_text u) lines v.
Definition readable (v : post) (q : request) : Prop :=
  match q with
  | R_open f _ => box_named v f <> None
  | R_flags | R_text _ => exists f w, p_open v = Some (f, w) /\ box_named v f <> None
  | _ => False
  end.
(* The paths of the messages in a folder that are not marked as deleted, and the texts they stand for. *)
Definition deleted (l : letter) : bool := existsb (bytes_eqb (bs "\Deleted")) (l_flags l).
Definition path_of (b : box) (l : letter) : bytes := b_validity b ++ [58] ++ l_uid l ++ [58] ++ b_name b.
Definition listed (v : post) (f : bytes) : list bytes :=
  match box_named v f with Some b => map (path_of b) (filter (fun l => negb (deleted l)) (b_letters b)) | None => [] end.
Definition stands_for (v : post) (p t : bytes) : Prop :=
  exists f b l, box_named v f = Some b /\ In l (b_letters b) /\ p = path_of b l /\ t = l_text l.
(* Numbers are numbers, no two letters of a folder have the same one, and all can be sent. *)
Definition name_ok (f : bytes) : Prop := sendable (Str f) /\ no_backslash (Str f).
Definition number_ok (u : bytes) : Prop := u <> [] /\ Forall digit u.
Definition letter_ok (l : letter) : Prop :=
  number_ok (l_uid l) /\ (forall f, In f (l_flags l) -> f <> [] /\ Forall (atom_char In_paren) f) /\ N.of_nat (length (l_text l)) < 2 ^ 31.
Definition in_order (v : post) : Prop :=
  forall f b, box_named v f = Some b -> name_ok f /\ number_ok (b_validity b) /\ NoDup (map l_uid (b_letters b)) /\ Forall letter_ok (b_letters b).
(* A server that answers such requests, in lines spelled as in S_Imap, in whatever pieces they arrive. *)
Definition serves {S : Type} (view : S -> post) (serve : S -> bytes -> S * option (list bytes)) : Prop :=
  forall s t tag q, received t = Some (tag, asks q) -> readable (view s) q -> in_order (view s) ->
  exists s' pieces lines more ts te, serve s t = (s', Some pieces) /\ tells (view s) q lines (view s') /\
    Forall2 (fun is x => line_spelt tag (Says is) x) lines ts /\ line_spelt tag (Ends (Atom (bs "OK") :: more)) te /\ concat pieces = concat ts ++ te.

(* A connection after login, and fetching one message after another. *)
Definition fresh {S : Type} (k : conn S) : Prop := k_buf k = [] /\ k_net k = [] /\ k_sel k = None /\ (0 <= k_tag k)%Z.
Fixpoint fetch_all {S : Type} (serve : S -> bytes -> S * option (list bytes)) (k : conn S) (ps : list bytes) : res (list (option bytes) * conn S) :=
  match ps with
  | [] => Ok ([], k)
  | p :: ps' => let! (t, k1) := imap_fetch_message_raw S serve k p in let! (ts, k2) := fetch_all serve k1 ps' in Ok (t :: ts, k2)
  end.

(* What mairix does with a server in one run, the match folder being [mf]. *)
Inductive act := A_list (folders : list bytes) | A_fetch (path : bytes) | A_copy (path : bytes) | A_clear | A_append (text : bytes) (seen answered flagged : bool).
Definition do_act {S : Type} (serve : S -> bytes -> S * option (list bytes)) (mf : bytes) (k : conn S) (a : act) : res (conn S) :=
  match a with
  | A_list fs => let! (_, k') := build_imap_message_list S serve k fs in Ok k'
  | A_fetch p => let! (_, k') := imap_fetch_message_raw S serve k p in Ok k'
  | A_copy p => imap_copy_message S serve k p mf
  | A_clear => imap_clear_folder S serve k mf
  | A_append t s a f => imap_append_new_message S serve k mf t s a f
  end.
Fixpoint do_acts {S : Type} (serve : S -> bytes -> S * option (list bytes)) (mf : bytes) (k : conn S) (l : list act) : res (conn S) :=
  match l with [] => Ok k | a :: l' => let! k1 := do_act serve mf k a in do_acts serve mf k1 l' end.
(* a path in the index: number, colon, number, colon, folder *)
Definition path_ok (p : bytes) : Prop := exists u n f, p = u ++ [58] ++ n ++ [58] ++ f /\ number_ok u /\ number_ok n /\ name_ok f.
Definition act_ok (a : act) : Prop :=
  match a with
  | A_list fs => forall f, In f fs -> name_ok f
  | A_fetch p | A_copy p => path_ok p
  | A_clear => True
  | A_append t _ _ _ => sendable (Str t) /\ no_backslash (Str t)
  end.
