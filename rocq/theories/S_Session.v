(* Specification vocabulary for histories of indexing sessions. *)
From Coq Require Import Sorted.
From Verif Require Import Base M_Encoding M_TokTable S_TokTable M_DbFile S_DbFile M_Search S_Search M_Tokens S_Tokens M_Mbox S_Mbox M_Update S_Update M_Session.
From Verif Require M_Paths.
Local Open Scope N_scope.

(* The flags of a file or of a message on the server are those in its name, as in maildirs; those of a message
   in a mailbox are those of its Status fields. *)
Definition flags_of (m : msg) (h : headers) : Prop :=
  match src m with
  | S_dead => True
  | S_file p _ _ | S_imap p => (seen m = true <-> marked p (ch "S")) /\ (replied m = true <-> marked p (ch "R")) /\ (flagged m = true <-> marked p (ch "F"))
  | S_mbox _ _ => seen m = h_seen h /\ replied m = h_replied h /\ flagged m = h_flagged h
  end.
(* What entry x, which is m, records is what the message says in W: its words, its message-ids, those it
   refers to, its date, and its flags. *)
Definition described (W : world) (db : database) (x : N) (m : msg) : Prop :=
  (forall p v, recorded db p v x <-> exists r w, says W db m r /\ mentions (w_alnum W) r p w /\ v = lower w) /\
  (forall v, has_id db v x <-> exists r w, says W db m r /\ carries r true w /\ v = lower w) /\
  (forall v, refers db v x <-> exists r own w, says W db m r /\ carries r own w /\ v = lower w) /\
  (forall h atts, says W db m (Rfc822 h atts) -> date m = u32_of_int (h_date h) /\ flags_of m h).
(* Every entry that is not dead says what the message says now. *)
Definition faithful (W : world) (db : database) : Prop :=
  forall x m, message db x = Some m -> src m <> S_dead -> described W db x m.
(* F is a database file and holds this index. *)
Definition holds_index (W : world) (F : bytes) (db : database) : Prop := load (w_hash W) (fun _ => 0) 0 F = Ok db.

(* What is assumed of a session and the file it starts from.  The folders give distinct messages and
   mailboxes whose paths are C strings, and mailboxes can be looked at; there are not too many messages,
   and the file stays below 2 GiB; the uninitialised int of C08_db_roundtrip_refuted is harmless; no
   mailbox has shrunk (C58_shrunk_refuted). *)
Record fit (s : session) (file : option bytes) : Prop := {
  fi_world : world_ok (s_world s);
  fi_key : word (s_key s);
  fi_current : word (s_current s);
  fi_found : NoDup (s_found s);
  fi_names : Forall (fun x => c_string (fpath x)) (s_found s);
  fi_paths : NoDup (s_paths s);
  fi_strings : Forall c_string (s_paths s);
  fi_stat : forall p, In p (s_paths s) -> w_map (s_world s) p <> Map_no_stat;
  fi_index : forall F db, file = Some F -> holds_index (s_world s) F db -> forall off, s_index s off < n_msgs db \/ n_msgs db = 0;
  fi_few : forall db boxes, get_database s file = Ok db -> build_mbox_lists (s_world s) (s_symlinks s) (s_paths s) (mboxen db) = Ok boxes ->
    n_msgs db + N.of_nat (length (s_found s)) + N.of_nat (length (flat_map (fun b => new_msgs (snd b)) boxes)) <= 63 * 2 ^ 24;
  fi_shrunk : forall db mb, get_database s file = Ok db -> In mb (mboxen db) -> ~ shrunk (s_world s) mb;
  fi_size : forall fuel c db, update_index s fuel file = Ok (c, db) -> file_len db < 2 ^ 31 }.
(* The same program, locale and hash function. *)
Definition same_program (s0 s : session) : Prop :=
  w_alnum (s_world s) = w_alnum (s_world s0) /\ w_hash (s_world s) = w_hash (s_world s0) /\ w_from_ok (s_world s) = w_from_ok (s_world s0) /\
  w_csum (s_world s) = w_csum (s_world s0) /\ w_parse (s_world s) = w_parse (s_world s0).
(* Sessions one after another, the latest first, each with the database file it started from; the last
   argument is the file at the end. *)
Inductive history : list (session * option bytes) -> option bytes -> Prop :=
| History_none : history [] None
| History_next h fuel s file file' : history h file -> fit s file -> Forall (fun x => same_program (fst x) s) h ->
    index_session s fuel file = Ok file' -> history ((s, file) :: h) file'.

Definition cut (st ln : N) (va : bytes) : bytes := firstn (N.to_nat ln) (skipn (N.to_nat st) va).
(* Between session s0 and a later one s nothing has changed unnoticeably: a file with the same
   modification time has the same contents (with -F, a file with the same name), so has a message on the
   server, and a mailbox with the same modification time and size; and no two different texts at the same
   place of a mailbox have the same checksum. *)
Record honest (s0 s : session) : Prop := {
  ho_files : forall p mt sz, In {| is_imap := false; fpath := p |} (s_found s) -> w_stat (s_world s0) p = Some (M_Paths.K_reg, mt, sz) ->
    s_fast s = true \/ (exists sz', w_stat (s_world s) p = Some (M_Paths.K_reg, mt, sz')) -> w_map (s_world s) p = w_map (s_world s0) p;
  ho_server : forall p, In {| is_imap := true; fpath := p |} (s_found s0) -> In {| is_imap := true; fpath := p |} (s_found s) ->
    w_imap (s_world s) p = w_imap (s_world s0) p;
  ho_boxes : forall p l0 l mt sz, w_lstat (s_world s0) p = Some (l0, mt, sz) -> w_lstat (s_world s) p = Some (l, mt, sz) ->
    w_map (s_world s) p = w_map (s_world s0) p;
  ho_sums : forall p va0 va st ln, w_map (s_world s0) p = Mapped va0 -> w_map (s_world s) p = Mapped va ->
    st + ln <= N.of_nat (length va0) -> st + ln <= N.of_nat (length va) ->
    w_csum (s_world s) (cut st ln va) = w_csum (s_world s) (cut st ln va0) -> cut st ln va = cut st ln va0 }.
(* In a mailbox that has changed since the index was written, what follows a changed message has changed
   as well. *)
Definition undisturbed (s : session) (file : option bytes) : Prop :=
  forall db mb p va, get_database s file = Ok db -> In mb (mboxen db) -> mb_path mb = Some p -> w_map (s_world s) p = Mapped va ->
  forall i j, i < j -> intact (w_csum (s_world s)) mb va j -> intact (w_csum (s_world s)) mb va i.
(* All this for a whole history. *)
Definition orderly (h : list (session * option bytes)) : Prop :=
  ForallOrdPairs (fun x y => honest (fst y) (fst x)) h /\ Forall (fun x => undisturbed (fst x) (snd x)) h.
