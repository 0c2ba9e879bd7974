(* Specification vocabulary for the database file. *)
From Verif Require Import Base M_Encoding M_TokTable S_TokTable M_DbFile.
Local Open Scope N_scope.

(* Values the file's 32-bit words can hold. *)
Definition word (v : N) : Prop := v < 2 ^ 32.

(* The positions, within mailbox number b, of the messages that belong to it, in index order. *)
Definition run_of (b : N) (ms : list msg) : list N :=
  flat_map (fun m => match src m with S_mbox fi mi => if fi =? b then [mi] else [] | _ => [] end) ms.

Definition msg_storable (m : msg) : Prop :=
  (src m <> S_dead -> word (date m)) /\ word (tid m) /\
  match src m with
  | S_file p mt sz => c_string p /\ word mt /\ word sz
  | S_imap p => c_string p
  | _ => True
  end.
Definition mbox_storable (mb : mbox) : Prop :=
  (forall p, mb_path mb = Some p -> c_string p) /\ word (c_mtime mb) /\ word (c_size mb) /\
  mb_n mb <= N.of_nat (length (checks mb)) /\ Forall (fun c => length c = 16%nat) (checks mb).

(* A database the program can hold in memory: the tables are reachable ones, every number they list
   is the number of a message, every word is listed somewhere, and the messages of each mailbox
   appear in order 0, 1, 2, ... with a known start and length. *)
Record db_ok (hashf : N -> bytes -> N) (db : database) : Prop := {
  ok_key : word (hash_key db);
  ok_msgs : Forall msg_storable (msgs db);
  ok_mboxen : Forall mbox_storable (mboxen db);
  ok_order : forall b, exists k, run_of b (msgs db) = map N.of_nat (seq 0 k);
  ok_places : forall m fi mi, In m (msgs db) -> src m = S_mbox fi mi ->
    exists mb st ln, nth_error (mboxen db) (N.to_nat fi) = Some mb /\ mi < mb_n mb /\
      nth_error (starts mb) (N.to_nat mi) = Some (Some st) /\ word st /\
      nth_error (lens mb) (N.to_nat mi) = Some (Some ln) /\ word ln;
  ok_tabs : forall t, In t (tabs db) -> index_table (hashf (hash_key db)) t /\
    forall w m, In (w, m) (entries t) -> c_string w /\
      exists xs, lists m xs /\ xs <> [] /\ Forall (fun x => x < n_msgs db) xs;
  ok_ids : index_table2 (hashf (hash_key db)) (d_ids db) /\
    forall w m0 m1, In (w, (m0, m1)) (entries (d_ids db)) -> c_string w /\
      exists xs ys, lists m0 xs /\ xs <> [] /\ lists m1 ys /\
        Forall (fun x => x < n_msgs db) xs /\ Forall (fun x => x < n_msgs db) ys }.

(* What must survive a write and a load. *)
Definition same_msg (a b : msg) : Prop :=
  src b = src a /\ tid b = tid a /\ seen b = seen a /\ replied b = replied a /\ flagged b = flagged a /\
  (src a <> S_dead -> date b = date a).
Definition same_mbox (a b : mbox) : Prop :=
  mb_path b = mb_path a /\ f_mtime b = c_mtime a /\ f_size b = c_size a /\ mb_n b = mb_n a /\
  checks b = firstn (N.to_nat (mb_n a)) (checks a).
(* Start and length of a message inside its mailbox. *)
Definition place (db : database) (fi mi : N) : option (option N * option N) :=
  match nth_error (mboxen db) (N.to_nat fi) with
  | Some mb => match nth_error (starts mb) (N.to_nat mi), nth_error (lens mb) (N.to_nat mi) with
               | Some a, Some b => Some (a, b) | _, _ => None end
  | None => None
  end.
Definition same_words (t t' : toktable matches) : Prop :=
  forall w xs, (exists m, In (w, m) (entries t') /\ lists m xs) <-> (exists m, In (w, m) (entries t) /\ lists m xs).
Definition same_ids (t t' : toktable (matches * matches)) : Prop :=
  forall w xs ys,
    (exists m0 m1, In (w, (m0, m1)) (entries t') /\ lists m0 xs /\ lists m1 ys) <->
    (exists m0 m1, In (w, (m0, m1)) (entries t) /\ lists m0 xs /\ lists m1 ys).
Definition same_db (db db' : database) : Prop :=
  hash_key db' = hash_key db /\
  Forall2 same_msg (msgs db) (msgs db') /\
  Forall2 same_mbox (mboxen db) (mboxen db') /\
  (forall m fi mi, In m (msgs db) -> src m = S_mbox fi mi -> place db' fi mi = place db fi mi) /\
  Forall2 same_words (tabs db) (tabs db') /\ same_ids (d_ids db) (d_ids db').

(* The bytes a store touches. *)
Definition span (w : write) : N * N :=
  match w with W32 i _ => (4 * i, 4 * i + 4) | WB off b => (off, off + blen b) end.
Definition disjoint (w1 w2 : write) : Prop :=
  snd (span w1) <= fst (span w2) \/ snd (span w2) <= fst (span w1).
