(* Specification vocabulary for an indexing run. *)
From Coq Require Import Permutation Sorted.
From Verif Require Import Base M_Encoding M_TokTable S_TokTable M_DbFile S_DbFile M_Tokens S_Tokens M_Mbox S_Mbox M_Update.
From Verif Require M_Paths.
Local Open Scope N_scope.

(* Dictionary order of strings of unsigned bytes. *)
Inductive lex : bytes -> bytes -> Prop :=
| Lex_nil c s : lex [] (c :: s)
| Lex_less a b s t : a < b -> lex (a :: s) (b :: t)
| Lex_same a s t : lex s t -> lex (a :: s) (a :: t).
(* Files come before messages on the IMAP server. *)
Definition before (a b : found) : Prop :=
  (is_imap a = false /\ is_imap b = true) \/ (is_imap a = is_imap b /\ lex (fpath a) (fpath b)).

(* Every word of the message is a C string. *)
Definition textual (alnum : N -> bool) (r : rfc822) : Prop :=
  (forall p w, mentions alnum r p w -> c_string w) /\ (forall own w, carries r own w -> c_string w).
(* What is assumed of the outside: values fit the words of the file, checksums have 16 bytes, parsed
   messages consist of C strings, and isalnum() does not accept angle brackets. *)
Record world_ok (W : world) : Prop := {
  wo_lt : w_alnum W (ch "<") = false;
  wo_gt : w_alnum W (ch ">") = false;
  wo_parse : forall t r, fst (w_parse W t) = Some r -> textual (w_alnum W) r;
  wo_imap : forall p r, w_imap W p = Some r -> textual (w_alnum W) r;
  wo_csum : forall t, length (w_csum W t) = 16%nat;
  wo_stat : forall p k mt sz, w_stat W p = Some (k, mt, sz) -> word mt /\ word sz;
  wo_lstat : forall p k mt sz, w_lstat W p = Some (k, mt, sz) -> word mt /\ word sz;
  wo_map : forall p va, w_map W p = Mapped va -> word (N.of_nat (length va));
  wo_junk : forall n, word (date (w_junk_msg W n)) /\ word (tid (w_junk_msg W n));
  wo_sum : length (w_junk_sum W) = 16%nat }.

(* Message i mentions the message-id w, as its own or another's. *)
Definition refers (db : database) (w : bytes) (i : N) : Prop :=
  exists m0 m1 xs, In (w, (m0, m1)) (entries (d_ids db)) /\ lists m0 xs /\ In i xs.
(* The file is one that is left out. *)
Definition hidden (p : bytes) : Prop := exists q, p = q ++ bs "/.gitignore".
(* r is what message m of the index db says now. *)
Inductive says (W : world) (db : database) (m : msg) (r : rfc822) : Prop :=
| Says_file p mt sz va : src m = S_file p mt sz -> ~ hidden p -> w_map W p = Mapped va ->
    fst (w_parse W va) = Some r -> says W db m r
| Says_imap p : src m = S_imap p -> ~ hidden p -> w_imap W p = Some r -> says W db m r
| Says_mbox fi mi mb p va st ln : src m = S_mbox fi mi -> nth_error (mboxen db) (N.to_nat fi) = Some mb ->
    mb_path mb = Some p -> w_map W p = Mapped va ->
    nth_error (starts mb) (N.to_nat mi) = Some (Some st) -> nth_error (lens mb) (N.to_nat mi) = Some (Some ln) ->
    st + ln <= N.of_nat (length va) ->
    fst (w_parse W (firstn (N.to_nat ln) (skipn (N.to_nat st) va))) = Some r -> says W db m r.

(* Index entry m describes the message x found on disc: in a fast run by its name alone, otherwise
   the file must also have the recorded modification time. *)
Definition agrees (W : world) (fast : bool) (m : msg) (x : found) : Prop :=
  match src m with
  | S_file p mt _ => is_imap x = false /\ fpath x = p /\ (fast = true \/ exists sz, w_stat W p = Some (M_Paths.K_reg, mt, sz))
  | S_imap p => is_imap x = true /\ fpath x = p
  | _ => False
  end.

(* The three arrays of a mailbox have the same size. *)
Definition level (mb : mbox) : Prop := length (lens mb) = length (starts mb) /\ length (checks mb) = length (starts mb).
(* Every message of every mailbox has an entry: the entries of mailbox b are its messages 0, 1, ... *)
Record tight (db : database) : Prop := {
  ti_run : forall b mb, nth_error (mboxen db) (N.to_nat b) = Some mb -> run_of b (msgs db) = map N.of_nat (seq 0 (N.to_nat (mb_n mb)));
  ti_level : Forall level (mboxen db) }.
(* start and length of message k - 1 *)
Definition last_kept (mb : mbox) (k : N) : option (N * N) :=
  if k =? 0 then None else
  match nth_error (starts mb) (N.to_nat (k - 1)), nth_error (lens mb) (N.to_nat (k - 1)) with
  | Some (Some s), Some (Some l) => Some (s, l) | _, _ => None end.
(* Mailbox mb has lost its last messages since the index was written, and gained none: only k of its
   messages are unchanged (C27) and no message follows them (C26). *)
Definition shrunk (W : world) (mb : mbox) : Prop := exists p va k, mb_path mb = Some p /\ w_map W p = Mapped va /\
  find_number_intact (w_csum W) mb va = Ok k /\ k < mb_n mb /\ build_new_message_list (w_from_ok W) (last_kept mb k) va = Ok [].

(* What a run is given: a good index, distinct paths that are C strings, mailboxes that can be looked
   at, and not too many messages. *)
Record runnable (W : world) (symlinks : bool) (fnd : list found) (paths : list bytes) (db : database) : Prop := {
  ri_world : world_ok W;
  ri_db : db_ok (w_hash W) db;
  ri_tight : tight db;
  ri_found : NoDup fnd;
  ri_names : Forall (fun x => c_string (fpath x)) fnd;
  ri_paths : NoDup paths;
  ri_strings : Forall c_string paths;
  ri_stat : forall p, In p paths -> w_map W p <> Map_no_stat;
  ri_few : forall boxes, build_mbox_lists W symlinks paths (mboxen db) = Ok boxes ->
    n_msgs db + N.of_nat (length fnd) + N.of_nat (length (flat_map (fun b => new_msgs (snd b)) boxes)) <= 63 * 2 ^ 24 }.

(* The mailboxes that are looked at: listed, there, and not a symbolic link unless these are followed. *)
Definition eligible (W : world) (symlinks : bool) (paths : list bytes) (p : bytes) : Prop :=
  In p paths /\ exists link mt sz, w_lstat W p = Some (link, mt, sz) /\ (link = true -> symlinks = true).

(* The file or the message on the server that an entry stands for. *)
Definition name_of (m : msg) : option found :=
  match src m with
  | S_file p _ _ => Some {| is_imap := false; fpath := p |}
  | S_imap p => Some {| is_imap := true; fpath := p |}
  | _ => None
  end.
(* No file and no message on the server has two entries. *)
Definition each_once (db : database) : Prop :=
  forall i j a b x, nth_error (msgs db) i = Some a -> nth_error (msgs db) j = Some b -> name_of a = Some x -> name_of b = Some x -> i = j.
(* The index has an entry with this source. *)
Definition lists_src (db : database) (s : msrc) : Prop := exists m, In m (msgs db) /\ src m = s.

(* Piece c of the text ends a message that starts at st: the parser does not miss the end of a
   multipart body when given the text from st to the end of the piece. *)
Definition ends_well (W : world) (va : bytes) (st : N) (c : N * N) : Prop :=
  snd (w_parse W (firstn (N.to_nat (fst c + snd c - st)) (skipn (N.to_nat st) va))) = false.
(* How the pieces of a mailbox become messages: a message is the shortest run of 1 to 100 pieces that
   ends well; if there is none, the first piece is a message by itself. *)
Inductive grouped (W : world) (va : bytes) : list (N * N) -> list (N * N) -> Prop :=
| Grouped_nil : grouped W va [] []
| Grouped_join st ln cs k c places : nth_error ((st, ln) :: cs) k = Some c -> (k < 100)%nat -> ends_well W va st c ->
    (forall i d, (i < k)%nat -> nth_error ((st, ln) :: cs) i = Some d -> ~ ends_well W va st d) ->
    grouped W va (skipn k cs) places -> grouped W va ((st, ln) :: cs) ((st, fst c + snd c - st) :: places)
| Grouped_alone st ln cs places : (forall i d, (i < 100)%nat -> nth_error ((st, ln) :: cs) i = Some d -> ~ ends_well W va st d) ->
    grouped W va cs places -> grouped W va ((st, ln) :: cs) ((st, ln) :: places).

(* A mailbox that is new to the index. *)
Definition blank (p : bytes) : mbox :=
  {| mb_path := Some p; f_mtime := 0; f_size := 0; c_mtime := 0; c_size := 0; mb_n := 0; starts := []; lens := []; checks := [] |}.
Definition was (db : database) (b : nat) (p : bytes) : mbox := match nth_error (mboxen db) b with Some mb => mb | None => blank p end.
(* What a run makes of mailbox mb, which now has modification time mt and size sz; k of its messages
   are kept. *)
Inductive box_now (W : world) (p : bytes) (mb : mbox) (mt sz : N) (mb' : mbox) : N -> Prop :=
| Box_same : f_mtime mb = mt -> f_size mb = sz ->
    mb_n mb' = mb_n mb -> starts mb' = starts mb -> lens mb' = lens mb -> checks mb' = checks mb ->
    box_now W p mb mt sz mb' (mb_n mb)
| Box_empty : ~ (f_mtime mb = mt /\ f_size mb = sz) -> w_map W p = Map_empty -> mb_n mb' = 0 -> box_now W p mb mt sz mb' 0
| Box_scanned va k ms places : ~ (f_mtime mb = mt /\ f_size mb = sz) -> w_map W p = Mapped va ->
    (* k and the pieces that follow: C27, C26 *)
    find_number_intact (w_csum W) mb va = Ok k -> build_new_message_list (w_from_ok W) (last_kept mb k) va = Ok ms ->
    grouped W va ms places ->
    mb_n mb' = (match ms with [] => mb_n mb | _ => k + N.of_nat (length places) end) ->
    (forall i, i < k -> nth_error (starts mb') (N.to_nat i) = nth_error (starts mb) (N.to_nat i) /\
      nth_error (lens mb') (N.to_nat i) = nth_error (lens mb) (N.to_nat i) /\ nth_error (checks mb') (N.to_nat i) = nth_error (checks mb) (N.to_nat i)) ->
    (forall i st ln, nth_error places i = Some (st, ln) -> nth_error (starts mb') (N.to_nat k + i) = Some (Some st) /\
      nth_error (lens mb') (N.to_nat k + i) = Some (Some ln) /\
      nth_error (checks mb') (N.to_nat k + i) = Some (w_csum W (firstn (N.to_nat ln) (skipn (N.to_nat st) va)))) ->
    box_now W p mb mt sz mb' k.

(* The path carries this flag letter: after the last colon comes 2 and a comma and then letters. *)
Definition marked (p : bytes) (c : N) : Prop := exists q f, p = q ++ bs ":2," ++ f /\ ~ In (ch ":") f /\ In c f.
