(* What a search means, written from the manual (mairix.1, SEARCH PATTERNS): the arguments as a
   syntax tree, how they are spelt on the command line, and which messages of an index satisfy them. *)
From Coq Require Import Permutation Sorted.
From Verif Require Import Base M_Encoding M_TokTable S_TokTable M_DbFile S_DbFile S_Match.
Local Open Scope N_scope.

(* ---- what the index says about a message ---- *)

Definition message (db : database) (i : N) : option msg := nth_error (msgs db) (N.to_nat i).
Definition live (db : database) (i : N) : Prop := exists m, message db i = Some m /\ src m <> S_dead.

Inductive part := To | Cc | From_ | Subject | Body | Attachment.
Definition table (db : database) (p : part) : toktable matches :=
  match p with To => d_to db | Cc => d_cc db | From_ => d_from db | Subject => d_subject db | Body => d_body db
  | Attachment => d_att db end.
(* Word w is recorded for message i in part p. *)
Definition recorded (db : database) (p : part) (w : bytes) (i : N) : Prop :=
  exists m xs, In (w, m) (entries (table db p)) /\ lists m xs /\ In i xs.
(* Message i has the message-id w (the second list of the id table). *)
Definition has_id (db : database) (w : bytes) (i : N) : Prop :=
  exists m0 m1 xs, In (w, (m0, m1)) (entries (d_ids db)) /\ lists m1 xs /\ In i xs.
Definition path_of (db : database) (m : msg) : option bytes :=
  match src m with
  | S_dead => None
  | S_file p _ _ | S_imap p => Some p
  | S_mbox fi _ => match nth_error (mboxen db) (N.to_nat fi) with Some mb => mb_path mb | None => None end
  end.
Definition size_of (db : database) (m : msg) : option N :=
  match src m with
  | S_file _ _ sz => Some sz
  | S_mbox fi mi => match nth_error (mboxen db) (N.to_nat fi) with
                    | Some mb => match nth_error (lens mb) (N.to_nat mi) with Some o => o | None => None end
                    | None => None end
  | _ => None
  end.

(* ---- search arguments ---- *)

(* One term: ~ ^ text, and perhaps = with an optional number of errors (its digits). *)
Record sterm := { s_not : bool; s_anchor : bool; s_text : bytes; s_like : option bytes }.
(* "0" to "9", "k" / "m" suffixes of sizes *)
Record ssize := { z_digits : bytes; z_unit : option N }.
Inductive sarg :=
| A_words (key : option bytes) (alternatives : list (list sterm))   (* key:t1,t2/t3 *)
| A_id (id : bytes)                                                  (* m:id *)
| A_date (e : bytes)                                                 (* d:e *)
| A_size (lo hi : option ssize)                                      (* z:lo-hi *)
| A_flags (fs : list (bool * N)).                                    (* F:-sr *)

(* Spelling. *)
Definition show_term (t : sterm) : bytes :=
  (if s_not t then bs "~" else []) ++ (if s_anchor t then bs "^" else []) ++ s_text t ++
  match s_like t with Some ds => bs "=" ++ ds | None => [] end.
Fixpoint join (sep : bytes) (l : list bytes) : bytes :=
  match l with [] => [] | [x] => x | x :: l' => x ++ sep ++ join sep l' end.
Definition show_alternatives (al : list (list sterm)) : bytes :=
  join (bs "/") (map (fun ts => join (bs ",") (map show_term ts)) al).
Definition show_size (z : ssize) : bytes := z_digits z ++ match z_unit z with Some c => [c] | None => [] end.
Definition show_opt (z : option ssize) : bytes := match z with Some z => show_size z | None => [] end.
Definition show_flag (f : bool * N) : bytes := (if fst f then bs "-" else []) ++ [snd f].
Definition show_arg (a : sarg) : bytes :=
  match a with
  | A_words (Some key) al => key ++ bs ":" ++ show_alternatives al
  | A_words None al => show_alternatives al
  | A_id id => bs "m:" ++ id
  | A_date e => bs "d:" ++ e
  | A_size lo hi => bs "z:" ++ show_opt lo ++ bs "-" ++ show_opt hi
  | A_flags fs => bs "F:" ++ flat_map show_flag fs
  end.

(* ---- meaning ---- *)

Definition lower (w : bytes) : bytes := map tolower w.
Definition number (ds : bytes) : N := fold_left (fun a c => 10 * a + (c - 48)) ds 0.

(* Which parts a key selects; without a key, everything but attachment names and paths. *)
Definition selects (key : option bytes) (p : part) : Prop :=
  match key with
  | None => p <> Attachment
  | Some k =>
    match p with
    | To => In (ch "t") k \/ In (ch "r") k \/ In (ch "a") k
    | Cc => In (ch "c") k \/ In (ch "r") k \/ In (ch "a") k
    | From_ => In (ch "f") k \/ In (ch "a") k
    | Subject => In (ch "s") k
    | Body => In (ch "b") k
    | Attachment => In (ch "n") k
    end
  end.
Definition selects_path (key : option bytes) : Prop := match key with Some k => In (ch "p") k | None => False end.

(* v occurs in w with at most n errors; anchored: at its start, without errors. *)
Definition occurs (anchored : bool) (n : N) (v w : bytes) : Prop :=
  w <> [] /\ if anchored then prefix_of v w else exists x, part_of x w /\ within (N.to_nat n) v x.
(* A word satisfies a term (case ignored); a path satisfies a term (case kept). *)
Definition word_like (t : sterm) (w : bytes) : Prop :=
  match s_like t with
  | None => w = lower (s_text t)
  | Some ds => occurs (s_anchor t) (number ds) (lower (s_text t)) w
  end.
Definition path_like (t : sterm) (w : bytes) : Prop :=
  occurs (s_anchor t) (match s_like t with Some ds => number ds | None => 0 end) (s_text t) w.
Definition found (db : database) (key : option bytes) (t : sterm) (i : N) : Prop :=
  (exists p w, selects key p /\ recorded db p w i /\ word_like t w) \/
  (selects_path key /\ exists m w, message db i = Some m /\ path_of db m = Some w /\ path_like t w).
Definition term_sat (db : database) (key : option bytes) (t : sterm) (i : N) : Prop :=
  if s_not t then ~ found db key t i else found db key t i.
Definition size_value (z : ssize) : N :=
  number (z_digits z) *
  match z_unit z with
  | Some c => if (c =? ch "k") || (c =? ch "K") then 1024 else 1048576
  | None => 1
  end.
Definition flag_on (m : msg) (c : N) : bool :=
  match tolower c with 115 => seen m | 114 => replied m | _ => flagged m end.
(* Strictly between the two ends, whichever is given first; a missing end is no condition. *)
Definition between (lo hi : option Z) (v : Z) : Prop :=
  match lo, hi with
  | Some a, Some b => (Z.min a b < v < Z.max a b)%Z
  | Some a, None => (a < v)%Z
  | None, Some b => (v < b)%Z
  | None, None => True
  end.
Definition zopt (z : option ssize) : option Z := option_map (fun z => Z.of_N (size_value z)) z.
Definition arg_sat (sd : bytes -> option (option Z * option Z)) (db : database) (a : sarg) (i : N) : Prop :=
  match a with
  | A_words key al => exists ts, In ts al /\ forall t, In t ts -> term_sat db key t i
  | A_id id => has_id db (lower id) i
  | A_date e => exists m lo hi, message db i = Some m /\ sd e = Some (lo, hi) /\ between lo hi (Z.of_N (date m))
  | A_size lo hi => exists m s, message db i = Some m /\ size_of db m = Some s /\ between (zopt lo) (zopt hi) (Z.of_N s)
  | A_flags fs => exists m, message db i = Some m /\ forall ng c, In (ng, c) fs -> flag_on m c = negb ng
  end.

(* ---- arguments as a user can type them ---- *)

Definition digit_string (ds : bytes) : Prop := Forall (fun c => isdigit c = true) ds.
(* A text without separators, key colon, spaces or '=', not starting like an operator. *)
Definition plain (c : N) : Prop :=
  c_char c /\ c <> ch "," /\ c <> ch "/" /\ c <> ch "=" /\ c <> ch ":" /\ isspace c = false.
Definition term_ok (t : sterm) : Prop :=
  Forall plain (s_text t) /\ (forall c s, s_text t = c :: s -> c <> ch "~" /\ c <> ch "^") /\
  match s_like t with
  | Some ds => digit_string ds /\ number ds < 2 ^ 31 /\ (1 <= length (s_text t) <= 31)%nat /\
               (s_anchor t = true -> number ds = 0)
  | None => True
  end.
Definition size_ok (z : ssize) : Prop :=
  z_digits z <> [] /\ digit_string (z_digits z) /\ size_value z < 2 ^ 31 /\
  match z_unit z with Some c => In c (bs "kKmM") | None => True end.
Definition opt_ok (z : option ssize) : Prop := match z with Some z => size_ok z | None => True end.
Definition no_imap (db : database) : Prop := forall m p, In m (msgs db) -> src m <> S_imap p.
(* Every mbox message's mailbox has a name. *)
Definition boxes_named (db : database) : Prop :=
  forall m fi mi, In m (msgs db) -> src m = S_mbox fi mi -> path_of db m <> None.
Definition arg_ok (sd : bytes -> option (option Z * option Z)) (db : database) (a : sarg) : Prop :=
  match a with
  | A_words key al =>
    al <> [] /\ (forall ts, In ts al -> ts <> [] /\ forall t, In t ts -> term_ok t) /\
    (* the argument is not empty after its last separator: a trailing separator is C17's subject *)
    show_term (last (last al []) {| s_not := false; s_anchor := false; s_text := []; s_like := None |}) <> [] /\
    match key with
    | None => True
    | Some k =>
      Forall (fun c => c <> ch ":" /\ c <> ch "d" /\ c <> ch "z" /\ c <> ch "F" /\ c <> ch "m") k /\
      (* p is used alone: groups with p are C18's subject *)
      (In (ch "p") k -> k = bs "p" /\ no_imap db /\ boxes_named db /\
         forall ts t, In ts al -> In t ts -> (1 <= length (s_text t) <= 31)%nat)
    end
  | A_id id => c_string id
  | A_date e => c_string e /\ sd e <> None
  | A_size lo hi => opt_ok lo /\ opt_ok hi /\ no_imap db
  | A_flags fs => forall ng c, In (ng, c) fs -> In c (bs "sSrRfF")
  end.

(* With -t: messages sharing a thread with a match. *)
Definition same_thread (db : database) (i j : N) : Prop :=
  exists a b, message db i = Some a /\ message db j = Some b /\ tid a = tid b.

(* The C library's qsort: some rearrangement in which, if the comparison is a total preorder on the
   elements, no element compares greater than a later one. *)
Definition preorder_on (cmp : N -> N -> Z) (l : list N) : Prop :=
  (forall a, In a l -> cmp a a = 0%Z) /\
  (forall a b, In a l -> In b l -> ((cmp a b < 0)%Z <-> (0 < cmp b a)%Z)) /\
  (forall a b c, In a l -> In b l -> In c l -> (cmp a b <= 0)%Z -> (cmp b c <= 0)%Z -> (cmp a c <= 0)%Z).
Definition qsorted (cmp : N -> N -> Z) (l l' : list N) : Prop :=
  Permutation l l' /\ (preorder_on cmp l -> StronglySorted (fun a b => (cmp a b <= 0)%Z) l').
