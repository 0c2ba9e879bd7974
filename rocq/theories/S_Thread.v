(* Threads: messages connected through the message identifiers they mention. *)
From Coq Require Import Relations.
From Verif Require Import Base M_Encoding M_TokTable S_TokTable M_DbFile.
Local Open Scope N_scope.

(* Two messages mention the same identifier, in Message-ID, In-Reply-To or References. *)
Definition mention_same (db : database) (i j : N) : Prop :=
  exists w m0 m1 xs, In (w, (m0, m1)) (entries (d_ids db)) /\ lists m0 xs /\ In i xs /\ In j xs.
Definition connected (db : database) : N -> N -> Prop := clos_refl_sym_trans N (mention_same db).
Definition thread_of (db : database) (i t : N) : Prop := exists m, nth_error (msgs db) (N.to_nat i) = Some m /\ tid m = t.
(* Everything but the thread numbers. *)
Definition same_but_threads (db db' : database) : Prop :=
  mboxen db' = mboxen db /\ hash_key db' = hash_key db /\ tabs db' = tabs db /\ d_ids db' = d_ids db /\
  Forall2 (fun a b => src b = src a /\ date b = date a /\ seen b = seen a /\ replied b = replied a /\ flagged b = flagged a) (msgs db) (msgs db').
