(* What the lock should guarantee. *)
From Verif Require Import Base M_Lock.
Local Open Scope N_scope.

Definition past_lock (s : state) (p : N) : Prop := at_pc s p = Inside.
(* Nobody uses --unlock, and no process is interrupted by a signal. *)
Definition unforced (tr : list event) : Prop := forall p, ~ In (E_force p true) tr.
Definition unsignalled (tr : list event) : Prop := forall p, ~ In (E_signal p) tr.
(* Signals only hit processes that have not started on the lock or are past it. *)
Definition no_signal_waiting (s0 : state) (tr : list event) : Prop :=
  forall tr1 p tr2 s, tr = tr1 ++ E_signal p :: tr2 -> run s0 tr1 = Some s -> at_pc s p = Start \/ past_lock s p.
(* Whoever tries to read the lock file finds it there and readable. *)
Definition lock_found (s0 : state) (tr : list event) : Prop :=
  forall tr1 p r tr2 s, tr = tr1 ++ E_open p r :: tr2 -> run s0 tr1 = Some s -> r = true /\ lock s <> None.
