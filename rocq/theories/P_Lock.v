(* The lock: C36, C71, C72. *)
From Verif Require Import Base M_Lock S_Lock L_Lock.
Local Open Scope N_scope.

(* C36, when whoever tries to read the lock file finds it, and signals do not hit processes that are
   waiting for the lock: at most one process is past the lock, whatever the schedule. *)
Theorem C36_exclusion_partial : forall tr s p q, run init tr = Some s -> unforced tr -> no_signal_waiting init tr -> lock_found init tr ->
  past_lock s p -> past_lock s q -> p = q.
Proof. exact one_inside. Qed.
Print Assumptions C36_exclusion_partial.
(* C36 as stated is violated: the holder releases between another's failed link and its reading of the
   lock file. *)
Theorem C36_race_refuted : exists s, run init race = Some s /\ unforced race /\ unsignalled race /\ past_lock s 2 /\ past_lock s 3.
Proof. exact race_two. Qed.
Print Assumptions C36_race_refuted.
(* And interrupting a process that does not hold the lock removes the lock of the one that does. *)
Theorem C36_signal_refuted : exists s, run init interrupt = Some s /\ unforced interrupt /\ lock_found init interrupt /\ past_lock s 1 /\ past_lock s 3.
Proof. exact interrupt_two. Qed.
Print Assumptions C36_signal_refuted.

(* C71.  If a process is killed while past the lock, the lock stays and nobody gets past it (until
   --unlock is used), under the conditions above. *)
Theorem C71_left_behind_partial : forall tr s p tr' s', run init tr = Some s -> past_lock s p -> run init (tr ++ E_kill p :: tr') = Some s' ->
  unforced (tr ++ E_kill p :: tr') -> no_signal_waiting init (tr ++ E_kill p :: tr') -> lock_found init (tr ++ E_kill p :: tr') ->
  lock s' = Some p /\ forall q, ~ past_lock s' q.
Proof. exact left_behind. Qed.
Print Assumptions C71_left_behind_partial.

(* C72.  A process that finds no lock and is left alone gets it, even if the answer to link() is lost. *)
Theorem C72_alone : forall s p forced, at_pc s p = Start -> lock s = None ->
  (exists t, run s [E_name p; E_force p forced; E_make p; E_link p true; E_clean p] = Some t /\ past_lock t p /\ lock t = Some p) /\
  (exists t, run s [E_name p; E_force p forced; E_make p; E_link p false; E_stat p; E_clean p] = Some t /\ past_lock t p /\ lock t = Some p).
Proof. exact alone. Qed.
Print Assumptions C72_alone.

Example C36_hypotheses : unforced polite /\ no_signal_waiting init polite /\ lock_found init polite /\
  option_map (fun s => (at_pc s 1, at_pc s 2, at_pc s 3, at_pc s 4, lock s)) (run init polite) = Some (Over, Over, Inside, Counted, Some 3).
Proof.
  split; [intros p H; cbn in H; intuition discriminate|]. split; [apply fineb_ok; vm_compute; reflexivity|].
  split; [apply fineb_ok; vm_compute; reflexivity|vm_compute; reflexivity].
Qed.
Example C71_hypotheses : killed = enter 1 ++ E_kill 1 :: try 2 ++ [E_open 2 true; E_refuse 2] /\
  option_map (fun s => at_pc s 1) (run init (enter 1)) = Some Inside /\ unforced killed /\ no_signal_waiting init killed /\ lock_found init killed /\
  option_map (fun s => (at_pc s 1, at_pc s 2, lock s)) (run init killed) = Some (Over, Over, Some 1).
Proof.
  split; [reflexivity|]. split; [vm_compute; reflexivity|]. split; [intros p H; cbn in H; intuition discriminate|].
  split; [apply fineb_ok; vm_compute; reflexivity|]. split; [apply fineb_ok; vm_compute; reflexivity|vm_compute; reflexivity].
Qed.
