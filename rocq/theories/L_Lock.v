(* Mutual exclusion when the lock file does not vanish at the wrong moment. *)
From Verif Require Import Base M_Lock S_Lock.
Local Open Scope N_scope.

Lemma run_app s a : forall b, run s (a ++ b) = match run s a with Some t => run t b | None => None end.
Proof. revert s. induction a as [|e a IH]; intros s b; [reflexivity|]. cbn [app run]. destruct (step s e); [apply IH|reflexivity]. Qed.

(* p believes it has the lock, and it does *)
Definition inv (s : state) : Prop :=
  (forall p, at_pc s p = Locked \/ at_pc s p = Inside -> lock s = Some p) /\
  (forall p, tmp s p = true -> at_pc s p <> Start /\ at_pc s p <> Named /\ at_pc s p <> Ready /\ at_pc s p <> Inside) /\
  (forall p, lock s = Some p -> at_pc s p = Locked \/ at_pc s p = Inside \/ at_pc s p = Over \/ (at_pc s p = Failed /\ tmp s p = true)) /\
  (forall p, at_pc s p = Failed \/ at_pc s p = Made -> tmp s p = true).
Lemma inv_init : inv init.
Proof.
  split; [|split; [|split]]; cbn; intros p H; try discriminate; destruct H; discriminate.
Qed.
Definition fine (s : state) (e : event) : Prop :=
  match e with
  | E_force _ b => b = false
  | E_signal p => at_pc s p = Start \/ at_pc s p = Inside
  | E_open _ r => r = true /\ lock s <> None
  | _ => True
  end.
Lemma nlink_two s p : nlink s p = 2 -> lock s = Some p.
Proof.
  unfold nlink. destruct (lock s) as [q|]; [|destruct (tmp s p); lia]. destruct (N.eqb_spec q p) as [->|_]; [reflexivity|]. destruct (tmp s p); lia.
Qed.
Lemma at_move s p c q : at_pc (move s p c) q = if q =? p then c else at_pc s q.
Proof. reflexivity. Qed.
Ltac fin I1 I2 I3 I4 p := split; [|split; [|split]]; cbn; intros q; destruct (N.eqb_spec q p) as [->|?]; intros Hq;
  pose proof (I1 p); pose proof (I2 p); pose proof (I3 p); pose proof (I4 p);
  try (pose proof (I1 q); pose proof (I2 q); pose proof (I3 q); pose proof (I4 q)); clear I1 I2 I3 I4; try solve [intuition congruence].
Lemma inv_step s e s' : inv s -> fine s e -> step s e = Some s' -> inv s'.
Proof.
  intros (I1 & I2 & I3 & I4) F H.
  assert (UN : forall p q, at_pc s p = Locked \/ at_pc s p = Inside -> at_pc s q = Locked \/ at_pc s q = Inside -> q = p).
  { intros p q A B. apply I1 in A, B. congruence. }
  destruct e as [p|p b|p|p b|p|p b|p|p|p|p|p]; cbn [step] in H.
  - destruct (at_pc s p) eqn:E; try discriminate. injection H as <-. fin I1 I2 I3 I4 p.
  - destruct (at_pc s p) eqn:E; try discriminate. cbn [fine] in F. subst b. injection H as <-. fin I1 I2 I3 I4 p.
  - destruct (at_pc s p) eqn:E; try discriminate. injection H as <-. fin I1 I2 I3 I4 p.
  - destruct (at_pc s p) eqn:E; try discriminate. assert (TP : tmp s p = true) by auto. destruct (lock s) as [h|] eqn:EL in H; injection H as <-.
    + fin I1 I2 I3 I4 p.
    + destruct b; fin I1 I2 I3 I4 p.
  - destruct (at_pc s p) eqn:E; try discriminate. assert (TP : tmp s p = true) by auto. injection H as <-.
    destruct (N.eqb_spec (nlink s p) 2) as [N2|N2].
    + apply nlink_two in N2. fin I1 I2 I3 I4 p.
    + assert (NL : lock s <> Some p) by (intros X; apply N2; unfold nlink; now rewrite TP, X, N.eqb_refl). fin I1 I2 I3 I4 p.
  - destruct (at_pc s p) eqn:E; try discriminate. destruct F as [-> F]. destruct (lock s) as [h|] eqn:EL in H; [|congruence]. injection H as <-. fin I1 I2 I3 I4 p.
  - destruct (at_pc s p) eqn:E; try discriminate. injection H as <-. fin I1 I2 I3 I4 p.
  - destruct (at_pc s p) eqn:E; try discriminate. injection H as <-. fin I1 I2 I3 I4 p.
  - destruct (at_pc s p) eqn:E; try discriminate. injection H as <-. fin I1 I2 I3 I4 p.
  - destruct F as [F|F]; rewrite F in H; injection H as <-; fin I1 I2 I3 I4 p.
  - destruct (at_pc s p) eqn:E; try discriminate; injection H as <-; fin I1 I2 I3 I4 p.
Qed.
Lemma inv_run : forall tr s s', inv s -> run s tr = Some s' -> unforced tr -> no_signal_waiting s tr -> lock_found s tr -> inv s'.
Proof.
  induction tr as [|e tr IH]; intros s s' I H U G L; cbn [run] in H; [now injection H as <-|].
  destruct (step s e) as [s1|] eqn:E; [|discriminate].
  assert (F : fine s e).
  { destruct e as [p|p b|p|p b|p|p b|p|p|p|p|p]; cbn [fine]; auto.
    - destruct b; [exfalso; apply (U p); now left|reflexivity].
    - apply (L [] p b tr s); reflexivity.
    - apply (G [] p tr s); reflexivity. }
  eapply (IH s1); [eapply inv_step; eassumption|exact H| | |].
  - intros p X. apply (U p). now right.
  - intros tr1 p tr2 t -> R. eapply (G (e :: tr1)); [reflexivity|]. cbn [run]. now rewrite E.
  - intros tr1 p r tr2 t -> R. eapply (L (e :: tr1)); [reflexivity|]. cbn [run]. now rewrite E.
Qed.
Lemma one_inside tr s p q : run init tr = Some s -> unforced tr -> no_signal_waiting init tr -> lock_found init tr ->
  past_lock s p -> past_lock s q -> p = q.
Proof.
  intros H U G L A B. destruct (inv_run _ _ _ inv_init H U G L) as (I1 & _). pose proof (I1 p (or_intror A)). pose proof (I1 q (or_intror B)). congruence.
Qed.

(* a lock left behind *)
Lemma stuck_step s e s' p : inv s -> fine s e -> lock s = Some p -> at_pc s p = Over -> step s e = Some s' -> lock s' = Some p /\ at_pc s' p = Over.
Proof.
  intros (I1 & _) F L A H.
  assert (G : forall q c, at_pc s q <> Over -> lock (move s q c) = Some p /\ at_pc (move s q c) p = Over).
  { intros q c N. split; [exact L|]. rewrite at_move. destruct (N.eqb_spec p q) as [->|_]; congruence. }
  destruct e as [q|q b|q|q b|q|q b|q|q|q|q|q]; cbn [step] in H; try (destruct (at_pc s q) eqn:E; try discriminate H);
    try (injection H as <-; first [apply G; congruence | apply (G q); congruence]).
  - cbn [fine] in F. subst b. injection H as <-. apply G. congruence.
  - rewrite L in H. injection H as <-. apply G. congruence.
  - exfalso. assert (lock s = Some q) by auto. congruence.
  - exfalso. destruct F; congruence.
  - exfalso. destruct F; congruence.
  - exfalso. destruct F; congruence.
  - exfalso. destruct F; congruence.
  - exfalso. destruct F; congruence.
  - exfalso. destruct F; congruence.
  - exfalso. destruct F; congruence.
  - exfalso. assert (lock s = Some q) by auto. congruence.
Qed.
Lemma fine_of s e tr : unforced (e :: tr) -> no_signal_waiting s (e :: tr) -> lock_found s (e :: tr) -> fine s e.
Proof.
  intros U G L. destruct e as [p|p b|p|p b|p|p b|p|p|p|p|p]; cbn [fine]; auto.
  - destruct b; [exfalso; apply (U p); now left|reflexivity].
  - apply (L [] p b tr s); reflexivity.
  - apply (G [] p tr s); reflexivity.
Qed.
Lemma stuck_run p : forall tr s s', inv s -> lock s = Some p -> at_pc s p = Over -> run s tr = Some s' -> unforced tr -> no_signal_waiting s tr -> lock_found s tr ->
  lock s' = Some p /\ forall q, ~ past_lock s' q.
Proof.
  induction tr as [|e tr IH]; intros s s' I L A H U G W; cbn [run] in H.
  - injection H as <-. split; [exact L|]. intros q Q. destruct I as (I1 & _). assert (lock s = Some q) by auto. unfold past_lock in Q. congruence.
  - destruct (step s e) as [s1|] eqn:E; [|discriminate]. pose proof (fine_of _ _ _ U G W) as F. destruct (stuck_step _ _ _ _ I F L A E) as [L1 A1].
    eapply (IH s1); [eapply inv_step; eassumption|exact L1|exact A1|exact H| | |].
    + intros q X. apply (U q). now right.
    + intros tr1 q tr2 t -> R. eapply (G (e :: tr1)); [reflexivity|]. cbn [run]. now rewrite E.
    + intros tr1 q r tr2 t -> R. eapply (W (e :: tr1)); [reflexivity|]. cbn [run]. now rewrite E.
Qed.
Lemma unforced_app a b : unforced (a ++ b) -> unforced a /\ unforced b.
Proof. intros H. split; intros p X; apply (H p); apply in_app_iff; auto. Qed.
Lemma signal_app s a b t : no_signal_waiting s (a ++ b) -> run s a = Some t -> no_signal_waiting s a /\ no_signal_waiting t b.
Proof.
  intros H R. split.
  - intros tr1 p tr2 u -> R1. apply (H tr1 p (tr2 ++ b) u); [now rewrite <- app_assoc|exact R1].
  - intros tr1 p tr2 u -> R1. apply (H (a ++ tr1) p tr2 u); [now rewrite <- app_assoc|]. now rewrite run_app, R.
Qed.
Lemma found_app s a b t : lock_found s (a ++ b) -> run s a = Some t -> lock_found s a /\ lock_found t b.
Proof.
  intros H R. split.
  - intros tr1 p r tr2 u -> R1. apply (H tr1 p r (tr2 ++ b) u); [now rewrite <- app_assoc|exact R1].
  - intros tr1 p r tr2 u -> R1. apply (H (a ++ tr1) p r tr2 u); [now rewrite <- app_assoc|]. now rewrite run_app, R.
Qed.
Lemma left_behind tr s p tr' s' : run init tr = Some s -> past_lock s p -> run init (tr ++ E_kill p :: tr') = Some s' ->
  unforced (tr ++ E_kill p :: tr') -> no_signal_waiting init (tr ++ E_kill p :: tr') -> lock_found init (tr ++ E_kill p :: tr') ->
  lock s' = Some p /\ forall q, ~ past_lock s' q.
Proof.
  intros R P R' U G W. rewrite run_app, R in R'. apply unforced_app in U as [U1 U2]. destruct (signal_app _ _ _ _ G R) as [G1 G2]. destruct (found_app _ _ _ _ W R) as [W1 W2].
  pose proof (inv_run _ _ _ inv_init R U1 G1 W1) as I. cbn [run step] in R'. rewrite P in R'.
  assert (ES : step s (E_kill p) = Some (move s p Over)) by (cbn [step]; now rewrite P).
  eapply (stuck_run p); [eapply inv_step; [exact I| |exact ES]; exact Logic.I| | |exact R'| | |].
  - cbn. destruct I as (I1 & _). now apply I1, or_intror.
  - cbn. now rewrite N.eqb_refl.
  - intros q X. apply (U2 q). now right.
  - eapply (signal_app s [E_kill p] tr' _ G2). cbn [run]. now rewrite ES.
  - eapply (found_app s [E_kill p] tr' _ W2). cbn [run]. now rewrite ES.
Qed.

(* a process alone *)
Lemma pick_state (x : option state) (f : state -> Prop) : match x with Some s => f s | None => False end -> exists s, x = Some s /\ f s.
Proof. destruct x; [eauto|intros []]. Qed.
Lemma alone s p forced : at_pc s p = Start -> lock s = None ->
  (exists t, run s [E_name p; E_force p forced; E_make p; E_link p true; E_clean p] = Some t /\ past_lock t p /\ lock t = Some p) /\
  (exists t, run s [E_name p; E_force p forced; E_make p; E_link p false; E_stat p; E_clean p] = Some t /\ past_lock t p /\ lock t = Some p).
Proof.
  intros A L. unfold past_lock. split; apply (pick_state _ (fun t => at_pc t p = Inside /\ lock t = Some p));
    destruct forced; unfold nlink; cbn; rewrite A; cbn; repeat (rewrite ?N.eqb_refl, ?L; cbn); try (unfold nlink; cbn; repeat (rewrite ?N.eqb_refl; cbn)); auto.
Qed.
(* a lock that is there keeps others out *)
Definition enter p := [E_name p; E_force p false; E_make p; E_link p true; E_clean p].
Definition try p := [E_name p; E_force p false; E_make p; E_link p true; E_stat p].
Definition race := enter 1 ++ try 2 ++ [E_finish 1; E_open 2 true; E_clean 2] ++ enter 3.
Definition interrupt := enter 1 ++ [E_name 2; E_signal 2] ++ enter 3.
Definition polite := enter 1 ++ try 2 ++ [E_open 2 true; E_refuse 2; E_finish 1] ++ enter 3 ++ try 4.
Definition killed := enter 1 ++ [E_kill 1] ++ try 2 ++ [E_open 2 true; E_refuse 2].
Lemma race_two : exists s, run init race = Some s /\ unforced race /\ unsignalled race /\ past_lock s 2 /\ past_lock s 3.
Proof.
  destruct (pick_state (run init race) (fun s => at_pc s 2 = Inside /\ at_pc s 3 = Inside)) as (s & R & A & B); [vm_compute; auto|].
  exists s. split; [exact R|]. split; [intros p H; cbn in H; intuition discriminate|]. split; [intros p H; cbn in H; intuition discriminate|]. auto.
Qed.
Lemma interrupt_two : exists s, run init interrupt = Some s /\ unforced interrupt /\ lock_found init interrupt /\ past_lock s 1 /\ past_lock s 3.
Proof.
  destruct (pick_state (run init interrupt) (fun s => at_pc s 1 = Inside /\ at_pc s 3 = Inside)) as (s & R & A & B); [vm_compute; auto|].
  exists s. split; [exact R|]. split; [intros p H; cbn in H; intuition discriminate|]. split; [|auto].
  intros tr1 p r tr2 t E _. exfalso. assert (X : In (E_open p r) interrupt) by (rewrite E; apply in_app_iff; right; now left). cbn in X. intuition discriminate.
Qed.
(* the conditions, decided *)
Fixpoint fineb (s : state) (tr : list event) : bool :=
  match tr with
  | [] => true
  | e :: tr' => match e with
                | E_force _ b => negb b
                | E_signal p => match at_pc s p with Start | Inside => true | _ => false end
                | E_open _ r => r && match lock s with Some _ => true | None => false end
                | _ => true
                end && match step s e with Some s' => fineb s' tr' | None => true end
  end.
Lemma fineb_ok : forall tr s, fineb s tr = true -> no_signal_waiting s tr /\ lock_found s tr.
Proof.
  induction tr as [|e tr IH]; intros s H.
  - split; [intros [|x tr1] p tr2 t E|intros [|x tr1] p r tr2 t E]; discriminate.
  - cbn [fineb] in H. apply andb_true_iff in H as [H1 H2]. split.
    + intros [|x tr1] p tr2 t E R; injection E as -> ->.
      * cbn [run] in R. injection R as <-. unfold past_lock. destruct (at_pc s p); auto; discriminate.
      * cbn [run] in R. destruct (step s x) as [s1|]; [|discriminate]. apply (proj1 (IH s1 H2) tr1 p tr2 t eq_refl R).
    + intros [|x tr1] p r tr2 t E R; injection E as -> ->.
      * cbn [run] in R. injection R as <-. apply andb_true_iff in H1 as [-> H1]. split; [reflexivity|]. intros X. rewrite X in H1. discriminate.
      * cbn [run] in R. destruct (step s x) as [s1|]; [|discriminate]. apply (proj2 (IH s1 H2) tr1 p r tr2 t eq_refl R).
Qed.
