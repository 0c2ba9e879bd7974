(* Threads and searching together; examples for threads and purging. *)
From Coq Require Import Sorted Relations.
From Verif Require Import Base M_Encoding M_TokTable S_TokTable M_DbFile S_DbFile S_Match M_Search S_Search M_Thread S_Thread L_Thread M_Purge S_Purge
  L_DbFile5 L_DbFile6 L_DbFile7 L_Search5 L_Search6 L_Purge L_Purge2.
Local Open Scope N_scope.

Lemma run_of_src b (ms ms' : list msg) : map src ms' = map src ms -> run_of b ms' = run_of b ms.
Proof.
  unfold run_of. revert ms'. induction ms as [|m ms IH]; intros [|m' ms'] H; try discriminate; [reflexivity|]. cbn in *. injection H as -> H. now rewrite (IH ms' H).
Qed.
Lemma threaded_ok hashf db db' : db_ok hashf db -> n_msgs db <= 2 ^ 32 -> same_but_threads db db' -> (forall a, In a (msgs db') -> tid a < n_msgs db') -> db_ok hashf db'.
Proof.
  intros OK HN (E1 & E2 & E3 & E4 & HF) HT.
  assert (L : n_msgs db' = n_msgs db) by (unfold n_msgs; f_equal; clear - HF; induction HF; cbn; congruence).
  assert (ES : map src (msgs db') = map src (msgs db)) by (clear - HF; induction HF as [|a b l l' (X & _) _ IH]; [reflexivity|]; cbn; now rewrite X, IH).
  constructor; rewrite ?E1, ?E2, ?E3, ?E4, ?L.
  - exact (ok_key _ _ OK).
  - pose proof (ok_msgs _ _ OK) as F. rewrite L in HT. assert (Q : forall a, In a (msgs db') -> word (tid a)) by (intros a I; specialize (HT a I); unfold word; lia).
    clear - HF F Q. induction HF as [|a b l l' (X1 & X2 & _) _ IH]; constructor.
    + inversion F as [|? ? (F1 & _ & F3) _]; subst. split; [now rewrite X1, X2|]. split; [apply Q; now left|]. now rewrite X1.
    + inversion F; subst. apply IH; auto. intros c I. apply Q. now right.
  - exact (ok_mboxen _ _ OK).
  - intros b. rewrite (run_of_src b (msgs db)) by exact ES. apply (ok_order _ _ OK).
  - intros m fi mi I EM. assert (IS : In (S_mbox fi mi) (map src (msgs db))) by (rewrite <- ES, <- EM; now apply in_map). apply in_map_iff in IS as (m0 & EM0 & I0). exact (ok_places _ _ OK m0 fi mi I0 EM0).
  - exact (ok_tabs _ _ OK).
  - exact (ok_ids _ _ OK).
Qed.
Lemma threads_found sd hashf db db' old F r args : db_ok hashf db -> n_msgs db <= 2 ^ 32 -> find_threading db = Ok db' ->
  write_database db' old = Ok F -> open_db F = Ok r -> Forall (arg_ok sd db') args ->
  (forall i, i < n_msgs db' -> live db' i) \/ Forall any_message args ->
  exists l, search sd F r true (map show_arg args) = Ok l /\
    forall i, In i l <-> live db' i /\ exists j, connected db i j /\ j < n_msgs db' /\ Forall (fun a => arg_sat sd db' a j) args.
Proof.
  intros OK HN EF EW EO HA HL. destruct (thread_main db (ids_below_ok hashf db OK)) as (db1 & E1 & HS & HC & HT & _). rewrite EF in E1. injection E1 as <-.
  pose proof (threaded_ok hashf db db' OK HN HS HT) as OK'. destruct (threads_main sd hashf db' old F r args OK' EW EO HA HT HL) as (l & E & IN).
  exists l. split; [exact E|]. intros i. rewrite IN. split; intros (LV & j & X).
  - destruct X as ((a & b & Ea & Eb & ET) & S). split; [exact LV|]. exists j. split; [now apply (HC i j a b)|]. split; [|exact S].
    unfold message, n_msgs in *. assert (N.to_nat j < length (msgs db'))%nat by (apply nth_error_Some; congruence). lia.
  - destruct X as (C & LJ & S). split; [exact LV|]. exists j. split; [|exact S]. destruct LV as (a & Ea & _).
    destruct (nth_error (msgs db') (N.to_nat j)) as [b|] eqn:Eb; [|apply nth_error_None in Eb; unfold n_msgs in LJ; lia]. exists a, b. split; [exact Ea|]. split; [exact Eb|]. now apply (HC i j a b).
Qed.

(* Five messages: 3 answers 0, 4 quotes 3 and 1; 2 stands alone. *)
Definition th_db := mk_db 0
  [mk_msg (S_file (bs "/m/new/1") 1 10) 100 9; mk_msg (S_file (bs "/m/new/2") 1 10) 100 9; mk_msg (S_file (bs "/m/new/3") 1 10) 100 9;
   mk_msg (S_file (bs "/m/new/4") 1 10) 100 9; mk_msg (S_file (bs "/m/new/5") 1 10) 100 9]
  [] [(bs "alice", 0); (bs "bob", 2)] [(bs "hello", 0); (bs "bye", 4)]
  [(bs "a@x", (0, true)); (bs "b@x", (1, true)); (bs "c@x", (2, true)); (bs "d@x", (3, true)); (bs "a@x", (3, false)); (bs "e@x", (4, true)); (bs "d@x", (4, false)); (bs "b@x", (4, false))].
Lemma th_db_ok : db_ok ex_h th_db.
Proof.
  apply mk_db_ok.
  - now vm_compute.
  - repeat constructor; cbn; try (now vm_compute); apply c_stringb_ok; now vm_compute.
  - constructor.
  - intros b. exists 0%nat. reflexivity.
  - intros m fi mi I E. repeat (destruct I as [<-|I]; [discriminate E|]). destruct I.
  - now vm_compute.
Qed.
Definition ok_or {A} (d : A) (r : res A) : A := match r with Ok a => a | Err _ => d end.
Definition th_db' := ok_or th_db (find_threading th_db).
(* After message 0 has gone and a purge. *)
Definition th_dead (db : database) : database := with_msgs db (match msgs db with m :: ms => with_src m S_dead :: ms | [] => [] end).
Definition two_db := mk_db 0 [mk_msg (S_file (bs "/m/a") 1 10) 3 9; mk_msg (S_file (bs "/m/b") 1 10) 3 9] []
  [(bs "bob", 0); (bs "alice", 1)] [(bs "first", 1)] [(bs "a@x", (0, true)); (bs "b@x", (1, true))].
Lemma two_db_ok : db_ok ex_h two_db.
Proof.
  apply mk_db_ok.
  - now vm_compute.
  - repeat constructor; cbn; try (now vm_compute); apply c_stringb_ok; now vm_compute.
  - constructor.
  - intros b. exists 0%nat. reflexivity.
  - intros m fi mi I E. repeat (destruct I as [<-|I]; [discriminate E|]). destruct I.
  - now vm_compute.
Qed.
Definition two_threaded := ok_or two_db (find_threading two_db).
Definition two_culled := snd (ok_or (false, two_db) (cull_dead_messages 2000 true 0 (th_dead two_threaded))).
Lemma purge_breaks_threads : exists db0 db1 db2 F r, db_ok ex_h db0 /\ find_threading db0 = Ok db1 /\
  cull_dead_messages 2000 true 0 (th_dead db1) = Ok (true, db2) /\ write_database db2 [] = Ok F /\ open_db F = Ok r /\
  search no_dates F r false [bs "alice"] = Ok [0] /\ search no_dates F r true [bs "alice"] = Err E_oob.
Proof.
  exists two_db, two_threaded, two_culled, (file_of two_culled), (exp_db two_culled).
  split; [exact two_db_ok|]. split; [now vm_compute|]. split; [now vm_compute|]. split; [now vm_compute|]. split; [now vm_compute|]. split; now vm_compute.
Qed.
Lemma ex_db_mailed : mailed ex_db.
Proof.
  intros m fi mi mb I E EN. cbn in I. repeat (destruct I as [<-|I]; [try discriminate E; injection E as <- <-; cbn in EN; injection EN as <-; discriminate|]). destruct I.
Qed.
