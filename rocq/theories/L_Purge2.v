(* Purging a whole index; threads of a whole index. *)
From Coq Require Import Sorted Relations.
From Verif Require Import Base M_Encoding M_TokTable S_TokTable M_DbFile S_DbFile S_Search M_Thread S_Thread L_Thread M_Purge S_Purge L_TokTable2 L_DbFile6 L_Purge.
Local Open Scope N_scope.

Lemma mailed_boxed hashf db : db_ok hashf db -> mailed db -> Forall (boxed (mboxen db)) (filter is_live (msgs db)).
Proof.
  intros OK HM. apply Forall_forall. intros m I fi mi E. apply filter_In in I as [I _]. destruct (ok_places _ _ OK m fi mi I E) as (mb & _ & _ & EN & _).
  exists mb. split; [exact EN|]. specialize (HM m fi mi mb I E EN). unfold has_path. now destruct (mb_path mb).
Qed.
Lemma live_src m : is_live m = true <-> src m <> S_dead.
Proof. unfold is_live. destruct (src m); split; congruence. Qed.
Lemma move_same db db' m : boxed (mboxen db) m -> mboxen db' = filter has_path (mboxen db) -> same_message db db' m (move_box (mboxen db) m).
Proof.
  intros B E. unfold same_message, move_box. destruct (src m) as [| | |fi mi] eqn:ES; rewrite ?ES; cbn [with_src date tid seen replied flagged src]; repeat (split; [reflexivity|]); try reflexivity.
  destruct (B fi mi ES) as (mb & EN & HP). exists (box_number (mboxen db) fi), mb. split; [reflexivity|]. split; [exact EN|]. rewrite E. now apply nth_filter.
Qed.
Lemma purge_ok hashf db checks idx : db_ok hashf db -> n_msgs db <= 63 * 2 ^ 24 -> mailed db ->
  (checks = true -> NoDup (file_paths db) /\ NoDup (imap_paths db)) ->
  exists db' bound, (forall fuel, (bound <= fuel)%nat -> cull_dead_messages fuel checks idx db = Ok (negb (forallb is_live (msgs db)), db')) /\
    db_ok hashf db' /\ purged db db' /\ mailed db' /\ Forall (fun m => src m <> S_dead) (msgs db').
Proof.
  intros OK HN HM HC. set (live := map is_live (msgs db)).
  assert (EL : N.of_nat (length live) = n_msgs db) by (unfold live, n_msgs; now rewrite map_length).
  assert (HT : forall t, In t (tabs db) -> tab_ok (hashf (hash_key db)) (N.of_nat (length live)) t) by (intros t It; rewrite EL; exact (ok_tabs _ _ OK t It)).
  assert (HI : tab2_ok (hashf (hash_key db)) (N.of_nat (length live)) (d_ids db)) by (rewrite EL; exact (ok_ids _ _ OK)).
  assert (HN' : N.of_nat (length live) <= 63 * 2 ^ 24) by now rewrite EL.
  unfold tabs in HT.
  destruct (purge_one _ live (d_to db) (HT (d_to db) ltac:(cbn; tauto)) HN') as (t1 & b1 & E1 & K1 & R1).
  destruct (purge_one _ live (d_cc db) (HT (d_cc db) ltac:(cbn; tauto)) HN') as (t2 & b2 & E2 & K2 & R2).
  destruct (purge_one _ live (d_from db) (HT (d_from db) ltac:(cbn; tauto)) HN') as (t3 & b3 & E3 & K3 & R3).
  destruct (purge_one _ live (d_subject db) (HT (d_subject db) ltac:(cbn; tauto)) HN') as (t4 & b4 & E4 & K4 & R4).
  destruct (purge_one _ live (d_body db) (HT (d_body db) ltac:(cbn; tauto)) HN') as (t5 & b5 & E5 & K5 & R5).
  destruct (purge_one _ live (d_att db) (HT (d_att db) ltac:(cbn; tauto)) HN') as (t6 & b6 & E6 & K6 & R6).
  destruct (purge_two _ live (d_ids db) HI HN') as (t7 & b7 & E7 & K7 & R7); [intros w m0 m1 xs ys; eapply ids_incl; exact (proj1 HI)|].
  set (db1 := {| msgs := filter is_live (msgs db); mboxen := mboxen db; hash_key := hash_key db; d_to := t1; d_cc := t2; d_from := t3; d_subject := t4; d_body := t5; d_att := t6; d_ids := t7 |}).
  pose proof (mailed_boxed hashf db OK HM) as HB. pose proof (cull_boxes_ok db1 HB) as EC. cbn [db1 msgs mboxen] in EC.
  set (db2 := with_boxes db1 (map (move_box (mboxen db)) (filter is_live (msgs db))) (filter has_path (mboxen db))) in *.
  exists db2, (b1 + b2 + b3 + b4 + b5 + b6 + b7)%nat.
  assert (CNT : n_msgs db2 = count live) by (unfold n_msgs, live; cbn [db2 with_boxes msgs]; now rewrite map_length, count_filter).
  split; [|split; [|split; [|split]]].
  - intros fuel HF. unfold cull_dead_messages. fold live.
    assert (EI : (if checks then check_database_integrity idx db else Ok tt) = Ok tt).
    { destruct checks; [|reflexivity]. destruct (HC eq_refl). now apply (integrity_accepts hashf). }
    rewrite EI, (E1 fuel), (E2 fuel), (E3 fuel), (E4 fuel), (E5 fuel), (E6 fuel), (E7 fuel) by lia. cbn [bind]. unfold db1 in EC. rewrite EC. reflexivity.
  - constructor; cbn [db2 with_boxes db1 hash_key msgs mboxen d_ids].
    + exact (ok_key _ _ OK).
    + apply Forall_map. apply Forall_forall. intros m I. apply filter_In in I as [I _]. pose proof (ok_msgs _ _ OK) as F. rewrite Forall_forall in F. specialize (F m I).
      unfold move_box, msg_storable in *. destruct (src m) eqn:E; rewrite ?E; try exact F. cbn [with_src src date tid]. destruct F as (F1 & F2 & F3). split; [intros _; apply F1; discriminate|auto].
    + pose proof (ok_mboxen _ _ OK) as F. apply Forall_forall. intros mb I. apply filter_In in I as [I _]. rewrite Forall_forall in F. auto.
    + intros b. destruct (N.lt_ge_cases b (count (map has_path (mboxen db)))) as [L|L].
      * destruct (new_number_onto _ _ L) as (b0 & A & <- & _). destruct (ok_order _ _ OK b0) as (k & EK). exists k. rewrite <- EK, <- (run_live b0 (msgs db)). now apply run_move.
      * exists 0%nat. now apply run_none.
    + intros m' fi mi I ES. apply in_map_iff in I as (m & <- & I). rewrite Forall_forall in HB. specialize (HB m I). apply filter_In in I as [I _].
      unfold move_box in ES. destruct (src m) as [| | |fi0 mi0] eqn:E0; rewrite ?E0 in ES; try discriminate. cbn [with_src src] in ES. injection ES as <- <-.
      destruct (HB fi0 mi0 E0) as (mb & EN & HP). destruct (ok_places _ _ OK m fi0 mi0 I E0) as (mb' & st & ln & EN' & X). assert (mb' = mb) by congruence. subst mb'.
      exists mb, st, ln. split; [now apply nth_filter|exact X].
    + intros t It. change (tab_ok (hashf (hash_key db)) (n_msgs db2) t). rewrite CNT. unfold tabs in It. cbn [with_boxes db1 d_to d_cc d_from d_subject d_body d_att] in It.
      destruct It as [<-|[<-|[<-|[<-|[<-|[<-|[]]]]]]]; assumption.
    + change (tab2_ok (hashf (hash_key db)) (n_msgs db2) t7). rewrite CNT. exact K7.
  - constructor.
    + reflexivity.
    + exact CNT.
    + intros i m E L. exists (move_box (mboxen db) m). apply live_src in L. split.
      * unfold message. cbn [db2 with_boxes msgs]. apply map_nth_error. apply nth_filter; assumption.
      * apply move_same; [|reflexivity]. rewrite Forall_forall in HB. apply HB. apply filter_In. split; [eapply nth_error_In; exact E|exact L].
    + intros k m' E. assert (L : k < count live). { rewrite <- CNT. unfold n_msgs, message in *. assert (N.to_nat k < length (msgs db2))%nat by (apply nth_error_Some; congruence). lia. }
      destruct (new_number_onto _ _ L) as (i & A & EK & _). unfold live in A. apply alive_nth in A as (m & EM & LM). exists i, m. split; [exact EM|]. split; [now apply live_src|now rewrite <- EK].
    + reflexivity.
    + intros p. destruct p; [exact R1|exact R2|exact R3|exact R4|exact R5|exact R6].
    + exact R7.
  - intros m fi mi mb I E EN HP. cbn [db2 with_boxes mboxen] in EN. apply nth_error_In in EN. apply filter_In in EN as [_ EN]. unfold has_path in EN. rewrite HP in EN. discriminate.
  - cbn [db2 with_boxes msgs]. apply Forall_map. apply Forall_forall. intros m I. apply filter_In in I as [_ I]. apply live_src in I. unfold move_box. destruct (src m) eqn:E; rewrite ?E; try congruence; discriminate.
Qed.

(* threads *)
Lemma ids_below_ok hashf db : db_ok hashf db -> ids_below db.
Proof. intros OK w m0 m1 I. destruct (proj2 (ok_ids _ _ OK) w m0 m1 I) as (_ & xs & ys & LX & _ & _ & F & _). eauto. Qed.
Lemma thread_main db : ids_below db -> exists db',
  find_threading db = Ok db' /\ same_but_threads db db' /\
  (forall i j a b, message db' i = Some a -> message db' j = Some b -> tid a = tid b <-> connected db i j) /\
  (forall a, In a (msgs db') -> tid a < n_msgs db') /\
  (forall a t, In a (msgs db') -> t <= tid a -> exists b, In b (msgs db') /\ tid b = t).
Proof.
  intros HB. destruct (threading_ok db HB) as (tids & next & E & LT & LN & HU & HA & HC). eexists. split; [exact E|].
  assert (G : forall i a, message (with_msgs db (set_tids (msgs db) tids)) i = Some a -> exists m, nth_error (msgs db) (N.to_nat i) = Some m /\ nth_error tids (N.to_nat i) = Some (tid a) /\ a = with_tid m (tid a)).
  { intros i a Ea. unfold message in Ea. cbn [with_msgs msgs] in Ea.
    assert (L : (N.to_nat i < length (msgs db))%nat) by (rewrite <- (length_set_tids (msgs db) tids); apply nth_error_Some; congruence).
    destruct (nth_error (msgs db) (N.to_nat i)) as [m|] eqn:EM; [|apply nth_error_None in EM; lia].
    destruct (nth_set_tids _ tids _ m LT EM) as (t & ET & ES). rewrite ES in Ea. injection Ea as <-. exists m. auto. }
  split; [|split; [|split]].
  - repeat (split; [reflexivity|]). apply set_tids_rest.
  - intros i j a b Ea Eb. apply G in Ea as (_ & _ & Ta & _). apply G in Eb as (_ & _ & Tb & _). rewrite (HC _ _ _ _ Ta Tb). unfold rel. now rewrite !N2Nat.id.
  - intros a I. apply In_nth_error in I as (i & Ei). destruct (G (N.of_nat i) a) as (_ & _ & T & _); [unfold message; now rewrite Nat2N.id|].
    apply HU in T. unfold n_msgs in *. cbn [with_msgs msgs]. rewrite length_set_tids. lia.
  - intros a t I LE. apply In_nth_error in I as (i & Ei). destruct (G (N.of_nat i) a) as (_ & _ & T & _); [unfold message; now rewrite Nat2N.id|].
    apply HU in T. destruct (HA t) as (j & Ej); [lia|]. assert (L : (j < length (msgs db))%nat) by (rewrite <- LT; apply nth_error_Some; congruence).
    destruct (nth_error (msgs db) j) as [m|] eqn:EM; [|apply nth_error_None in EM; lia]. destruct (nth_set_tids _ tids _ m LT EM) as (t' & ET & ES).
    exists (with_tid m t'). split; [eapply nth_error_In; exact ES|]. cbn [with_tid tid]. congruence.
Qed.
