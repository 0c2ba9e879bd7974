(* An indexing run as a whole. *)
From Coq Require Import Permutation Sorted.
From Verif Require Import Base M_Encoding M_TokTable S_TokTable M_DbFile S_DbFile M_Search S_Search M_Thread S_Thread M_Purge S_Purge M_Tokens S_Tokens M_Mbox S_Mbox M_Update S_Update
  L_Thread L_DbFile5 L_Purge L_Thread2 L_Update L_Update2 L_Update3 L_Update4 L_Update5 L_Update6.
From Verif Require M_Paths.
Local Open Scope N_scope.

Definition any_chunks (boxes : list (mbox * scan)) : bool := existsb (fun b => match new_msgs (snd b) with [] => false | _ => true end) boxes.
Lemma no_chunks W n0 fi boxes mbs more : adds W n0 fi boxes mbs more -> any_chunks boxes = false -> more = [] /\ mbs = map fst boxes.
Proof.
  induction 1 as [|n0 fi mb s bs mb' mbs part more B A IH]; [auto|]. unfold any_chunks. cbn [existsb snd]. rewrite orb_false_iff. intros [H1 H2].
  destruct (IH H2) as [-> ->]. destruct (bp_same _ _ _ _ _ _ _ B) as [-> ->]; [destruct (new_msgs s); [reflexivity|discriminate]|]. auto.
Qed.

Definition learnt (W : world) (n0 : N) (added more : list msg) (mbs : list mbox) (x : N) (r : rfc822) : Prop :=
  (exists m, n0 <= x /\ nth_error added (N.to_nat (x - n0)) = Some m /\ parsed W m = Some r) \/
  (exists k m mb fi mi, nth_error more k = Some m /\ x = n0 + N.of_nat (length added) + N.of_nat k /\
      src m = S_mbox fi mi /\ nth_error mbs (N.to_nat fi) = Some mb /\ place_says W mb mi r).

Record steps (W : world) (fast : bool) (sp : list found) (boxes : list (mbox * scan)) (db : database)
    (in_db : list bool) (pruned : bool) (old added more : list msg) (mbs : list mbox) (db3 : database) : Prop := {
  st_len : length in_db = length sp;
  st_in_db : forall k x, nth_error sp k = Some x -> nth_error in_db k = Some true <-> exists m, In m (msgs db) /\ agrees W fast m x;
  st_pruned : pruned = true <-> exists m, In m (msgs db) /\ ~ kept W fast sp boxes m;
  st_old : Forall2 (weeded W fast sp boxes) (msgs db) old;
  st_added : added = new_entries W sp in_db;
  st_adds : adds W (n_msgs db + N.of_nat (length added)) 0 boxes mbs more;
  st_count : (length more <= chunk_count boxes)%nat;
  st_msgs : msgs db3 = old ++ map (scanned W) added ++ more;
  st_boxes : mboxen db3 = mbs;
  st_tabs : tabs_good W (n_msgs db3) db3;
  st_learns : learns W db db3 (learnt W (n_msgs db) added more mbs) }.

Lemma existsb_negb l : existsb negb l = false -> forall k, (k < length l)%nat -> nth_error l k = Some true.
Proof.
  induction l as [|b l IH]; intros H k L; [cbn in L; lia|]. cbn in H. apply orb_false_iff in H as [H1 H2]. destruct k as [|k]; cbn in *; [destruct b; [reflexivity|discriminate]|apply IH; [exact H2|lia]].
Qed.
Lemma table_with_boxes db ms bs p : table (with_boxes db ms bs) p = table db p.
Proof. destruct p; reflexivity. Qed.

Lemma update_steps W fast sp boxes db : world_ok W -> StronglySorted before sp -> tabs_good W (n_msgs db) db ->
  Forall (fun b => scan_ok W (fst b) (snd b)) boxes ->
  (forall m fi mi, In m (msgs db) -> src m = S_mbox fi mi -> nth_error boxes (N.to_nat fi) <> None) ->
  n_msgs db + N.of_nat (length sp) + N.of_nat (chunk_count boxes) <= 63 * 2 ^ 24 ->
  exists in_db pruned old added more mbs db3, steps W fast sp boxes db in_db pruned old added more mbs db3 /\
    update_database W fast sp boxes db =
      (let! db' := (if existsb negb in_db || any_chunks boxes then find_threading db3 else Ok db3) in
       Ok (existsb negb in_db || any_chunks boxes || pruned, db')) /\
    (existsb negb in_db || any_chunks boxes = false -> added = [] /\ more = []).
Proof.
  intros WO SS T SO BX SM. unfold update_database.
  destruct (mark_present_ok W fast sp SS (msgs db) (map (fun _ => false) sp)) as (in_db & in_new & E1 & L1 & F1 & K1); [now rewrite map_length|]. rewrite E1. cbn [bind].
  destruct (weed_ok W fast sp boxes (msgs db) in_new F1 BX) as (old & pr & E2 & F2 & PR). rewrite E2. cbn [bind].
  set (added := new_entries W sp in_db).
  assert (LO : length old = length (msgs db)) by (symmetry; eapply Forall2_len; exact F2).
  assert (LA : (length added <= length sp)%nat) by apply new_entries_le.
  assert (NA : existsb negb in_db = false -> added = []).
  { intros H. destruct added as [|m l] eqn:EA; [reflexivity|exfalso]. assert (I : In m added) by (rewrite EA; now left). apply new_entries_in in I as (k & x & mt & sz & A & B & _); [|exact L1].
    rewrite (existsb_negb in_db H k) in B; [discriminate|]. rewrite L1. apply nth_error_Some. congruence. }
  destruct (scan_new_ok W added WO old (n_msgs db) (with_msgs db (old ++ added))) as (db1 & E3 & T3 & B3 & M3 & L3).
  { unfold n_msgs. lia. } { now apply tabs_good_msgs. } { reflexivity. } { now apply new_entries_found. } { unfold n_msgs in SM. lia. }
  assert (EQ : (if existsb negb in_db then scan_new_messages W (length added) (n_msgs db) (with_msgs db (old ++ added)) else Ok (with_msgs db (old ++ added))) = Ok db1).
  { destruct (existsb negb in_db) eqn:EN; [unfold n_msgs; rewrite <- LO; exact E3|]. rewrite NA in E3 |- * by reflexivity. exact E3. }
  rewrite EQ. cbn [bind]. clear EQ E3.
  assert (N1 : n_msgs db1 = n_msgs db + N.of_nat (length added)) by (unfold n_msgs; rewrite M3, app_length, map_length; lia).
  destruct (add_boxes_ok W boxes WO SO 0 (n_msgs db1) db1) as (mbs & more & db2 & E4 & P4 & A4 & B4 & M4 & T4 & L4).
  { rewrite N1. unfold n_msgs. rewrite <- LO. replace (N.of_nat (length old) + N.of_nat (length added)) with (N.of_nat (length old + length added)) by lia. exact T3. }
  { lia. } { rewrite N1. lia. }
  unfold add_mbox_messages. rewrite E4. cbn [bind]. fold (any_chunks boxes).
  exists in_db, pr, old, added, more, mbs, (with_boxes db2 (msgs db2) mbs). split; [|split].
  - constructor; auto.
    + intros k x X. rewrite (K1 k x X). split; [|now right]. intros [H|H]; [|exact H]. apply nth_error_In in H. apply in_map_iff in H as (? & H & _). discriminate.
    + rewrite <- N1. exact A4.
    + cbn. rewrite M4, M3, <- app_assoc. reflexivity.
    + assert (EN : n_msgs (with_boxes db2 (msgs db2) mbs) = n_msgs db1 + N.of_nat (length more)) by (unfold n_msgs; cbn; rewrite M4, app_length; lia).
      rewrite EN. destruct T4 as [Ta Tb]. constructor; [intros p; rewrite table_with_boxes; apply Ta|exact Tb].
    + eapply learns_trans; [eapply learns_msgs; exact L3|eapply learns_trans; [exact L4|apply (learns_none W db2 (with_boxes db2 (msgs db2) mbs) (fun _ _ => False)); auto using table_with_boxes|]|].
      * intros x r. split; [intros H; left; exact H|intros [H|[]]; exact H].
      * cbv beta. intros x r. unfold learnt, n_msgs. rewrite LO. split; (intros [H|H]; [left|right]).
        -- destruct H as (m & A & B & C). exists m. split; [lia|]. split; [|exact C]. replace (N.to_nat (x - N.of_nat (length (msgs db)))) with (N.to_nat x - length (msgs db))%nat in B by lia. exact B.
        -- destruct H as (k & m & mb & fi & mi & Q1 & Q2 & Q3 & Q4 & Q5). exists k, m, (N.to_nat fi), mb, mi. split; [exact Q1|]. split; [fold (n_msgs db1); rewrite N1; unfold n_msgs; exact Q2|]. split; [exact Q4|]. split; [rewrite Q3; f_equal; lia|exact Q5].
        -- destruct H as (m & A & B & C). exists m. split; [lia|]. split; [|exact C]. replace (N.to_nat (x - N.of_nat (length (msgs db)))) with (N.to_nat x - length (msgs db))%nat by lia. exact B.
        -- destruct H as (k & m & t & mb & mi & Q1 & Q2 & Q3 & Q4 & Q5). exists k, m, mb, (N.of_nat t), mi. split; [exact Q1|]. split; [fold (n_msgs db1) in Q2; rewrite N1 in Q2; exact Q2|]. split; [rewrite Q4; f_equal; lia|]. split; [rewrite Nat2N.id; exact Q3|exact Q5].
  - reflexivity.
  - intros H. apply orb_false_iff in H as [H1 H2]. split; [auto|]. exact (proj1 (no_chunks _ _ _ _ _ _ A4 H2)).
Qed.
