(* The property lemmas for C01-C04. *)
From Coq Require Import Sorted.
From Verif Require Import Base M_Encoding L_Bits L_Encoding S_Encoding.
Local Open Scope N_scope.

Lemma ascending_gaps xs : forall prev, ascending_within prev xs -> gaps_ok prev xs.
Proof.
  induction xs as [|x xs IH]; intros prev; cbn [ascending_within gaps_ok]; [tauto|].
  change (63 * 2 ^ 24) with 1056964608. unfold LIM. intros (A & B & C).
  split; [assumption|]. split; [lia|]. now apply IH.
Qed.

Lemma last_In {A} (l : list A) d : l <> [] -> In (last l d) l.
Proof.
  intros H. rewrite (app_removelast_last d H) at 2. apply in_app_iff. right. now left.
Qed.

Lemma record_read_roundtrip xs :
  ascending_within 0 xs -> Forall (fun x => x < 2 ^ 31) xs ->
  exists m ys, add_indices init_matches xs = Some m /\ distinct_in_order xs ys /\
    read_matches m = RA_ok ys (length (msginfo m)) /\
    (forall pre tail, read_list_at (pre ++ msginfo m ++ 255 :: tail) (length pre)
        = RA_ok ys (length pre + length (msginfo m))).
Proof.
  intros Ha Hb. apply ascending_gaps in Ha.
  destruct (add_indices_inv xs init_matches [] enc_inv_init Ha) as (m & H1 & H2).
  destruct (snoc_all_spec xs []) as [S1 S2]; [|assumption|].
  { intros i j a b _ Hx. destruct i; discriminate. }
  assert (SI : forall v, In v (snoc_all [] xs) <-> In v xs) by (intros v; rewrite S2; cbn; tauto).
  exists m, (snoc_all [] xs). split; [assumption|]. split; [split; [now apply ssorted_Strongly|assumption]|].
  apply enc_inv_read; [assumption|].
  destruct (snoc_all [] xs) as [|v vs] eqn:E; [now vm_compute|].
  assert (In (last (v :: vs) 0) xs) as HI by (apply SI; apply last_In; congruence).
  rewrite Forall_forall in Hb. specialize (Hb _ HI). cbv beta in Hb.
  eapply N.lt_trans; [exact Hb|]. now vm_compute.
Qed.

Lemma record_one_cases v :
  (v < 63 * 2 ^ 24 ->
     exists m, add_indices init_matches [v] = Some m /\ read_matches m = RA_ok [v] (length (msginfo m))) /\
  (63 * 2 ^ 24 <= v < 2 ^ 30 ->
     exists m, add_indices init_matches [v] = Some m /\ read_matches m = RA_ok [] 0) /\
  (2 ^ 30 <= v -> add_indices init_matches [v] = None).
Proof.
  split; [|split]; intros H.
  - assert (HA : gaps_ok 0 [v]).
    { cbn. unfold LIM. change (63 * 2 ^ 24) with 1056964608 in H. lia. }
    destruct (add_indices_inv [v] init_matches [] enc_inv_init HA) as (m & H1 & H2).
    exists m. split; [assumption|]. cbn in H2. apply enc_inv_read; [assumption|]. cbn.
    eapply N.lt_trans; [exact H|]. now vm_compute.
  - change (63 * 2 ^ 24) with 1056964608 in H. change (2 ^ 30) with 1073741824 in H.
    cbn [add_indices]. unfold add_index, check_and_enlarge, insert_index, init_matches, mn.
    cbn [msginfo mmax length]. change (0 <=? N.of_nat 0 + 4) with true. cbn [msginfo].
    change (N.of_nat 0 =? 0) with true. cbn iota.
    assert (HS : N.shiftr v 24 = 63).
    { rewrite shiftr_div. change (2 ^ 24) with 16777216. lia. }
    unfold insert_value. replace (v <=? 127) with false by (symmetry; apply N.leb_gt; lia).
    replace (v <=? 16383) with false by (symmetry; apply N.leb_gt; lia). rewrite HS.
    cbv zeta. change (63 <=? 63) with true. cbn iota. eexists; split; [reflexivity|].
    unfold read_matches. cbn [msginfo app length]. change (N.lor 63 192) with 255. reflexivity.
  - change (2 ^ 30) with 1073741824 in H.
    cbn [add_indices]. unfold add_index, check_and_enlarge, insert_index, init_matches, mn.
    cbn [msginfo mmax length]. change (0 <=? N.of_nat 0 + 4) with true. cbn [msginfo].
    change (N.of_nat 0 =? 0) with true. cbn iota.
    unfold insert_value. replace (v <=? 127) with false by (symmetry; apply N.leb_gt; lia).
    replace (v <=? 16383) with false by (symmetry; apply N.leb_gt; lia).
    cbv zeta. replace (N.shiftr v 24 <=? 63) with false; [reflexivity|].
    symmetry. apply N.leb_gt. rewrite shiftr_div. change (2 ^ 24) with 16777216. lia.
Qed.

Lemma accepted_but_lost :
  exists x m, add_indices init_matches [x] = Some m /\ read_matches m = RA_ok [] 0 /\
    (forall tail, read_list_at (msginfo m ++ 255 :: tail) 0 = RA_ok [] 0).
Proof.
  exists 1056964608. eexists. split; [vm_compute; reflexivity|]. split; [now vm_compute|].
  intros tail. unfold read_list_at. cbn [msginfo app length]. reflexivity.
Qed.

Lemma insert_appends m x m' : insert_index m x = Some m' ->
  exists w, msginfo m' = msginfo m ++ w /\ mmax m' = mmax m.
Proof.
  unfold insert_index. destruct (mn m =? 0).
  - destruct (insert_value x); [|discriminate]. intros [= <-]. eexists. split; reflexivity.
  - destruct (x <? highest m); [discriminate|]. destruct (highest m <? x).
    + destruct (insert_value _); [|discriminate]. intros [= <-]. eexists. split; reflexivity.
    + intros [= <-]. exists []. cbn. rewrite app_nil_r. split; reflexivity.
Qed.

Lemma record_in_bounds m0 xs m1 x m2 :
  (m0 = init_matches \/ exists garbage data off, copy_list garbage data off = Some m0) ->
  add_indices m0 xs = Some m1 -> add_index m1 x = Some m2 ->
  N.of_nat (length (msginfo m1)) <= mmax m1 /\
  exists written, msginfo m2 = msginfo m1 ++ written /\
     mmax m2 = mmax (check_and_enlarge m1) /\
     N.of_nat (length (msginfo m1) + length written) <= mmax m2.
Proof.
  intros H0 H1 H2.
  assert (C0 : cap_ok m0).
  { destruct H0 as [->|(g & d & o & H)]; [|eapply copy_list_cap; eassumption].
    unfold cap_ok, mn; cbn. lia. }
  pose proof (add_indices_cap _ _ _ C0 H1) as C1. split; [apply C1|].
  destruct (add_index_cap _ _ _ C1 H2) as [A [B _]].
  unfold add_index in H2. destruct (insert_appends _ _ _ H2) as (w & E1 & E2).
  rewrite (proj1 (check_and_enlarge_info m1)) in E1.
  exists w. split; [assumption|]. split; [assumption|]. rewrite E2. unfold mn in A. rewrite E1, app_length in A. exact A.
Qed.

Lemma read_any_file_safe data off :
  (exists vs q, read_list_at data off = RA_ok vs q /\
     (q = off \/ off < q <= length data)%nat /\ (length vs <= q - off)%nat) /\
  ((exists t, get_db_token data off = T_ok t /\
      exists r, skipn off data = t ++ 0 :: r /\ Forall (fun b => b <> 0) t)
   \/ (get_db_token data off = T_none /\ ~ In 0 (skipn off data))).
Proof. split; [apply read_list_at_safe|apply get_db_token_spec]. Qed.

(* Loading a list that is in the file gives back a list that reads the same and can be extended. *)
Lemma enc_inv_copy g m vs pre tail : enc_inv m vs -> last vs 0 < 2 ^ 32 ->
  exists m', copy_list g (pre ++ msginfo m ++ 255 :: tail) (length pre) = Some m' /\
    msginfo m' = msginfo m /\ enc_inv m' vs /\ highest m' = last vs g /\ cap_ok m'.
Proof.
  intros Hi HL. destruct (enc_inv_read m vs Hi HL) as [_ R].
  unfold copy_list. rewrite R.
  replace (length pre + length (msginfo m) - length pre)%nat with (length (msginfo m)) by lia.
  eexists. split; [reflexivity|]. cbn [msginfo highest].
  assert (E : firstn (length (msginfo m)) (skipn (length pre) (pre ++ msginfo m ++ 255 :: tail)) = msginfo m).
  { rewrite skipn_app, skipn_all, Nat.sub_diag. cbn [skipn app].
    rewrite firstn_app, Nat.sub_diag, firstn_all. cbn. apply app_nil_r. }
  rewrite E. split; [reflexivity|]. destruct Hi as [Hi1 Hi2]. split; [|split; [reflexivity|]].
  - split; cbn [msginfo highest]; [assumption|]. intros Hv.
    destruct vs as [|v vs]; [congruence|]. clear. revert v. induction vs as [|w vs IH]; intros v; [reflexivity|].
    change (last (v :: w :: vs) g) with (last (w :: vs) g). rewrite IH. reflexivity.
  - unfold cap_ok, mn; cbn [msginfo mmax].
    destruct (_ <? 16) eqn:E1; [apply N.ltb_lt in E1|apply N.ltb_ge in E1]; lia.
Qed.
