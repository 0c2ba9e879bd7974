From Coq Require Import Sorted.
From Verif Require Import Base L_Bits M_Encoding M_TokTable S_TokTable M_DbFile S_DbFile L_Encoding L_Encoding2 L_TokTable L_TokTable2 L_DbFile L_DbFile2.
Local Open Scope N_scope.

Lemma db_tabs_tinv hashf db : db_ok hashf db -> forall t, In t (tabs db) -> tinv (hashf (hash_key db)) t.
Proof. intros H t Ht. apply (index_table_ginv _ _ (proj1 (ok_tabs _ _ H t Ht))). Qed.
Lemma db_ids_tinv hashf db : db_ok hashf db -> tinv (hashf (hash_key db)) (d_ids db).
Proof. intros H. apply (index_table2_ginv _ _ (proj1 (ok_ids _ _ H))). Qed.
Lemma db_places hashf db : db_ok hashf db -> Forall (place_ok (mboxen db)) (msgs db).
Proof.
  intros H. apply Forall_forall. intros m Hm fi mi E.
  destruct (ok_places _ _ H m fi mi Hm E) as (mb & st & ln & A & _ & B & _ & C & _).
  exists mb, st, ln. auto.
Qed.

Lemma mapping_layout db : let m := compute_mapping db in
  path_off m = 40 /\ msg_map m (n_msgs db) /\ mbp_off m = 40 + 5 * n_msgs db /\ mbox_map m (n_mboxen db) /\
  tab_offs m = fst (map_tabs (mbp_off m + 5 * n_mboxen db) (tabs db)) /\
  id_tok m = mbp_off m + 5 * n_mboxen db + tabs_words (tabs db) /\
  id_enc0 m = id_tok m + tn (d_ids db) /\ id_enc1 m = id_enc0 m + tn (d_ids db) /\ beyond m = id_enc1 m + tn (d_ids db).
Proof.
  cbv zeta. unfold compute_mapping, msg_map, mbox_map, UI_HEADER_LEN.
  cbn [path_off mtime_off date_off size_off tid_off mbp_off mbe_off mbm_off mbs_off mbc_off tab_offs id_tok id_enc0 id_enc1 beyond].
  set (n := n_msgs db). set (nb := n_mboxen db).
  repeat split; try lia.
  - f_equal. f_equal. lia.
  - rewrite map_tabs_total. lia.
Qed.

Lemma mbox_chars mbs : sumN (map mbox_char_length mbs) = sumN (map path_len mbs) + sumN (map (fun mb => 16 * mb_n mb) mbs).
Proof.
  rewrite <- sumN_map_add. f_equal. apply map_ext. intros mb. unfold mbox_char_length, path_len. lia.
Qed.

Record trace_has (db : database) (m : write_map) (ws : list write) : Prop := {
  th_header : incl (write_header db m) ws;
  th_types : In (WB (4 * beyond m) (map type_byte (msgs db))) ws /\ In (W32 3 (4 * beyond m)) ws;
  th_msgs : forall k x, nth_error (msgs db) k = Some x -> exists c1 ws1 c2,
      write_message (mboxen db) m (N.of_nat k) x c1 = Ok (ws1, c2) /\ incl ws1 ws;
  th_mbox : forall k mb, nth_error (mboxen db) k = Some mb ->
    In (W32 (mbe_off m + N.of_nat k) (mb_n mb)) ws /\
    In (W32 (mbm_off m + N.of_nat k) (c_mtime mb)) ws /\
    In (W32 (mbs_off m + N.of_nat k) (c_size mb)) ws /\
    match mb_path mb with
    | None => In (W32 (mbp_off m + N.of_nat k) 0) ws
    | Some p => exists q, In (W32 (mbp_off m + N.of_nat k) q) ws /\ In (WB q (p ++ [0])) ws
    end;
  th_cks : forall k mb, nth_error (mboxen db) k = Some mb -> exists q, In (W32 (mbc_off m + N.of_nat k) q) ws /\
      In (WB q (concat (firstn (N.to_nat (mb_n mb)) (checks mb)))) ws;
  th_tabs : forall j t a b, nth_error (tabs db) j = Some t -> nth_error (tab_offs m) j = Some (a, b) ->
      b = a + tn t /\ b + tn t <= beyond m /\
      forall k tk, nth_error (toks (slots t)) k = Some tk ->
      exists p q, In (W32 (a + N.of_nat k) p) ws /\ In (WB p (text_item tk)) ws /\
                  In (W32 (b + N.of_nat k) q) ws /\ In (WB q (enc_item (pay tk))) ws;
  th_ids : forall k tk, nth_error (toks (slots (d_ids db))) k = Some tk ->
      exists p q q1, In (W32 (id_tok m + N.of_nat k) p) ws /\ In (WB p (text_item tk)) ws /\
                  In (W32 (id_enc0 m + N.of_nat k) q) ws /\ In (WB q (enc_item (fst (pay tk)))) ws /\
                  In (W32 (id_enc1 m + N.of_nat k) q1) ws /\ In (WB q1 (enc_item (snd (pay tk)))) ws }.

Lemma write_header_words db m : length (tab_offs m) = 6%nat ->
  words (write_header db m) = [0;1;2;4;5;7;6;8;9;10;11;12;13;14;15;16;17;18;19;20;21;22;23;24;25;26;27;28;29;30;31;32;33;34;35;36;37] /\
  chars (write_header db m) = [].
Proof.
  intros H. destruct (tab_offs m) as [|[a1 b1] [|[a2 b2] [|[a3 b3] [|[a4 b4] [|[a5 b5] [|[a6 b6] [|? ?]]]]]]] eqn:E; try discriminate.
  unfold write_header. rewrite E. unfold tabs. cbn [header_tabs app words chars flat_map].
  split; reflexivity.
Qed.

Lemma trace_ok hashf db : db_ok hashf db ->
  exists ws, write_trace db = Ok (ws, file_len db) /\
    NoDup (words ws) /\ Forall (fun i => i < beyond (compute_mapping db)) (words ws) /\
    chain (4 * beyond (compute_mapping db)) (chars ws) (file_len db) /\
    trace_has db (compute_mapping db) ws.
Proof.
  intros H. destruct (mapping_layout db) as (L1 & L2 & L3 & L4 & L5 & L6 & L7 & L8 & L9).
  unfold write_trace. set (m := compute_mapping db) in *. cbv zeta.
  destruct (write_messages_ok (mboxen db) m (n_msgs db) (msgs db) L2 0 (snd (write_types (msgs db) (4 * beyond m)))) as (w2 & E2 & N2 & R2 & C2 & I2).
  { unfold n_msgs. lia. }
  { now apply (db_places hashf). }
  rewrite E2. cbn [bind]. set (c2 := snd (write_types _ _) + _) in *.
  pose proof (write_mbox_headers_ok m (n_mboxen db) (mboxen db) L4 0 c2 ltac:(unfold n_mboxen; lia)) as HH. cbv zeta in HH.
  set (h := write_mbox_headers m 0 (mboxen db) c2) in *. destruct HH as (S3 & N3 & R3 & C3 & I3).
  destruct (write_mbox_checksums_ok m (mboxen db) 0 (snd h) (ok_mboxen _ _ H)) as (w4 & E4 & W4 & I4).
  rewrite E4. cbn [bind]. set (c4 := snd h + _) in *.
  destruct (write_toktables_ok (hashf (hash_key db)) (tabs db) (mbp_off m + 5 * n_mboxen db) c4) as (w5 & E5 & W5 & I5).
  { now apply db_tabs_tinv. }
  rewrite L5, E5. cbn [bind]. set (c5 := c4 + _) in *.
  destruct (write_toktable2_ok (hashf (hash_key db)) (d_ids db) m c5) as (w6 & E6 & W6 & I6).
  { now apply db_ids_tinv. } { exact L7. } { exact L8. }
  rewrite E6. cbn [bind]. set (c6 := c5 + _) in *.
  assert (EC : c6 = file_len db).
  { unfold c6, c5, c4. rewrite S3. unfold c2. unfold write_types. cbn [snd]. unfold file_len, char_length.
    rewrite mbox_chars. fold m. unfold n_msgs. lia. }
  set (t := write_types (msgs db) (4 * beyond m)) in *.
  set (hd := write_header db m).
  assert (LT : length (tab_offs m) = 6%nat) by (rewrite L5, map_tabs_length; reflexivity).
  destruct (write_header_words db m LT) as [WH CH].
  eexists. split; [rewrite EC; reflexivity|].
  assert (W1 : wspec (hd ++ fst t) 0 40 (4 * beyond m) (snd t)).
  { split; [|split]; rewrite ?words_app, ?chars_app; unfold hd; rewrite ?WH, ?CH; cbn [t write_types fst snd words chars flat_map app].
    - apply NoDup_nth with (d := 0). cbn [length]. intros i j Hi Hj HE.
      assert (forallb (fun i => forallb (fun j => implb (nth i [0;1;2;4;5;7;6;8;9;10;11;12;13;14;15;16;17;18;19;20;21;22;23;24;25;26;27;28;29;30;31;32;33;34;35;36;37;3] 0 =? nth j [0;1;2;4;5;7;6;8;9;10;11;12;13;14;15;16;17;18;19;20;21;22;23;24;25;26;27;28;29;30;31;32;33;34;35;36;37;3] 0) (Nat.eqb i j)) (seq 0 38)) (seq 0 38) = true) as HF by (vm_compute; reflexivity).
      rewrite forallb_forall in HF. specialize (HF i ltac:(apply in_seq; lia)). rewrite forallb_forall in HF.
      specialize (HF j ltac:(apply in_seq; lia)). rewrite HE, N.eqb_refl in HF. now apply Nat.eqb_eq.
    - repeat (constructor; [lia|]). constructor.
    - cbn [chain]. split; [reflexivity|]. unfold blen. now rewrite map_length. }
  destruct L2 as (M1 & M2 & M3 & M4). destruct L4 as (B1 & B2 & B3 & B4).
  assert (W2 : wspec w2 40 (mbp_off m) (snd t) c2).
  { split; [exact N2|]. split; [|exact C2]. eapply Forall_impl; [|exact R2]. cbn beta. intros w (j & Hj & Hw).
    inversion Hw as [|? ? Hw1 _]; subst. lia. }
  assert (W3 : wspec (fst h) (mbp_off m) (mbc_off m) c2 (snd h)).
  { split; [exact N3|]. split; [|exact C3]. eapply Forall_impl; [|exact R3]. cbn beta. intros w (j & Hj & Hw).
    unfold hdr_words in Hw. lia. }
  assert (WA : wspec (hd ++ fst t ++ w2 ++ fst h ++ w4 ++ w5 ++ w6) 0 (beyond m) (4 * beyond m) (file_len db)).
  { rewrite app_assoc. eapply wspec_app; [exact W1| |lia|lia].
    eapply wspec_app; [exact W2| |lia|lia]. eapply wspec_app; [exact W3| |lia|lia].
    eapply wspec_app; [| |shelve|shelve].
    - rewrite N.add_0_r in W4. exact W4.
    - eapply wspec_app; [| |shelve|shelve].
      + replace (mbc_off m + N.of_nat (length (mboxen db))) with (mbp_off m + 5 * n_mboxen db) by (unfold n_mboxen in *; lia). exact W5.
      + rewrite <- L6, L9, <- EC. exact W6.
    Unshelve. all: unfold n_mboxen in *; lia. }
  destruct WA as (A1 & A2 & A3). split; [exact A1|]. split; [|split; [exact A3|]].
  { eapply Forall_impl; [|exact A2]. cbn beta. lia. }
  constructor.
  - apply incl_appl, incl_refl.
  - cbn [t write_types fst]. rewrite !in_app_iff. cbn [In]. tauto.
  - intros k x Hk. destruct (I2 k x Hk) as (c1 & ws1 & c2' & X & Y). rewrite N.add_0_l in X.
    exists c1, ws1, c2'. split; [exact X|]. intros w Hw. apply Y in Hw. rewrite !in_app_iff. tauto.
  - intros k mb Hk. destruct (I3 k mb Hk) as (X1 & X2 & X3 & X4). rewrite !N.add_0_r in *.
    repeat (split; [rewrite !in_app_iff; tauto|]). destruct (mb_path mb) as [p|]; [|rewrite !in_app_iff; tauto].
    destruct X4 as (q & Q1 & Q2). exists q. rewrite !in_app_iff. tauto.
  - intros k mb Hk. destruct (I4 k mb Hk) as (q & Q1 & Q2). rewrite N.add_0_r in Q1. exists q. rewrite !in_app_iff. tauto.
  - intros j t' a b Hj Ho. rewrite L5 in Ho. destruct (I5 j t' a b Hj Ho) as (X1 & X2 & X3 & X4).
    split; [exact X2|]. split; [lia|]. intros k tk Hk. destruct (X4 k tk Hk) as (p & q & Q1 & Q2 & Q3 & Q4).
    exists p, q. rewrite !in_app_iff. tauto.
  - intros k tk Hk. destruct (I6 k tk Hk) as (p & q & q1 & Q). exists p, q, q1. rewrite !in_app_iff. tauto.
Qed.
