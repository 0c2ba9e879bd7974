From Coq Require Import Sorted Permutation.
From Verif Require Import Base L_Bits M_Encoding M_TokTable S_TokTable M_DbFile S_DbFile L_Encoding L_Encoding2 L_TokTable L_TokTable2 L_DbFile L_DbFile2 L_DbFile3 L_DbFile4.
Local Open Scope N_scope.

Lemma Forall2_len {A B} (R : A -> B -> Prop) l l' : Forall2 R l l' -> length l = length l'.
Proof. induction 1; cbn; auto. Qed.

Section Read.
Context (hashf : N -> bytes -> N) (gi : N -> N) (gm : N) (db : database) (ws : list write) (F : bytes).
Local Notation M := (compute_mapping db).
Context (OK : db_ok hashf db) (LEN : blen F = file_len db) (LIMIT : file_len db < 2 ^ 31)
  (HOLD : forall w, In w ws -> holds F (fst (span w)) (wbytes w))
  (CH : chain (4 * beyond M) (chars ws) (file_len db)) (TH : trace_has db M ws)
  (GI : forall off, gi off < n_msgs db \/ n_msgs db = 0).

Lemma lim31 v : v <= file_len db -> word v.
Proof. intros. unfold word. change (2 ^ 32) with 4294967296. change (2 ^ 31) with 2147483648 in LIMIT. lia. Qed.
Lemma rui i v : In (W32 i v) ws -> word v -> ui F i = Ok v.
Proof. intros H Hv. unfold ui. apply HOLD in H. cbn [span fst wbytes] in H. now rewrite (rd32_le32 _ _ _ H Hv). Qed.
Lemma rwb o b : In (WB o b) ws -> holds F o b /\ word o /\ 4 * beyond M <= o.
Proof.
  intros H. split; [exact (HOLD _ H)|]. apply in_chars in H. destruct (chain_in _ _ _ _ _ CH H). split; [apply lim31; lia|lia].
Qed.
Lemma beyond_len : 4 * beyond M <= file_len db.
Proof. exact (chain_le _ _ _ CH). Qed.
Lemma n_msgs_le : n_msgs db <= beyond M.
Proof. destruct (mapping_layout db) as (L1 & L2 & L3 & L4 & L5 & L6 & L7 & L8 & L9). lia. Qed.

Definition exp_tabs : list toktable_db :=
  map (fun x => {| t_n := tn (fst x); t_tok := fst (snd x); t_enc := snd (snd x) |}) (combine (tabs db) (tab_offs M)).
Definition exp_db : read_db :=
  {| r_n := n_msgs db; r_type := 4 * beyond M; r_path := path_off M; r_mtime := mtime_off M; r_size := size_off M;
     r_date := date_off M; r_tid := tid_off M; r_nb := n_mboxen db; r_mbp := mbp_off M; r_mbe := mbe_off M;
     r_mbm := mbm_off M; r_mbs := mbs_off M; r_mbc := mbc_off M; r_key := hash_key db; r_tabs := exp_tabs;
     r_ids := {| t2_n := tn (d_ids db); t2_tok := id_tok M; t2_enc0 := id_enc0 M; t2_enc1 := id_enc1 M |} |}.

Lemma get_table_ok i off n : In (W32 i off) ws -> off + n <= beyond M -> get_table F i n = Ok off.
Proof.
  intros H B. pose proof beyond_len as BL. unfold get_table. rewrite (rui i off H ltac:(apply lim31; lia)). cbn [bind].
  unfold u32. rewrite N.mod_small by (pose proof (lim31 (off + n) ltac:(lia)); assumption).
  change (N.of_nat (length F)) with (blen F). rewrite LEN.
  destruct (file_len db / 4 <? off + n) eqn:E; [|reflexivity]. apply N.ltb_lt in E. lia.
Qed.
Lemma read_tok_ok s t a b : In (W32 s (tn t)) ws -> In (W32 (s + 1) a) ws -> In (W32 (s + 2) b) ws ->
  b = a + tn t -> b + tn t <= beyond M ->
  read_toktable_db F s = Ok {| t_n := tn (t : toktable matches); t_tok := a; t_enc := b |}.
Proof.
  intros H1 H2 H3 E B. pose proof beyond_len as BL. unfold read_toktable_db.
  rewrite (rui _ _ H1 ltac:(apply lim31; lia)). cbn [bind]. rewrite (rui _ _ H2 ltac:(apply lim31; lia)). cbn [bind].
  change (N.of_nat (length F)) with (blen F). rewrite LEN.
  destruct (file_len db <? 4 * a + 4 * tn t) eqn:E1; [apply N.ltb_lt in E1; lia|].
  rewrite (rui _ _ H3 ltac:(apply lim31; lia)). cbn [bind].
  destruct (file_len db <? 4 * b + 4 * tn t) eqn:E2; [apply N.ltb_lt in E2; lia|]. reflexivity.
Qed.

Lemma open_ok : open_db F = Ok exp_db.
Proof.
  destruct (mapping_layout db) as (L1 & L2 & L3 & L4 & L5 & L6 & L7 & L8 & L9).
  destruct L2 as (M1 & M2 & M3 & M4). destruct L4 as (B1 & B2 & B3 & B4).
  pose proof beyond_len as BL. pose proof (th_header _ _ _ TH) as HH.
  assert (LT : length (tab_offs M) = 6%nat) by (rewrite L5, map_tabs_length; reflexivity).
  pose proof (th_tabs _ _ _ TH) as HT.
  destruct (tab_offs M) as [|[a1 b1] [|[a2 b2] [|[a3 b3] [|[a4 b4] [|[a5 b5] [|[a6 b6] [|? ?]]]]]]] eqn:ET; try discriminate.
  assert (HI : forall w, In w (write_header db M) -> In w ws) by exact HH.
  unfold write_header in HI. rewrite ET in HI. unfold tabs in HI. cbn [header_tabs app In] in HI.
  change (16 + 3 + 3 + 3 + 3 + 3) with 31 in HI. change (16 + 3 + 3 + 3 + 3) with 28 in HI.
  change (16 + 3 + 3 + 3) with 25 in HI. change (16 + 3 + 3) with 22 in HI. change (16 + 3) with 19 in HI.
  unfold open_db. change (N.of_nat (length F)) with (blen F). rewrite LEN.
  destruct (file_len db <? 160) eqn:E0; [apply N.ltb_lt in E0; lia|].
  assert (MG : magic_ok F = true).
  { assert (In (W32 0 magic) ws) as H0 by (apply HI; tauto). apply HOLD in H0. cbn [span fst wbytes] in H0.
    destruct (holds_split _ _ _ H0) as (pre & tail & E & L). change (4 * 0) with 0 in L. destruct pre; [|discriminate].
    rewrite E. vm_compute. reflexivity. }
  rewrite MG. cbn [negb].
  rewrite (rui 1 0x44332211) by (try (apply HI; tauto); now vm_compute). cbn [bind].
  change (1144201745 =? 1144201745) with true. cbn [negb].
  rewrite (rui 2 (n_msgs db)) by (try (apply HI; tauto); apply lim31; lia). cbn [bind].
  rewrite (rui 3 (4 * beyond M)) by (try (apply (proj2 (th_types _ _ _ TH))); apply lim31; lia). cbn [bind].
  rewrite (get_table_ok 4 (path_off M)) by (try (apply HI; tauto); lia). cbn [bind].
  rewrite (get_table_ok 5 (mtime_off M)) by (try (apply HI; tauto); lia). cbn [bind].
  rewrite (get_table_ok 6 (size_off M)) by (try (apply HI; tauto); lia). cbn [bind].
  rewrite (get_table_ok 7 (date_off M)) by (try (apply HI; tauto); lia). cbn [bind].
  rewrite (get_table_ok 8 (tid_off M)) by (try (apply HI; tauto); lia). cbn [bind].
  rewrite (rui 9 (n_mboxen db)) by (try (apply HI; tauto); apply lim31; lia). cbn [bind].
  rewrite (get_table_ok 10 (mbp_off M)) by (try (apply HI; tauto); lia). cbn [bind].
  rewrite (get_table_ok 11 (mbe_off M)) by (try (apply HI; tauto); lia). cbn [bind].
  rewrite (get_table_ok 12 (mbm_off M)) by (try (apply HI; tauto); lia). cbn [bind].
  rewrite (get_table_ok 13 (mbs_off M)) by (try (apply HI; tauto); lia). cbn [bind].
  rewrite (get_table_ok 14 (mbc_off M)) by (try (apply HI; tauto); lia). cbn [bind].
  rewrite (rui 15 (hash_key db)) by (try (apply HI; tauto); apply (ok_key _ _ OK)). cbn [bind].
  assert (T1 := HT 0%nat _ _ _ eq_refl eq_refl). assert (T2 := HT 1%nat _ _ _ eq_refl eq_refl).
  assert (T3 := HT 2%nat _ _ _ eq_refl eq_refl). assert (T4 := HT 3%nat _ _ _ eq_refl eq_refl).
  assert (T5 := HT 4%nat _ _ _ eq_refl eq_refl). assert (T6 := HT 5%nat _ _ _ eq_refl eq_refl).
  cbn [read_tabs].
  rewrite (read_tok_ok 16 (d_to db) a1 b1) by (try (apply HI; tauto); tauto). cbn [bind].
  rewrite (read_tok_ok 19 (d_cc db) a2 b2) by (try (apply HI; tauto); tauto). cbn [bind].
  rewrite (read_tok_ok 22 (d_from db) a3 b3) by (try (apply HI; tauto); tauto). cbn [bind].
  rewrite (read_tok_ok 25 (d_subject db) a4 b4) by (try (apply HI; tauto); tauto). cbn [bind].
  rewrite (read_tok_ok 28 (d_body db) a5 b5) by (try (apply HI; tauto); tauto). cbn [bind].
  rewrite (read_tok_ok 31 (d_att db) a6 b6) by (try (apply HI; tauto); tauto). cbn [bind].
  unfold read_toktable2_db. change (34 + 1) with 35. change (34 + 2) with 36. change (34 + 3) with 37.
  rewrite (rui 34 (tn (d_ids db))) by (try (apply HI; tauto); apply lim31; lia). cbn [bind].
  rewrite (rui 35 (id_tok M)) by (try (apply HI; tauto); apply lim31; lia). cbn [bind].
  change (N.of_nat (length F)) with (blen F). rewrite LEN.
  destruct (file_len db <? 4 * id_tok M + 4 * tn (d_ids db)) eqn:E1; [apply N.ltb_lt in E1; lia|].
  rewrite (rui 36 (id_enc0 M)) by (try (apply HI; tauto); apply lim31; lia). cbn [bind].
  destruct (file_len db <? 4 * id_enc0 M + 4 * tn (d_ids db)) eqn:E2; [apply N.ltb_lt in E2; lia|].
  rewrite (rui 37 (id_enc1 M)) by (try (apply HI; tauto); apply lim31; lia). cbn [bind].
  destruct (file_len db <? 4 * id_enc1 M + 4 * tn (d_ids db)) eqn:E3; [apply N.ltb_lt in E3; lia|].
  cbn [bind]. unfold exp_db, exp_tabs. rewrite ET. reflexivity.
Qed.

(* mailboxes *)
Lemma filled0 mb : filled gm mb 0 =
  {| mb_path := mb_path mb; f_mtime := c_mtime mb; f_size := c_size mb; c_mtime := gm; c_size := gm; mb_n := mb_n mb;
     starts := repeat None (N.to_nat (mb_n mb)); lens := repeat None (N.to_nat (mb_n mb)); checks := firstn (N.to_nat (mb_n mb)) (checks mb) |}.
Proof. unfold filled. cbn [firstn app]. now rewrite Nat.sub_0_r. Qed.

Lemma mb_n_lim k mb : nth_error (mboxen db) k = Some mb -> mb_n mb < 2 ^ 31.
Proof.
  intros H. destruct (th_cks _ _ _ TH k mb H) as (q & _ & Q). apply in_chars in Q. destruct (chain_in _ _ _ _ _ CH Q) as [_ B].
  assert (HS : mbox_storable mb) by (pose proof (ok_mboxen _ _ OK) as A; rewrite Forall_forall in A; apply A; eapply nth_error_In; eassumption).
  destruct HS as (_ & _ & _ & HL & H16).
  rewrite blen_concat16 in B by now apply Forall_firstn. rewrite firstn_length in B. lia.
Qed.

Lemma int_pos v : v < 2 ^ 31 -> (0 <? int_of_u32 v)%Z = (0 <? v).
Proof.
  intros H. unfold int_of_u32. destruct (v <? 2 ^ 31) eqn:E; [|apply N.ltb_ge in E; lia].
  destruct (0 <? v) eqn:B; [apply N.ltb_lt in B|apply N.ltb_ge in B]; lia.
Qed.
Lemma word31 v : v < 2 ^ 31 -> word v.
Proof. intros H. unfold word. eapply N.lt_trans; [exact H|now vm_compute]. Qed.

Lemma load_mbox_ok k mb : nth_error (mboxen db) k = Some mb ->
  load_mbox gm F exp_db (N.of_nat k) = Ok (filled gm mb 0).
Proof.
  intros H. pose proof (mb_n_lim k mb H) as NL. rewrite filled0.
  assert (HS : mbox_storable mb) by (pose proof (ok_mboxen _ _ OK) as A; rewrite Forall_forall in A; apply A; eapply nth_error_In; eassumption).
  destruct HS as (HP & Hmt & Hsz & HL & H16).
  destruct (th_mbox _ _ _ TH k mb H) as (X1 & X2 & X3 & X4). destruct (th_cks _ _ _ TH k mb H) as (q & Q1 & Q2).
  apply rwb in Q2 as (Q2 & Qw & Qb).
  unfold load_mbox, exp_db. cbn [r_mbp r_mbe r_mbm r_mbs r_mbc].
  assert (NW : word (mb_n mb)) by now apply word31.
  assert (EP : exists po, ui F (mbp_off M + N.of_nat k) = Ok po /\
     (if po =? 0 then Ok None else let! p := cstr F po in Ok (Some p)) = Ok (mb_path mb)).
  { destruct (mb_path mb) as [p|] eqn:EP.
    - destruct X4 as (o & O1 & O2). apply rwb in O2 as (O2 & Ow & Ob). exists o. split; [now apply rui|].
      destruct (o =? 0) eqn:Z; [apply N.eqb_eq in Z|].
      + exfalso. destruct (mapping_layout db) as (L1 & L2 & L3 & L4 & L5 & L6 & L7 & L8 & L9). lia.
      + rewrite (cstr_holds _ _ _ O2 (HP p eq_refl)). reflexivity.
    - exists 0. split; [apply rui; [exact X4|now vm_compute]|reflexivity]. }
  destruct EP as (po & E1 & E2). rewrite E1. cbn [bind]. rewrite E2. cbn [bind].
  rewrite (rui _ _ X2 Hmt). cbn [bind]. rewrite (rui _ _ X3 Hsz). cbn [bind]. rewrite (rui _ _ X1 NW). cbn [bind].
  rewrite (int_pos _ NL). destruct (0 <? mb_n mb) eqn:Z.
  - rewrite (rui _ _ Q1 Qw). cbn [bind]. apply holds_sub in Q2.
    rewrite blen_concat16 in Q2 by now apply Forall_firstn. rewrite firstn_length in Q2.
    replace (N.of_nat (Nat.min (N.to_nat (mb_n mb)) (length (checks mb)))) with (mb_n mb) in Q2 by lia.
    rewrite Q2. cbn [fetch bind].
    pose proof (chop_concat (firstn (N.to_nat (mb_n mb)) (checks mb)) ltac:(now apply Forall_firstn)) as CC.
    rewrite firstn_length in CC. replace (Nat.min (N.to_nat (mb_n mb)) (length (checks mb))) with (N.to_nat (mb_n mb)) in CC by lia.  rewrite CC. reflexivity.
  - apply N.ltb_ge in Z. assert (mb_n mb = 0) as -> by lia. reflexivity.
Qed.

Lemma load_mboxen_ok : load_mboxen gm F exp_db (N.to_nat (n_mboxen db)) 0 = Ok (map (fun mb => filled gm mb 0) (mboxen db)).
Proof.
  unfold n_mboxen. rewrite Nat2N.id.
  assert (G : forall l i, (forall k mb, nth_error l k = Some mb -> nth_error (mboxen db) (N.to_nat i + k) = Some mb) ->
     load_mboxen gm F exp_db (length l) i = Ok (map (fun mb => filled gm mb 0) l)).
  { induction l as [|mb l IH]; intros i H; [reflexivity|]. cbn [length load_mboxen map].
    pose proof (load_mbox_ok (N.to_nat i) mb ltac:(rewrite <- (H 0%nat mb eq_refl); f_equal; lia)) as E. rewrite N2Nat.id in E.
    rewrite E. cbn [bind]. rewrite IH; [reflexivity|]. intros k mb' Hk. rewrite <- (H (S k) mb' Hk). f_equal. lia. }
  apply G. intros k mb H. exact H.
Qed.

(* messages *)
Definition cnt (b : nat) (done : list msg) : nat := length (run_of (N.of_nat b) done).
Definition st_inv (done : list msg) (st : list (mbox * N)) : Prop :=
  length st = length (mboxen db) /\
  forall b mb, nth_error (mboxen db) b = Some mb -> nth_error st b = Some (filled gm mb (cnt b done), N.of_nat (cnt b done)).

Lemma run_of_app b l1 l2 : run_of b (l1 ++ l2) = run_of b l1 ++ run_of b l2.
Proof. apply flat_map_app. Qed.

Lemma type_byte_bits x :
  N.land (type_byte x) 7 = type_code (src x) /\ negb (N.land (type_byte x) 8 =? 0) = seen x /\
  negb (N.land (type_byte x) 16 =? 0) = replied x /\ negb (N.land (type_byte x) 32 =? 0) = flagged x.
Proof.
  unfold type_byte. assert (type_code (src x) = 0 \/ type_code (src x) = 1 \/ type_code (src x) = 2 \/ type_code (src x) = 3) as HC
    by (unfold type_code; destruct (src x); tauto).
  destruct HC as [-> | [-> | [-> | ->]]]; destruct (seen x), (replied x), (flagged x); repeat split; reflexivity.
Qed.

Definition same_msg' (a b : msg) := same_msg a b.

Lemma set_nth_firstn (l : list (option N)) k n v : nth_error l k = Some v -> (k < n)%nat ->
  set_nth (firstn k l ++ repeat None (n - k)) k v = firstn (S k) l ++ repeat None (n - S k).
Proof.
  revert l n. induction k as [|k IH]; intros [|a l] n H Hn; try discriminate.
  - cbn in H. injection H as ->. cbn [firstn app]. rewrite Nat.sub_0_r. destruct n; [lia|]. cbn [repeat set_nth].
    now rewrite Nat.sub_succ, Nat.sub_0_r.
  - cbn in H. destruct n; [lia|]. cbn [firstn app Nat.sub set_nth]. f_equal. rewrite IH by (assumption || lia). reflexivity.
Qed.

Lemma filled_len mb k : (k <= N.to_nat (mb_n mb))%nat -> (k <= length (starts mb))%nat ->
  length (starts (filled gm mb k)) = N.to_nat (mb_n mb).
Proof. intros. unfold filled. cbn [starts]. rewrite app_length, firstn_length, repeat_length. lia. Qed.

Lemma set_nth_length {A} (l : list A) i x : length (set_nth l i x) = length l.
Proof. revert i; induction l; intros [|i]; cbn; auto. Qed.
Lemma set_nth_nth {A} (l : list A) i x j : (i < length l)%nat -> nth_error (set_nth l i x) j = if Nat.eqb i j then Some x else nth_error l j.
Proof. revert i j; induction l as [|a l IH]; intros [|i] [|j] H; cbn in *; auto; try lia. apply IH. lia. Qed.

Lemma load_msg_ok i x st done rest : msgs db = done ++ x :: rest -> length done = i -> st_inv done st ->
  exists y st', load_msg F exp_db (N.of_nat i) st = Ok (y, st') /\ same_msg x y /\ st_inv (done ++ [x]) st'.
Proof.
  intros HD HI [SL SN].
  assert (HX : In x (msgs db)) by (rewrite HD; apply in_app_iff; right; now left).
  assert (HNth : nth_error (msgs db) i = Some x) by (rewrite HD, nth_error_app2 by lia; rewrite HI, Nat.sub_diag; reflexivity).
  assert (HS : msg_storable x) by (pose proof (ok_msgs _ _ OK) as A; rewrite Forall_forall in A; auto).
  destruct HS as (Hdt & Htd & HSrc).
  destruct (th_msgs _ _ _ TH i x HNth) as (c1 & ws1 & c2 & EW & HW).
  (* type byte *)
  destruct (th_types _ _ _ TH) as [TB _]. apply rwb in TB as ([TB1 TB2] & _ & _).
  assert (ET : rd8 F (4 * beyond M + N.of_nat i) = Some (type_byte x)).
  { unfold blen in *. rewrite map_length in *.
    assert (Hlt : (i < length (msgs db))%nat) by (apply nth_error_Some; congruence).
    unfold rd8. destruct (4 * beyond M + N.of_nat i <? N.of_nat (length F)) eqn:B; [|apply N.ltb_ge in B; lia].
    replace (N.to_nat (4 * beyond M + N.of_nat i)) with (N.to_nat (4 * beyond M) + i)%nat by lia.
    rewrite TB2 by assumption. rewrite nth_error_map, HNth. reflexivity. }
  destruct (type_byte_bits x) as (T1 & T2 & T3 & T4).
  unfold load_msg, exp_db. cbn [r_type r_path r_mtime r_size r_date r_tid]. rewrite ET. cbn [fetch bind].
  rewrite T1, T2, T3, T4. unfold write_message in EW.
  assert (CNT0 : (match src x with S_mbox _ _ => False | _ => True end) -> st_inv (done ++ [x]) st).
  { intros HH. split; [exact SL|]. intros b mb Hb. rewrite (SN b mb Hb).
    assert (E : cnt b (done ++ [x]) = cnt b done).
    { unfold cnt. rewrite run_of_app. cbn [run_of flat_map]. destruct (src x); try contradiction; cbn [app]; now rewrite app_nil_r. }
    now rewrite E. }
  destruct (src x) as [|p mt sz|p|fi mi] eqn:ES; cbn [type_code]; try specialize (Hdt ltac:(discriminate)).
  - injection EW as <- <-. cbn [bind].
    (* date of a dead message: whatever is there *)
    assert (EDT : exists d, ui F (date_off M + N.of_nat i) = Ok d).
    { destruct (mapping_layout db) as (L1 & L2 & L3 & L4 & L5 & L6 & L7 & L8 & L9). destruct L2 as (M1 & M2 & M3 & M4).
      assert (Hlt : (i < length (msgs db))%nat) by (apply nth_error_Some; congruence).
      pose proof beyond_len. unfold n_msgs in *.
      unfold ui, rd32, sub. change (N.of_nat (length F)) with (blen F). rewrite LEN.
      destruct (4 * (date_off M + N.of_nat i) + 4 <=? file_len db) eqn:B; [|apply N.leb_gt in B; lia].
      assert (LS : length (firstn (N.to_nat 4) (skipn (N.to_nat (4 * (date_off M + N.of_nat i))) F)) = 4%nat).
      { rewrite firstn_length, skipn_length. unfold blen in LEN. lia. }
      destruct (firstn _ _) as [|q1 [|q2 [|q3 [|q4 [|? ?]]]]]; try discriminate. eexists; reflexivity. }
    destruct EDT as [d ED]. rewrite ED. cbn [bind].
    assert (TD : ui F (tid_off M + N.of_nat i) = Ok (tid x)) by (apply rui; [apply HW; cbn [In]; tauto|assumption]).
    rewrite TD. cbn [bind]. eexists. exists st. split; [reflexivity|]. split; [|auto].
    unfold same_msg. cbn. rewrite ES. repeat split; auto; congruence.
  - injection EW as <- <-. destruct HSrc as (HP & Hmt & Hsz).
    destruct (rwb c1 (p ++ [0])) as (Q1 & Q2 & Q3); [apply HW; cbn [In]; tauto|].
    assert (A1 : ui F (path_off M + N.of_nat i) = Ok c1) by (apply rui; [apply HW; cbn [In]; tauto|assumption]).
    assert (A2 : ui F (mtime_off M + N.of_nat i) = Ok mt) by (apply rui; [apply HW; cbn [In]; tauto|assumption]).
    assert (A3 : ui F (size_off M + N.of_nat i) = Ok sz) by (apply rui; [apply HW; cbn [In]; tauto|assumption]).
    assert (A4 : ui F (date_off M + N.of_nat i) = Ok (date x)) by (apply rui; [apply HW; cbn [In]; tauto|assumption]).
    assert (A5 : ui F (tid_off M + N.of_nat i) = Ok (tid x)) by (apply rui; [apply HW; cbn [In]; tauto|assumption]).
    rewrite A1. cbn [bind]. rewrite (cstr_holds _ _ _ Q1 HP). cbn [bind]. rewrite A2, A3, A4, A5. cbn [bind].
    eexists. exists st. split; [reflexivity|]. split; [|auto].
    unfold same_msg. cbn. rewrite ES. repeat split; auto; congruence.
  - injection EW as <- <-.
    destruct (rwb c1 (p ++ [0])) as (Q1 & Q2 & Q3); [apply HW; cbn [In]; tauto|].
    assert (A1 : ui F (path_off M + N.of_nat i) = Ok c1) by (apply rui; [apply HW; cbn [In]; tauto|assumption]).
    assert (A4 : ui F (date_off M + N.of_nat i) = Ok (date x)) by (apply rui; [apply HW; cbn [In]; tauto|assumption]).
    assert (A5 : ui F (tid_off M + N.of_nat i) = Ok (tid x)) by (apply rui; [apply HW; cbn [In]; tauto|assumption]).
    rewrite A1. cbn [bind]. rewrite (cstr_holds _ _ _ Q1 HSrc). cbn [bind]. rewrite A4, A5. cbn [bind].
    eexists. exists st. split; [reflexivity|]. split; [|auto].
    unfold same_msg. cbn. rewrite ES. repeat split; auto; congruence.
  - destruct (ok_places _ _ OK x fi mi HX ES) as (mb & sta & ln & P1 & P2 & P3 & P4 & P5 & P6).
    rewrite P1, P3, P5 in EW. injection EW as <- <-.
    destruct (rwb c1 (encode_mbox_indices fi mi)) as (Q1 & Q2 & Q3); [apply HW; cbn [In]; tauto|].
    apply holds_app in Q1 as [Q1 Q1']. rewrite blen_le32 in Q1'.
    assert (Hfi : (N.to_nat fi < length (mboxen db))%nat) by (apply nth_error_Some; congruence).
    assert (fib : fi < n_mboxen db) by (unfold n_mboxen; lia).
    assert (fiw : word fi).
    { apply lim31. destruct (mapping_layout db) as (L1 & L2 & L3 & L4 & L5 & L6 & L7 & L8 & L9). pose proof beyond_len. lia. }
    pose proof (mb_n_lim _ _ P1) as NL.
    assert (miw : word mi) by (apply word31; lia).
    assert (A1 : ui F (path_off M + N.of_nat i) = Ok c1) by (apply rui; [apply HW; cbn [In]; tauto|assumption]).
    assert (A2 : ui F (mtime_off M + N.of_nat i) = Ok sta) by (apply rui; [apply HW; cbn [In]; tauto|assumption]).
    assert (A3 : ui F (size_off M + N.of_nat i) = Ok ln) by (apply rui; [apply HW; cbn [In]; tauto|assumption]).
    assert (A4 : ui F (date_off M + N.of_nat i) = Ok (date x)) by (apply rui; [apply HW; cbn [In]; tauto|assumption]).
    assert (A5 : ui F (tid_off M + N.of_nat i) = Ok (tid x)) by (apply rui; [apply HW; cbn [In]; tauto|assumption]).
    rewrite A1. cbn [bind]. unfold decode_mbox_indices. rewrite (rd32_le32 _ _ _ Q1 fiw), (rd32_le32 _ _ _ Q1' miw). cbn [fetch bind].
    destruct (fi <? N.of_nat (length st)) eqn:B; [|apply N.ltb_ge in B; unfold n_mboxen in fib; lia].
    rewrite (SN (N.to_nat fi) mb P1).
    (* position *)
    assert (MI : mi = N.of_nat (cnt (N.to_nat fi) done)).
    { destruct (ok_order _ _ OK fi) as [k HK]. rewrite HD in HK.
      rewrite run_of_app in HK. cbn [run_of flat_map] in HK. rewrite ES, N.eqb_refl in HK. cbn [app] in HK.
      unfold cnt. rewrite N2Nat.id.
      assert (HN := f_equal (fun l => nth_error l (length (run_of fi done))) HK). cbn beta in HN.
      rewrite nth_error_app2, Nat.sub_diag in HN by lia. cbn [nth_error] in HN.
      rewrite nth_error_map in HN. destruct (nth_error (seq 0 k) (length (run_of fi done))) as [z|] eqn:EZ; [|discriminate].
      assert (z = length (run_of fi done)).
      { assert (LL : (length (run_of fi done) < length (seq 0 k))%nat) by (apply nth_error_Some; congruence). rewrite seq_length in LL.
        apply nth_error_nth with (d := 0%nat) in EZ. rewrite seq_nth in EZ by assumption. lia. }
      subst z. cbn in HN. injection HN as ->. reflexivity. }
    set (k := cnt (N.to_nat fi) done) in *.
    assert (KS : (k < length (starts mb))%nat) by (replace k with (N.to_nat mi) by lia; apply nth_error_Some; congruence).
    assert (KL : (k < length (lens mb))%nat) by (replace k with (N.to_nat mi) by lia; apply nth_error_Some; congruence).
    rewrite MI, N.eqb_refl. cbn [negb]. rewrite filled_len by lia.
    destruct (N.of_nat (N.to_nat (mb_n mb)) <=? N.of_nat k) eqn:B2; [apply N.leb_le in B2; lia|].
    rewrite A2, A3. cbn [bind]. rewrite A4, A5. cbn [bind].
    eexists. eexists. split; [reflexivity|]. split.
    { unfold same_msg. cbn. rewrite ES, MI. repeat split; auto; congruence. }
    replace (N.to_nat mi) with k in P3, P5 by lia.
    assert (EFl : with_entry (filled gm mb k) (N.to_nat (N.of_nat k)) sta ln = filled gm mb (S k)).
    { unfold with_entry, filled. cbn [mb_path f_mtime f_size c_mtime c_size mb_n starts lens checks]. rewrite Nat2N.id.
      rewrite !set_nth_firstn by (assumption || lia). reflexivity. }
    rewrite EFl. split; [rewrite set_nth_length; exact SL|].
    intros b mb' Hb. rewrite set_nth_nth by lia.
    destruct (Nat.eqb_spec (N.to_nat fi) b) as [<-|NE].
    + rewrite P1 in Hb. injection Hb as <-.
      assert (E : cnt (N.to_nat fi) (done ++ [x]) = S k).
      { unfold cnt. rewrite run_of_app. cbn [run_of flat_map]. rewrite ES, N2Nat.id, N.eqb_refl. rewrite !app_length. cbn [length app].
        unfold k, cnt. rewrite N2Nat.id. lia. }
      rewrite E. f_equal. f_equal. lia.
    + rewrite (SN b mb' Hb). assert (E : cnt b (done ++ [x]) = cnt b done).
      { unfold cnt. rewrite run_of_app. cbn [run_of flat_map]. rewrite ES. destruct (fi =? N.of_nat b) eqn:Z; [apply N.eqb_eq in Z; lia|].
        cbn [app]. now rewrite app_nil_r. }
      now rewrite E.
Qed.

Lemma load_msgs_ok rest : forall done st, msgs db = done ++ rest -> st_inv done st ->
  exists ys st', load_msgs F exp_db (length rest) (N.of_nat (length done)) st = Ok (ys, st') /\
    Forall2 same_msg rest ys /\ st_inv (msgs db) st'.
Proof.
  induction rest as [|x rest IH]; intros done st HD HS.
  - rewrite app_nil_r in HD. exists [], st. rewrite HD. split; [reflexivity|]. split; [constructor|exact HS].
  - destruct (load_msg_ok (length done) x st done rest HD eq_refl HS) as (y & st1 & E & SM & S1).
    destruct (IH (done ++ [x]) st1) as (ys & st2 & E2 & F2 & S2); [now rewrite <- app_assoc|exact S1|].
    exists (y :: ys), st2. cbn [length load_msgs]. rewrite E. cbn [bind].
    rewrite app_length in E2. cbn [length] in E2. replace (N.of_nat (length done) + 1) with (N.of_nat (length done + 1)) by lia.
    rewrite E2. cbn [bind]. split; [reflexivity|]. split; [constructor; assumption|exact S2].
Qed.

(* tables *)
Lemma list_of_entry hk t w mm xs : index_table hk t -> In (w, mm) (entries t) -> lists mm xs -> mlist mm xs.
Proof.
  intros HT HI HL. apply index_table_ginv in HT as [_ HG]. apply entries_toks in HI as (k & K1 & _ & <-).
  destruct (HG k K1) as [vs Hvs]. now rewrite (lists_fun _ _ _ HL (mlist_lists _ _ Hvs)).
Qed.

Lemma one_tab_ok j t a b : nth_error (tabs db) j = Some t -> nth_error (tab_offs M) j = Some (a, b) ->
  exists ents t', load_entries gi F (n_msgs db) {| t_n := tn t; t_tok := a; t_enc := b |} (N.to_nat (tn t)) 0 = Ok ents /\
    import_toktable (hashf (hash_key db)) true ents = Ok t' /\ index_table (hashf (hash_key db)) t' /\ same_words t t'.
Proof.
  intros Hj Ho. destruct (th_tabs _ _ _ TH j t a b Hj Ho) as (_ & _ & HT).
  destruct (ok_tabs _ _ OK t (nth_error_In _ _ Hj)) as [IT HE]. pose proof (index_table_ginv _ _ IT) as HG.
  assert (EN : N.to_nat (tn t) = length (toks (slots t))) by (rewrite (tn_toks _ _ (proj1 HG)); lia).
  rewrite EN.
  destruct (load_entries_ok gi F (n_msgs db) {| t_n := tn t; t_tok := a; t_enc := b |} (toks (slots t)) 0) as (ents & E & FA).
  - intros k tk Hk. destruct (HT k tk Hk) as (p & q & Q1 & Q2 & Q3 & Q4). exists p, q. cbn [t_tok t_enc].
    apply rwb in Q2 as (Q2 & W2 & _). apply rwb in Q4 as (Q4 & W4 & _). rewrite !N.add_0_r.
    rewrite (rui _ _ Q1 W2), (rui _ _ Q3 W4). auto.
  - intros tk Hk. destruct (HE (text tk) (pay tk)) as (Hc & xs & X1 & X2 & X3); [apply entries_toks; eauto|].
    split; [exact Hc|]. exists xs. split; [|auto]. eapply list_of_entry; [exact IT| |exact X1]. apply entries_toks; eauto.
  - exists ents. pose proof (toks_words _ _ t (fun x y => reloaded x y) ents HG FA) as F2.
    destruct (reload_table _ t ents IT F2) as (t' & E2 & I2 & S2). exists t'. auto.
Qed.

Lemma load_tabs_gen : forall ts offs, length ts = length offs ->
  (forall j t a b, nth_error ts j = Some t -> nth_error offs j = Some (a, b) ->
     exists ents t', load_entries gi F (n_msgs db) {| t_n := tn t; t_tok := a; t_enc := b |} (N.to_nat (tn t)) 0 = Ok ents /\
     import_toktable (hashf (hash_key db)) true ents = Ok t' /\ index_table (hashf (hash_key db)) t' /\ same_words t t') ->
  exists ts', load_tabs (hashf (hash_key db)) gi F (n_msgs db)
     (map (fun x => {| t_n := tn (fst x); t_tok := fst (snd x); t_enc := snd (snd x) |}) (combine ts offs)) = Ok ts' /\
     Forall2 same_words ts ts' /\ Forall (index_table (hashf (hash_key db))) ts'.
Proof.
  induction ts as [|t ts IH]; intros [|[a b] offs] HL H; try discriminate.
  - exists []. cbn. repeat split; constructor.
  - destruct (H 0%nat t a b eq_refl eq_refl) as (ents & t' & E1 & E2 & I1 & S1).
    destruct (IH offs) as (ts' & E3 & S3 & I3); [cbn in HL; lia|intros j; exact (H (S j))|].
    exists (t' :: ts'). cbn [combine map load_tabs fst snd t_n]. rewrite E1. cbn [bind]. rewrite E2. cbn [bind]. rewrite E3. cbn [bind].
    split; [reflexivity|]. split; constructor; assumption.
Qed.

Lemma ids_ok : exists ents t', load_entries2 gi F (n_msgs db) (r_ids exp_db) (N.to_nat (tn (d_ids db))) 0 = Ok ents /\
    import_toktable (hashf (hash_key db)) false ents = Ok t' /\ index_table2 (hashf (hash_key db)) t' /\ same_ids (d_ids db) t'.
Proof.
  set (t := d_ids db). destruct (ok_ids _ _ OK) as [IT HE]. fold t in IT, HE. pose proof (index_table2_ginv _ _ IT) as HG.
  assert (EN : N.to_nat (tn t) = length (toks (slots t))) by (rewrite (tn_toks _ _ (proj1 HG)); lia).
  rewrite EN.
  destruct (load_entries2_ok gi F (n_msgs db) (r_ids exp_db) (toks (slots t)) GI 0) as (ents & E & FA).
  - intros k tk Hk. destruct (th_ids _ _ _ TH k tk Hk) as (p & q & q1 & Q1 & Q2 & Q3 & Q4 & Q5 & Q6). exists p, q, q1.
    unfold exp_db. cbn [r_ids t2_tok t2_enc0 t2_enc1].
    apply rwb in Q2 as (Q2 & W2 & _). apply rwb in Q4 as (Q4 & W4 & _). apply rwb in Q6 as (Q6 & W6 & _). rewrite !N.add_0_r.
    rewrite (rui _ _ Q1 W2), (rui _ _ Q3 W4), (rui _ _ Q5 W6). tauto.
  - intros tk Hk. destruct (HE (text tk) (fst (pay tk)) (snd (pay tk))) as (Hc & xs & ys & X1 & X2 & X3 & X4 & X5).
    { apply entries_toks. exists tk. rewrite <- surjective_pairing. auto. }
    split; [exact Hc|]. destruct HG as [_ HG]. destruct (HG tk Hk) as [[vs Hvs] [us Hus]]. exists xs, ys.
    rewrite (lists_fun _ _ _ X1 (mlist_lists _ _ Hvs)) in *. rewrite (lists_fun _ _ _ X3 (mlist_lists _ _ Hus)) in *. auto.
  - exists ents.
    pose proof (toks_words _ _ t (fun x y => reloaded (fst x) (fst y) /\ reloaded (snd x) (snd y)) ents HG FA) as F2.
    destruct (reload_table2 _ t ents IT F2) as (t' & E2 & I2 & S2). exists t'. auto.
Qed.

Lemma int_nonneg v : v <= beyond M -> (int_of_u32 v <? 0)%Z = false.
Proof.
  intros H. pose proof beyond_len. unfold int_of_u32. change (2 ^ 31) with 2147483648 in *.
  destruct (v <? 2147483648) eqn:E; [lia|apply N.ltb_ge in E; lia].
Qed.

Lemma load_ok : exists db', load hashf gi gm F = Ok db' /\ same_db db db' /\
  Forall (index_table (hashf (hash_key db'))) (tabs db') /\ index_table2 (hashf (hash_key db')) (d_ids db').
Proof.
  unfold load. rewrite open_ok. cbn [bind]. unfold exp_db at 1 2. cbn [r_n r_nb].
  destruct (mapping_layout db) as (L1 & L2 & L3 & L4 & L5 & L6 & L7 & L8 & L9).
  rewrite !int_nonneg by lia. cbn [orb].
  change (r_nb exp_db) with (n_mboxen db). rewrite load_mboxen_ok. cbn [bind].
  change (r_n exp_db) with (n_msgs db).
  destruct (load_msgs_ok (msgs db) [] (map (fun mb => (mb, 0)) (map (fun mb => filled gm mb 0) (mboxen db))) eq_refl) as (ys & st & E & FM & [SL SN]).
  { split; [now rewrite !map_length|]. intros b mb Hb. rewrite !nth_error_map, Hb. reflexivity. }
  unfold n_msgs at 1. rewrite Nat2N.id. change (N.of_nat (length (@nil msg))) with 0 in E. rewrite E. cbn [bind].
  change (r_key exp_db) with (hash_key db). change (r_tabs exp_db) with exp_tabs.
  destruct (load_tabs_gen (tabs db) (tab_offs M)) as (ts' & E2 & ST & IT).
  { rewrite L5, map_tabs_length. reflexivity. }
  { exact one_tab_ok. }
  unfold exp_tabs. rewrite E2. cbn [bind].
  destruct ids_ok as (ents & ti & E3 & E4 & II & SI).
  change (t2_n (r_ids exp_db)) with (tn (d_ids db)). rewrite E3. cbn [bind]. rewrite E4. cbn [bind].
  assert (LTS : length ts' = 6%nat) by (rewrite <- (Forall2_len _ _ _ ST); reflexivity).
  destruct ts' as [|x1 [|x2 [|x3 [|x4 [|x5 [|x6 [|? ?]]]]]]]; try discriminate.
  eexists. split; [reflexivity|]. split; [|cbn [hash_key d_ids]; split; [exact IT|exact II]].
  unfold same_db. cbn [hash_key msgs mboxen d_ids]. split; [reflexivity|]. split; [exact FM|]. split; [|split; [|split; [exact ST|exact SI]]].
  - assert (SN' : exists f, forall b mb, nth_error (mboxen db) b = Some mb -> nth_error st b = Some (filled gm mb (f b), N.of_nat (f b)))
      by (exists (fun b => cnt b (msgs db)); exact SN).
    clear -SL SN'. destruct SN' as [f SN]. revert SN SL.
    generalize (mboxen db) as l. intros l. revert f st. induction l as [|mb l IH]; intros f [|[x c] st] SN SL; try discriminate; [constructor|].
    pose proof (SN 0%nat mb eq_refl) as H0. cbn in H0. injection H0 as -> ->. cbn [map fst]. constructor.
    + unfold same_mbox, filled. cbn. auto.
    + apply (IH (fun b => f (S b))); [|cbn in SL; lia]. intros b mb' Hb. exact (SN (S b) mb' Hb).
  - intros x fi mi HX ES. destruct (ok_places _ _ OK x fi mi HX ES) as (mb & sta & ln & P1 & P2 & P3 & P4 & P5 & P6).
    unfold place. cbn [mboxen]. rewrite nth_error_map, (SN _ _ P1), P1. cbn [option_map fst].
    assert (KB : (N.to_nat mi < cnt (N.to_nat fi) (msgs db))%nat).
    { destruct (ok_order _ _ OK fi) as [k HK]. unfold cnt. rewrite N2Nat.id, HK, map_length, seq_length.
      assert (In mi (run_of fi (msgs db))) as HIn.
      { unfold run_of. apply in_flat_map. exists x. rewrite ES, N.eqb_refl. split; [assumption|now left]. }
      rewrite HK in HIn. apply in_map_iff in HIn as (z & <- & HZ). apply in_seq in HZ. lia. }
    set (k := cnt (N.to_nat fi) (msgs db)) in *. unfold filled. cbn [starts lens].
    assert (HA1 : (N.to_nat mi < length (starts mb))%nat) by (apply nth_error_Some; congruence).
    assert (HA2 : (N.to_nat mi < length (lens mb))%nat) by (apply nth_error_Some; congruence).
    rewrite !nth_error_app1 by (rewrite firstn_length; lia).
    rewrite !nth_error_firstn by lia. reflexivity.
Qed.
End Read.

Lemma resize_len old len : length (resize old len) = N.to_nat len.
Proof. unfold resize. rewrite app_length, firstn_length, repeat_length. lia. Qed.

Lemma write_ok hashf db old : db_ok hashf db -> file_len db < 2 ^ 31 ->
  exists ws F, write_trace db = Ok (ws, file_len db) /\ write_database db old = Ok F /\ blen F = file_len db /\
    Forall (fun w => snd (span w) <= file_len db) ws /\ ForallOrdPairs disjoint ws /\
    (forall w, In w ws -> holds F (fst (span w)) (wbytes w)) /\
    chain (4 * beyond (compute_mapping db)) (chars ws) (file_len db) /\ trace_has db (compute_mapping db) ws.
Proof.
  intros OK L. destruct (trace_ok hashf db OK) as (ws & E & N1 & R1 & C1 & T1).
  destruct (trace_disjoint _ ws _ _ N1 R1 C1 ltac:(lia)) as [B D].
  assert (LR : blen (resize old (file_len db)) = file_len db) by (unfold blen; rewrite resize_len; lia).
  destruct (apply_writes_holds ws (resize old (file_len db))) as (F & EF & LF & HF & _).
  { rewrite LR. exact B. } { exact D. }
  exists ws, F. split; [exact E|]. split.
  { unfold write_database. destruct (2 ^ 31 <=? file_len db) eqn:Z; [apply N.leb_le in Z; lia|]. rewrite E. exact EF. }
  split; [unfold blen in *; rewrite LF; exact LR|]. auto 10.
Qed.

Lemma db_roundtrip hashf gi gm db old : db_ok hashf db -> file_len db < 2 ^ 31 ->
  (forall off, gi off < n_msgs db \/ n_msgs db = 0) ->
  exists F db', write_database db old = Ok F /\ blen F = file_len db /\ load hashf gi gm F = Ok db' /\ same_db db db' /\
    Forall (index_table (hashf (hash_key db'))) (tabs db') /\ index_table2 (hashf (hash_key db')) (d_ids db').
Proof.
  intros OK L G. destruct (write_ok hashf db old OK L) as (ws & F & E & EW & LF & B & D & HF & C & T).
  destruct (load_ok hashf gi gm db ws F OK LF L HF C T G) as (db' & E1 & S1 & I1).
  exists F, db'. auto.
Qed.

Lemma write_in_bounds hashf db old : db_ok hashf db -> file_len db < 2 ^ 31 ->
  exists ws F, write_trace db = Ok (ws, file_len db) /\
    Forall (fun w => snd (span w) <= file_len db) ws /\ ForallOrdPairs disjoint ws /\
    write_database db old = Ok F /\ N.of_nat (length F) = file_len db.
Proof.
  intros OK L. destruct (write_ok hashf db old OK L) as (ws & F & E & EW & LF & B & D & HF & C & T).
  exists ws, F. auto 10.
Qed.
