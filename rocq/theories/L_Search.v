(* What the tables of a freshly written index file contain, as the search code reads them. *)
From Verif Require Import Base L_Bits M_Encoding M_TokTable S_TokTable M_DbFile S_DbFile M_WuManber S_Match M_Search S_Search
  L_Encoding L_Encoding2 L_TokTable L_TokTable2 L_DbFile L_DbFile2 L_DbFile3 L_DbFile4 L_DbFile5.
Local Open Scope N_scope.

Definition list_in (F : bytes) (q : N) (m : matches) (n : N) : Prop :=
  exists xs pos, read_list_at F (N.to_nat q) = RA_ok xs pos /\ lists m xs /\ Forall (fun x => x < n) xs.
Definition tab_view (F : bytes) (n : N) (t : toktable matches) (tb : toktable_db) : Prop :=
  t_n tb = N.of_nat (length (toks (slots t))) /\
  forall k tk, nth_error (toks (slots t)) k = Some tk -> exists p q,
    ui F (t_tok tb + N.of_nat k) = Ok p /\ get_db_token F (N.to_nat p) = T_ok (text tk) /\ c_string (text tk) /\
    ui F (t_enc tb + N.of_nat k) = Ok q /\ list_in F q (pay tk) n.
Definition tab2_view (F : bytes) (n : N) (t : toktable (matches * matches)) (tb : toktable2_db) : Prop :=
  t2_n tb = N.of_nat (length (toks (slots t))) /\
  forall k tk, nth_error (toks (slots t)) k = Some tk -> exists p q,
    ui F (t2_tok tb + N.of_nat k) = Ok p /\ get_db_token F (N.to_nat p) = T_ok (text tk) /\
    ui F (t2_enc1 tb + N.of_nat k) = Ok q /\ list_in F q (snd (pay tk)) n.
Definition live_path (F : bytes) (r : read_db) (db : database) (i : N) (x : msg) : Prop :=
  match src x with
  | S_dead => path_token F r i = Ok None
  | S_imap _ => path_token F r i = Err E_assert
  | S_file p _ _ => path_token F r i = Ok (Some p) /\ c_string p
  | S_mbox _ _ => forall w, path_of db x = Some w -> path_token F r i = Ok (Some w) /\ c_string w
  end.
Record view (F : bytes) (r : read_db) (db : database) : Prop := {
  v_n : r_n r = n_msgs db;
  v_lim : n_msgs db < 2 ^ 31;
  v_tabs : Forall2 (tab_view F (n_msgs db)) (tabs db) (r_tabs r);
  v_ids : tab2_view F (n_msgs db) (d_ids db) (r_ids r);
  v_type : forall k x, nth_error (msgs db) k = Some x -> rd8 F (r_type r + N.of_nat k) = Some (type_byte x);
  v_tid : forall k x, nth_error (msgs db) k = Some x -> ui F (r_tid r + N.of_nat k) = Ok (tid x);
  v_date : forall k x, nth_error (msgs db) k = Some x -> exists d, ui F (r_date r + N.of_nat k) = Ok d /\
     (src x <> S_dead -> d = date x);
  v_size : forall k x, nth_error (msgs db) k = Some x -> exists s, ui F (r_size r + N.of_nat k) = Ok s /\
     (forall s', size_of db x = Some s' -> s = s');
  v_path : forall k x, nth_error (msgs db) k = Some x -> live_path F r db (N.of_nat k) x }.

Lemma get_token_holds F off s : holds F off (s ++ [0]) -> c_string s -> get_db_token F (N.to_nat off) = T_ok s.
Proof.
  intros H Hs. unfold get_db_token. rewrite token_loop_scan by lia.
  destruct (holds_split _ _ _ H) as (pre & tail & E & L).
  rewrite E, (skipn_pre _ _ _ L), <- app_assoc. cbn [app]. now rewrite scan_nul_app.
Qed.
Lemma read_list_holds F off m vs : holds F off (enc_item m) -> mlist m vs -> exists pos, read_list_at F (N.to_nat off) = RA_ok vs pos.
Proof.
  intros H HM. destruct (holds_split _ _ _ H) as (pre & tail & E & L). unfold enc_item in E.
  rewrite <- app_assoc in E. cbn [app] in E.
  assert (HL : last vs 0 < 2 ^ 32) by (pose proof (mlist_last _ _ HM) as HL; eapply N.lt_trans; [exact HL|now vm_compute]).
  destruct (enc_inv_read m vs (proj1 HM) HL) as [_ R]. rewrite E, <- L, R. eauto.
Qed.
Lemma list_in_holds F q m n xs : holds F q (enc_item m) -> mlist m xs -> Forall (fun x => x < n) xs -> list_in F q m n.
Proof.
  intros H HM HB. destruct (read_list_holds _ _ _ _ H HM) as [pos R]. exists xs, pos. split; [exact R|]. split; [|exact HB].
  now apply mlist_lists.
Qed.

Section View.
Context (hashf : N -> bytes -> N) (db : database) (ws : list write) (F : bytes).
Local Notation M := (compute_mapping db).
Context (OK : db_ok hashf db) (LEN : blen F = file_len db) (LIMIT : file_len db < 2 ^ 31)
  (HOLD : forall w, In w ws -> holds F (fst (span w)) (wbytes w))
  (CH : chain (4 * beyond M) (chars ws) (file_len db)) (TH : trace_has db M ws).
Local Notation r := (exp_db db).

Lemma g0 : forall off : N, (fun _ : N => 0) off < n_msgs db \/ n_msgs db = 0.
Proof. intros off. cbn beta. lia. Qed.
Local Notation U := (rui ws F HOLD).
Local Notation W := (rwb (fun _ => 0) db ws F LEN LIMIT HOLD CH g0).

Lemma ui_some i : i < beyond M -> exists v, ui F i = Ok v.
Proof.
  intros H. pose proof (chain_le _ _ _ CH) as BL. unfold ui, rd32, sub. change (N.of_nat (length F)) with (blen F). rewrite LEN.
  destruct (4 * i + 4 <=? file_len db) eqn:B; [|apply N.leb_gt in B; lia].
  assert (LS : length (firstn (N.to_nat 4) (skipn (N.to_nat (4 * i)) F)) = 4%nat).
  { rewrite firstn_length, skipn_length. unfold blen in LEN. lia. }
  destruct (firstn _ _) as [|q1 [|q2 [|q3 [|q4 [|? ?]]]]]; try discriminate. eexists; reflexivity.
Qed.

Lemma type_view i x : nth_error (msgs db) i = Some x -> rd8 F (4 * beyond M + N.of_nat i) = Some (type_byte x).
Proof.
  intros HN. destruct (th_types _ _ _ TH) as [TB _]. apply W in TB as ([TB1 TB2] & _ & _).
  unfold blen in *. rewrite map_length in *.
  assert (Hlt : (i < length (msgs db))%nat) by (apply nth_error_Some; congruence).
  unfold rd8. destruct (4 * beyond M + N.of_nat i <? N.of_nat (length F)) eqn:B; [|apply N.ltb_ge in B; lia].
  replace (N.to_nat (4 * beyond M + N.of_nat i)) with (N.to_nat (4 * beyond M) + i)%nat by lia.
  rewrite TB2 by assumption. rewrite nth_error_map, HN. reflexivity.
Qed.

Record msg_facts (i : nat) (x : msg) : Prop := {
  mf_tid : ui F (tid_off M + N.of_nat i) = Ok (tid x);
  mf_date : src x <> S_dead -> ui F (date_off M + N.of_nat i) = Ok (date x);
  mf_size : forall s, size_of db x = Some s -> ui F (size_off M + N.of_nat i) = Ok s;
  mf_path : forall p mt sz, src x = S_file p mt sz -> c_string p /\
     exists c, ui F (path_off M + N.of_nat i) = Ok c /\ cstr F c = Ok p;
  mf_box : forall fi mi, src x = S_mbox fi mi ->
     exists c mb, ui F (path_off M + N.of_nat i) = Ok c /\ decode_mbox_indices F c = Ok (fi, mi) /\
       nth_error (mboxen db) (N.to_nat fi) = Some mb }.
Lemma msg_view i x : nth_error (msgs db) i = Some x -> msg_facts i x.
Proof.
  intros HN. assert (HX : In x (msgs db)) by (eapply nth_error_In; exact HN).
  assert (HS : msg_storable x) by (pose proof (ok_msgs _ _ OK) as A; rewrite Forall_forall in A; auto).
  destruct HS as (Hdt & Htd & HSrc).
  destruct (th_msgs _ _ _ TH i x HN) as (c1 & ws1 & c2 & EW & HW). unfold write_message in EW.
  destruct (src x) as [|p mt sz|p|fi mi] eqn:ES; try specialize (Hdt ltac:(discriminate)).
  - injection EW as <- <-. constructor; try (unfold size_of; rewrite ES; congruence).
    apply U; [apply HW; cbn [In]; tauto|assumption].
  - injection EW as <- <-. destruct HSrc as (HP & Hmt & Hsz).
    destruct (W c1 (p ++ [0])) as (Q1 & Q2 & Q3); [apply HW; cbn [In]; tauto|]. constructor; try (rewrite ES; congruence).
    + apply U; [apply HW; cbn [In]; tauto|assumption].
    + intros _. apply U; [apply HW; cbn [In]; tauto|assumption].
    + unfold size_of. rewrite ES. intros s [= <-]. apply U; [apply HW; cbn [In]; tauto|assumption].
    + rewrite ES. intros p' mt' sz' [= <- <- <-]. split; [assumption|]. exists c1. split; [|now apply cstr_holds].
      apply U; [apply HW; cbn [In]; tauto|assumption].
  - injection EW as <- <-. constructor; try (unfold size_of; rewrite ES; congruence).
    + apply U; [apply HW; cbn [In]; tauto|assumption].
    + intros _. apply U; [apply HW; cbn [In]; tauto|assumption].
  - destruct (ok_places _ _ OK x fi mi HX ES) as (mb & sta & ln & P1 & P2 & P3 & P4 & P5 & P6).
    rewrite P1, P3, P5 in EW. injection EW as <- <-.
    destruct (W c1 (encode_mbox_indices fi mi)) as (Q1 & Q2 & Q3); [apply HW; cbn [In]; tauto|].
    apply holds_app in Q1 as [Q1 Q1']. rewrite blen_le32 in Q1'.
    assert (Hfi : (N.to_nat fi < length (mboxen db))%nat) by (apply nth_error_Some; congruence).
    assert (fib : fi < n_mboxen db) by (unfold n_mboxen; lia).
    assert (fiw : word fi).
    { apply (lim31 (fun _ => 0) db F LEN LIMIT g0). destruct (mapping_layout db) as (L1 & L2 & L3 & L4 & L5 & L6 & L7 & L8 & L9).
      pose proof (chain_le _ _ _ CH). lia. }
    assert (miw : word mi).
    { pose proof (mb_n_lim hashf (fun _ => 0) db ws F OK LEN LIMIT CH TH g0 _ _ P1) as NL. apply word31. lia. }
    constructor; try (rewrite ES; congruence).
    + apply U; [apply HW; cbn [In]; tauto|assumption].
    + intros _. apply U; [apply HW; cbn [In]; tauto|assumption].
    + unfold size_of. rewrite ES, P1, P5. intros s [= <-]. apply U; [apply HW; cbn [In]; tauto|assumption].
    + rewrite ES. intros fi' mi' [= <- <-]. exists c1, mb. split; [apply U; [apply HW; cbn [In]; tauto|assumption]|].
      split; [|assumption]. unfold decode_mbox_indices. now rewrite (rd32_le32 _ _ _ Q1 fiw), (rd32_le32 _ _ _ Q1' miw).
Qed.

Lemma path_view i x : nth_error (msgs db) i = Some x -> live_path F r db (N.of_nat i) x.
Proof.
  intros HN. destruct (msg_view i x HN) as [_ _ _ MP MB]. destruct (type_byte_bits x) as (T1 & _).
  unfold live_path, path_of, path_token, rd_msg_type, type_and_flags. cbn [exp_db r_type r_path r_mbp].
  rewrite (type_view i x HN). cbn [fetch bind]. rewrite T1.
  destruct (src x) as [|p mt sz|p|fi mi] eqn:ES; cbn [type_code N.eqb].
  - reflexivity.
  - destruct (MP p mt sz eq_refl) as (HP & c & E1 & E2). change (1 =? 1) with true. cbn iota. rewrite E1. cbn [bind]. rewrite E2. cbn [bind]. auto.
  - reflexivity.
  - intros w Hw. destruct (MB fi mi eq_refl) as (c & mb & E1 & E2 & E3). rewrite E3 in Hw.
    change (2 =? 1) with false. change (2 =? 2) with true. cbn iota. rewrite E1. cbn [bind]. rewrite E2. cbn [bind].
    destruct (th_mbox _ _ _ TH (N.to_nat fi) mb E3) as (_ & _ & _ & PP). rewrite Hw in PP. destruct PP as (q & Q1 & Q2).
    rewrite N2Nat.id in Q1. apply W in Q2 as (Q2 & W2 & _). rewrite (U _ _ Q1 W2). cbn [bind].
    assert (HC : c_string w).
    { pose proof (ok_mboxen _ _ OK) as A. rewrite Forall_forall in A. destruct (A mb (nth_error_In _ _ E3)) as (A1 & _). auto. }
    rewrite (cstr_holds _ _ _ Q2 HC). cbn [bind]. auto.
Qed.

Lemma tab_view_one j t a b : nth_error (tabs db) j = Some t -> nth_error (tab_offs M) j = Some (a, b) ->
  tab_view F (n_msgs db) t {| t_n := tn t; t_tok := a; t_enc := b |}.
Proof.
  intros Hj Ho. destruct (th_tabs _ _ _ TH j t a b Hj Ho) as (_ & _ & HT).
  destruct (ok_tabs _ _ OK t (nth_error_In _ _ Hj)) as [IT HE]. pose proof (index_table_ginv _ _ IT) as HG.
  split; cbn [t_n t_tok t_enc]; [exact (tn_toks _ _ (proj1 HG))|].
  intros k tk Hk. destruct (HT k tk Hk) as (p & q & Q1 & Q2 & Q3 & Q4). exists p, q.
  apply W in Q2 as (Q2 & W2 & _). apply W in Q4 as (Q4 & W4 & _).
  destruct (HE (text tk) (pay tk)) as (Hc & xs & X1 & X2 & X3); [apply entries_toks; exists tk; split; [eapply nth_error_In; exact Hk|auto]|].
  rewrite (U _ _ Q1 W2), (U _ _ Q3 W4). split; [reflexivity|]. split; [now apply get_token_holds|]. split; [assumption|]. split; [reflexivity|].
  eapply list_in_holds; [exact Q4| |exact X3]. eapply list_of_entry; [exact IT| |exact X1]. apply entries_toks. exists tk. split; [eapply nth_error_In; exact Hk|auto].
Qed.
Lemma combine_view : forall ts offs, length ts = length offs ->
  (forall j t a b, nth_error ts j = Some t -> nth_error offs j = Some (a, b) ->
     tab_view F (n_msgs db) t {| t_n := tn t; t_tok := a; t_enc := b |}) ->
  Forall2 (tab_view F (n_msgs db)) ts
    (map (fun x => {| t_n := tn (fst x); t_tok := fst (snd x); t_enc := snd (snd x) |}) (combine ts offs)).
Proof.
  induction ts as [|t ts IH]; intros [|[a b] offs] HL H; try discriminate; [constructor|].
  cbn [combine map fst snd]. constructor; [exact (H 0%nat t a b eq_refl eq_refl)|].
  apply IH; [cbn in HL; lia|intros j; exact (H (S j))].
Qed.
Lemma ids_view : tab2_view F (n_msgs db) (d_ids db) (r_ids r).
Proof.
  destruct (ok_ids _ _ OK) as [IT HE]. pose proof (index_table2_ginv _ _ IT) as HG.
  split; cbn [r_ids exp_db t2_n t2_tok t2_enc1]; [exact (tn_toks _ _ (proj1 HG))|].
  intros k tk Hk. destruct (th_ids _ _ _ TH k tk Hk) as (p & q & q1 & Q1 & Q2 & Q3 & Q4 & Q5 & Q6). exists p, q1.
  apply W in Q2 as (Q2 & W2 & _). apply W in Q6 as (Q6 & W6 & _).
  assert (HI : In tk (toks (slots (d_ids db)))) by (eapply nth_error_In; exact Hk).
  destruct (HE (text tk) (fst (pay tk)) (snd (pay tk))) as (Hc & xs & ys & X1 & X2 & X3 & X4 & X5).
  { apply entries_toks. exists tk. rewrite <- surjective_pairing. auto. }
  rewrite (U _ _ Q1 W2), (U _ _ Q5 W6). split; [reflexivity|]. split; [now apply get_token_holds|]. split; [reflexivity|].
  destruct HG as [_ HG]. destruct (HG tk HI) as [_ [us Hus]].
  eapply list_in_holds; [exact Q6|exact Hus|]. now rewrite <- (lists_fun _ _ _ X3 (mlist_lists _ _ Hus)).
Qed.

Lemma view_ok : open_db F = Ok r /\ view F r db.
Proof.
  split; [exact (open_ok hashf (fun _ => 0) db ws F OK LEN LIMIT HOLD CH TH g0)|].
  destruct (mapping_layout db) as (L1 & L2 & L3 & L4 & L5 & L6 & L7 & L8 & L9). destruct L2 as (M1 & M2 & M3 & M4).
  pose proof (chain_le _ _ _ CH) as BL.
  assert (NM : n_msgs db <= beyond M) by lia.
  assert (LT : forall k x, nth_error (msgs db) k = Some x -> N.of_nat k < n_msgs db).
  { intros k x H. assert ((k < length (msgs db))%nat) by (apply nth_error_Some; congruence). unfold n_msgs. lia. }
  constructor; try reflexivity.
  - eapply N.le_lt_trans; [|exact LIMIT]. lia.
  - apply combine_view; [rewrite L5, map_tabs_length; reflexivity|exact tab_view_one].
  - exact ids_view.
  - exact type_view.
  - intros k x H. exact (mf_tid _ _ (msg_view k x H)).
  - intros k x H. pose proof (LT k x H). cbn [r_date exp_db]. destruct (ui_some (date_off M + N.of_nat k)) as [d E]; [lia|].
    exists d. split; [exact E|]. intros HD. pose proof (mf_date _ _ (msg_view k x H) HD) as E2. congruence.
  - intros k x H. pose proof (LT k x H). cbn [r_size exp_db]. destruct (ui_some (size_off M + N.of_nat k)) as [d E]; [lia|].
    exists d. split; [exact E|]. intros s HD. pose proof (mf_size _ _ (msg_view k x H) s HD) as E2. congruence.
  - exact path_view.
Qed.
End View.

Lemma written_view hashf db old F : db_ok hashf db -> write_database db old = Ok F ->
  exists r, open_db F = Ok r /\ view F r db.
Proof.
  intros OK EW. assert (L : file_len db < 2 ^ 31).
  { unfold write_database in EW. destruct (2 ^ 31 <=? file_len db) eqn:Z; [discriminate|]. apply N.leb_gt in Z. exact Z. }
  destruct (write_ok hashf db old OK L) as (ws & F' & E & EW' & LF & B & D & HF & C & T).
  rewrite EW in EW'. injection EW' as <-. exists (exp_db db). exact (view_ok hashf db ws F OK LF L HF C T).
Qed.
