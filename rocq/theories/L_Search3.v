(* One term, and the conditions on size, date and flags. *)
From Verif Require Import Base L_Bits M_Encoding M_TokTable S_TokTable M_DbFile S_DbFile M_WuManber S_Match M_Search S_Search
  L_Encoding L_Encoding2 L_TokTable L_TokTable2 L_DbFile L_DbFile2 L_DbFile3 L_DbFile4 L_DbFile5 L_WuManber L_Search L_Search2.
Local Open Scope N_scope.

Lemma c_string_bytes s : c_string s -> all_bytes s.
Proof. intros H. eapply Forall_impl; [|exact H]. unfold c_char, is_byte. lia. Qed.
Lemma lower_bytes s : all_bytes s -> all_bytes (map tolower s).
Proof.
  unfold all_bytes. intros H. apply Forall_map. eapply Forall_impl; [|exact H]. intros c Hc. unfold is_byte, tolower, isupper in *.
  destruct ((65 <=? c) && (c <=? 90)) eqn:E; [|exact Hc]. apply andb_true_iff in E as [E1 E2]. apply N.leb_le in E2. lia.
Qed.

Lemma sub_match anch n s : all_bytes s -> (1 <= length s <= 31)%nat -> (anch = true -> n = 0) ->
  exists a hit, build_match_vector s = Ok (a, hit) /\
    forall w, all_bytes w -> (substring_match a hit anch (N.to_nat n) w = true <-> occurs anch n s w).
Proof.
  intros HB HL HA. exists (vector s), (not64 (N.shiftl 1 (N.of_nat (length s) - 1))). rewrite build_ok by assumption.
  split; [reflexivity|]. intros w HW.
  assert (E : match_word anch (N.to_nat n) s w = Ok (substring_match (vector s) (not64 (N.shiftl 1 (N.of_nat (length s) - 1))) anch (N.to_nat n) w)).
  { unfold match_word. rewrite build_ok by assumption. reflexivity. }
  rewrite <- Ok_true, <- E. clear E. unfold occurs. destruct anch.
  - rewrite (HA eq_refl). change (N.to_nat 0) with 0%nat. rewrite (proj2 (anchored_exact s w HB HL HW)).
    split; [|tauto]. intros H. split; [|exact H]. destruct H as [post ->]. destruct s; [cbn in HL; lia|discriminate].
  - destruct w as [|c w].
    + split; [|intros [X _]; congruence]. unfold match_word. rewrite build_ok by assumption. cbn [bind]. intros [= X].
      exfalso. revert X. rewrite specialised_agree by assumption. unfold substring_match_general. cbn [loop_g]. discriminate.
    + rewrite (proj2 (approx_exact (N.to_nat n) s (c :: w) HB HL HW ltac:(discriminate))).
      split; [intros H; split; [discriminate|exact H]|tauto].
Qed.

Lemma recorded_c_string F r db q w i : view F r db -> recorded db q w i -> c_string w.
Proof.
  intros V (m & xs & H & _ & _). apply entries_toks in H as (k & K1 & <- & _).
  pose proof (v_tabs _ _ _ V) as VT. rewrite tabs_parts in VT.
  assert (HT : exists tb, tab_view F (n_msgs db) (table db q) tb).
  { destruct (Forall2_in_l _ _ _ (table db q) VT) as (tb & _ & X); [|eauto]. apply in_map. destruct q; cbn; tauto. }
  destruct HT as (tb & _ & HT). apply In_nth_error in K1 as [j Hj]. destruct (HT j k Hj) as (a & b & _ & _ & X & _). exact X.
Qed.

(* The key letters. *)
Definition keys_of (key : option bytes) : keys := match key with Some k => parse_key k | None => default_keys end.
Lemma has_in c k : has c k = true <-> In c k.
Proof. unfold has. rewrite existsb_exists. split; [intros (x & H & E); apply N.eqb_eq in E; now subst|intros H; exists c; split; [exact H|apply N.eqb_refl]]. Qed.
Lemma keys_select key q : In (true, q) (combine (table_keys (keys_of key)) parts) <-> selects key q.
Proof.
  destruct key as [k|]; cbn [keys_of].
  - unfold parse_key, table_keys, parts. cbn [k_to k_cc k_from k_subject k_body k_att combine In].
    destruct q; cbn [selects];
    change (ch "t") with 116; change (ch "r") with 114; change (ch "a") with 97; change (ch "c") with 99; change (ch "f") with 102;
    change (ch "s") with 115; change (ch "b") with 98; change (ch "n") with 110;
    rewrite <- ?has_in; (split; [intros H; repeat destruct H as [H|H]; try discriminate H; try contradiction; injection H; clear H; intros H|intros H]);
    try (rewrite !orb_true_iff in H); try tauto.
    + left. f_equal. rewrite !orb_true_iff. tauto.
    + right. left. f_equal. rewrite !orb_true_iff. tauto.
    + right. right. left. f_equal. rewrite !orb_true_iff. tauto.
    + rewrite H. tauto.
    + rewrite H. tauto.
    + rewrite H. tauto.
  - cbn. destruct q; split; intros H; repeat destruct H as [H|H]; try discriminate H; try contradiction; try discriminate; try tauto.
Qed.

Definition model_term (t : sterm) : term :=
  {| neg := s_not t; anc := s_anchor t; txt := s_text t; errs := option_map (fun ds => Z.of_N (number ds)) (s_like t) |}.

Section Hits.
Context (F : bytes) (r : read_db) (db : database) (V : view F r db).
Local Notation n := (N.to_nat (n_msgs db)).

Lemma zeros_hv : hv n (fun _ => false = true) (zeros r).
Proof. unfold zeros. rewrite (v_n _ _ _ V). apply hv_const. Qed.
Lemma ones_hv : hv n (fun _ => True) (ones r).
Proof. unfold ones. rewrite (v_n _ _ _ V). eapply hv_ext; [apply (hv_const _ true)|]. tauto. Qed.

Lemma tables_hits key f p : 
  (forall t tb P h, tab_view F (n_msgs db) t tb -> hv n P h -> exists h', f tb h = Ok h' /\
     hv n (fun i => P i \/ exists w m xs, In (w, m) (entries t) /\ p w = true /\ lists m xs /\ In (N.of_nat i) xs) h') ->
  exists h, over_tables f (table_keys (keys_of key)) (r_tabs r) (zeros r) = Ok h /\
    hv n (fun i => exists q w, selects key q /\ recorded db q w (N.of_nat i) /\ p w = true) h.
Proof.
  intros HF. pose proof (v_tabs _ _ _ V) as VT. rewrite tabs_parts in VT.
  destruct (over_tables_gen F (n_msgs db) db f p HF parts (table_keys (keys_of key)) (r_tabs r) _ (zeros r) VT eq_refl zeros_hv) as (h & E & HV).
  exists h. split; [exact E|]. eapply hv_ext; [exact HV|]. intros i _. split.
  - intros [X|(q & w & I & X)]; [discriminate|]. exists q, w. split; [now apply keys_select|exact X].
  - intros (q & w & I & X). right. exists q, w. split; [now apply keys_select|exact X].
Qed.

Lemma exact_tables key w : exists h,
  over_tables (fun tb h => match_string_in_table F (int_of_u32 (r_n r)) tb w h) (table_keys (keys_of key)) (r_tabs r) (zeros r) = Ok h /\
  hv n (fun i => exists q w', selects key q /\ recorded db q w' (N.of_nat i) /\ w' = w) h.
Proof.
  pose proof (v_lim _ _ _ V) as HN. rewrite (v_n _ _ _ V), (int_small_n _ HN).
  destruct (tables_hits key (fun tb h => match_string_in_table F (Z.of_N (n_msgs db)) tb w h) (bytes_eqb w)) as (h & E & HV).
  { intros t tb P h TV HH. unfold match_string_in_table. now apply scan_view. }
  exists h. split; [exact E|]. eapply hv_ext; [exact HV|]. intros i _.
  split; intros (q & w' & S & R & X); exists q, w'; (split; [exact S|split; [exact R|]]); [apply bytes_eqb_eq in X; auto|apply bytes_eqb_eq; auto].
Qed.
Lemma substring_tables key s e anch : all_bytes s -> (1 <= length s <= 31)%nat -> (anch = true -> e = 0) -> exists h,
  over_tables (fun tb h => match_substring_in_table F (int_of_u32 (r_n r)) tb s (N.to_nat e) anch h)
    (table_keys (keys_of key)) (r_tabs r) (zeros r) = Ok h /\
  hv n (fun i => exists q w, selects key q /\ recorded db q w (N.of_nat i) /\ occurs anch e s w) h.
Proof.
  intros HB HL HA. pose proof (v_lim _ _ _ V) as HN. rewrite (v_n _ _ _ V), (int_small_n _ HN).
  destruct (sub_match anch e s HB HL HA) as (a & hit & EB & HM).
  destruct (tables_hits key (fun tb h => match_substring_in_table F (Z.of_N (n_msgs db)) tb s (N.to_nat e) anch h)
      (substring_match a hit anch (N.to_nat e))) as (h & E & HV).
  { intros t tb P h TV HH. unfold match_substring_in_table. rewrite EB. cbn [bind]. now apply scan_view. }
  exists h. split; [exact E|]. eapply hv_ext; [exact HV|]. intros i _.
  split; intros (q & w' & S & R & X); exists q, w'; (split; [exact S|split; [exact R|]]);
    pose proof (c_string_bytes _ (recorded_c_string F r db _ _ _ V R)); [now apply HM|now apply HM].
Qed.

Lemma paths_hits s e anch : all_bytes s -> (1 <= length s <= 31)%nat -> (anch = true -> e = 0) -> no_imap db -> boxes_named db ->
  exists h, match_substring_in_paths F r s (N.to_nat e) anch = Ok h /\
    hv n (fun i => exists m w, message db (N.of_nat i) = Some m /\ path_of db m = Some w /\ occurs anch e s w) h.
Proof.
  intros HB HL HA NI BN. destruct (sub_match anch e s HB HL HA) as (a & hit & EB & HM).
  unfold match_substring_in_paths. rewrite EB. cbn [bind]. unfold each_msg. rewrite (v_n _ _ _ V).
  apply for_msgs_hv. intros j Hj. destruct (message_some db j Hj) as [x Hx]. rewrite message_nat, Hx.
  pose proof (v_path _ _ _ V j x Hx) as LP. unfold live_path in LP.
  assert (HI : In x (msgs db)) by (eapply nth_error_In; exact Hx).
  assert (G : forall w, path_of db x = Some w -> path_token F r (N.of_nat j) = Ok (Some w) -> c_string w ->
     exists b, (let! tok := path_token F r (N.of_nat j) in
       Ok match tok with Some w0 => substring_match a hit anch (N.to_nat e) w0 | None => false end) = Ok b /\
     (b = true <-> exists m w0, Some x = Some m /\ path_of db m = Some w0 /\ occurs anch e s w0)).
  { intros w EP ET HC. rewrite ET. cbn [bind]. eexists. split; [reflexivity|]. rewrite (HM w (c_string_bytes _ HC)). split.
    - intros H. exists x, w. auto.
    - intros (m & w0 & [= <-] & E & H). congruence. }
  destruct (src x) as [|p mt sz|p|fi mi] eqn:ES.
  - rewrite LP. cbn [bind]. eexists. split; [reflexivity|]. split; [discriminate|]. intros (m & w & [= <-] & E & _).
    unfold path_of in E. rewrite ES in E. discriminate.
  - destruct LP as [LP1 LP2]. apply (G p); [unfold path_of; now rewrite ES|assumption|assumption].
  - exfalso. exact (NI x p HI ES).
  - destruct (path_of db x) as [w|] eqn:EP; [|exfalso; exact (BN x fi mi HI ES EP)].
    destruct (LP w eq_refl) as [LP1 LP2]. apply (G w); auto.
Qed.

(* One term with a key. *)
Definition path_alone (key : option bytes) (t : sterm) : Prop :=
  selects_path key -> key = Some (bs "p") /\ no_imap db /\ boxes_named db /\ (1 <= length (s_text t) <= 31)%nat.
Lemma plain_bytes s : Forall plain s -> all_bytes s.
Proof. intros H. eapply Forall_impl; [|exact H]. unfold plain, c_char, is_byte. intros a Ha. lia. Qed.
Lemma path_key_dec key : k_path (keys_of key) = true <-> selects_path key.
Proof. destruct key as [k|]; cbn; [apply has_in|split; [discriminate|contradiction]]. Qed.

Lemma term_hits_ok key t : term_ok t -> path_alone key t ->
  (selects_path key -> s_anchor t = true -> match s_like t with Some ds => number ds = 0 | None => True end) ->
  exists h, term_hits F r (keys_of key) (model_term t) = Ok h /\ hv n (fun i => found db key t (N.of_nat i)) h.
Proof.
  intros (T1 & T2 & T3) PA PB. pose proof (plain_bytes _ T1) as TB. unfold term_hits, model_term. cbn [errs txt anc].
  destruct (k_path (keys_of key)) eqn:EK.
  - assert (SP : selects_path key) by now apply path_key_dec.
    destruct (PA SP) as (-> & NI & BN & HL). unfold found.
    assert (NOSEL : forall q, ~ selects (Some (bs "p")) q) by (intros q; destruct q; cbn; intuition discriminate).
    assert (HP : forall e, (s_anchor t = true -> e = 0) -> exists h, match_substring_in_paths F r (s_text t) (N.to_nat e) (s_anchor t) = Ok h /\
       hv n (fun i => exists m w, message db (N.of_nat i) = Some m /\ path_of db m = Some w /\ occurs (s_anchor t) e (s_text t) w) h).
    { intros e HE. now apply paths_hits. }
    assert (OT : forall f, over_tables f (table_keys (keys_of (Some (bs "p")))) (r_tabs r) (zeros r) = Ok (zeros r)).
    { intros f. change (table_keys (keys_of (Some (bs "p")))) with [false; false; false; false; false; false].
      repeat (destruct (r_tabs r) as [|? l]; [reflexivity|]; cbn [over_tables bind]; clear; revert l; intros l).
      destruct l as [|? [|? [|? [|? [|? l]]]]]; reflexivity. }
    destruct (s_like t) as [ds|] eqn:EL; cbn [option_map]; rewrite OT; cbn [bind].
    + replace (Z.to_nat (Z.of_N (number ds))) with (N.to_nat (number ds)) by lia.
      destruct (HP (number ds) (PB SP)) as (h & E & HV). exists h. split; [exact E|].
      eapply hv_ext; [exact HV|]. intros i _. unfold path_like. rewrite EL. split; [intros X; right; auto|].
      intros [(q & w & S & _)|[_ X]]; [exfalso; exact (NOSEL q S)|exact X].
    + change 0%nat with (N.to_nat 0). destruct (HP 0 ltac:(auto)) as (h & E & HV). exists h. split; [exact E|].
      eapply hv_ext; [exact HV|]. intros i _. unfold path_like. rewrite EL. split; [intros X; right; auto|].
      intros [(q & w & S & _)|[_ X]]; [exfalso; exact (NOSEL q S)|exact X].
  - assert (SP : ~ selects_path key) by (intros X; apply path_key_dec in X; congruence). unfold found, word_like.
    destruct (s_like t) as [ds|] eqn:EL; cbn [option_map].
    + destruct T3 as (D1 & D2 & D3 & D4).
      replace (Z.to_nat (Z.of_N (number ds))) with (N.to_nat (number ds)) by lia.
      destruct (substring_tables key (map tolower (s_text t)) (number ds) (s_anchor t)) as (h & E & HV);
        [now apply lower_bytes|rewrite map_length; assumption|assumption|].
      rewrite E. cbn [bind]. exists h. split; [reflexivity|]. eapply hv_ext; [exact HV|]. intros i _. unfold lower. tauto.
    + destruct (exact_tables key (map tolower (s_text t))) as (h & E & HV). rewrite E. cbn [bind]. exists h. split; [reflexivity|].
      eapply hv_ext; [exact HV|]. intros i _. unfold lower. tauto.
Qed.
End Hits.
