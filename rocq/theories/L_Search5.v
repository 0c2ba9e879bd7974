(* Whole arguments and the whole search. *)
From Coq Require Import Sorted.
From Verif Require Import Base L_Bits M_Encoding M_TokTable S_TokTable M_DbFile S_DbFile M_WuManber S_Match M_Search S_Search
  L_Encoding L_Encoding2 L_TokTable L_TokTable2 L_DbFile L_DbFile2 L_DbFile3 L_DbFile4 L_DbFile5 L_WuManber L_Search L_Search2 L_Search3 L_Search4.
Local Open Scope N_scope.

(* ---- flags ---- *)
Definition wants (ng : bool) (c : N) (fs : list (bool * N)) : bool :=
  existsb (fun f => eqb (fst f) ng && (tolower (snd f) =? c)) fs.
Lemma parse_flags_show fs : (forall ng c, In (ng, c) fs -> In c (bs "sSrRfF")) -> forall fc,
  parse_flags false fc (flat_map show_flag fs) =
  {| pos_s := pos_s fc || wants false 115 fs; neg_s := neg_s fc || wants true 115 fs;
     pos_r := pos_r fc || wants false 114 fs; neg_r := neg_r fc || wants true 114 fs;
     pos_f := pos_f fc || wants false 102 fs; neg_f := neg_f fc || wants true 102 fs |}.
Proof.
  induction fs as [|[ng c] fs IH]; intros H fc.
  - destruct fc. cbn. rewrite !orb_false_r. reflexivity.
  - assert (H' : forall ng c, In (ng, c) fs -> In c (bs "sSrRfF")) by (intros; eapply H; right; eassumption).
    specialize (IH H').
    assert (HC : In c (bs "sSrRfF")) by (apply (H ng); now left).
    unfold wants in *. cbn [flat_map existsb].
    assert (E : exists fc', parse_flags false fc (show_flag (ng, c) ++ flat_map show_flag fs) = parse_flags false fc' (flat_map show_flag fs) /\
      fc' = {| pos_s := pos_s fc || (eqb ng false && (tolower c =? 115)); neg_s := neg_s fc || (eqb ng true && (tolower c =? 115));
               pos_r := pos_r fc || (eqb ng false && (tolower c =? 114)); neg_r := neg_r fc || (eqb ng true && (tolower c =? 114));
               pos_f := pos_f fc || (eqb ng false && (tolower c =? 102)); neg_f := neg_f fc || (eqb ng true && (tolower c =? 102)) |}).
    { cbn in HC. destruct fc as [a1 a2 a3 a4 a5 a6]. 
      destruct HC as [<-|[<-|[<-|[<-|[<-|[<-|[]]]]]]]; destruct ng; (eexists; split; [reflexivity|]);
        cbn [pos_s neg_s pos_r neg_r pos_f neg_f negb eqb andb]; rewrite ?orb_false_r, ?orb_true_r; reflexivity. }
    destruct E as (fc' & -> & ->). rewrite IH. cbn [pos_s neg_s pos_r neg_r pos_f neg_f fst snd]. rewrite <- !orb_assoc. reflexivity.
Qed.
Lemma wants_in ng c fs : wants ng c fs = true <-> exists x, In (ng, x) fs /\ tolower x = c.
Proof.
  unfold wants. rewrite existsb_exists. split.
  - intros ([g x] & HI & E). apply andb_true_iff in E as [E1 E2]. apply eqb_prop in E1. cbn in E1. subst. apply N.eqb_eq in E2. eauto.
  - intros (x & HI & E). exists (ng, x). split; [exact HI|]. cbn. apply andb_true_iff. split; [apply eqb_reflx|now apply N.eqb_eq].
Qed.
Lemma cond_pos (p : bool) (s : bool) : (negb p || s) = true <-> (p = true -> s = true).
Proof. destruct p, s; cbn; intuition congruence. Qed.
Lemma flags_meaning m fs : (forall ng c, In (ng, c) fs -> In c (bs "sSrRfF")) ->
  let fc := parse_flags false no_cond (flat_map show_flag fs) in
  ((negb (pos_s fc) || seen m) && (negb (neg_s fc) || negb (seen m)) &&
   (negb (pos_r fc) || replied m) && (negb (neg_r fc) || negb (replied m)) &&
   (negb (pos_f fc) || flagged m) && (negb (neg_f fc) || negb (flagged m))) = true <->
  forall ng c, In (ng, c) fs -> flag_on m c = negb ng.
Proof.
  intros H fc. unfold fc. rewrite parse_flags_show by assumption. cbn [pos_s neg_s pos_r neg_r pos_f neg_f no_cond orb].
  rewrite !andb_true_iff, !cond_pos, !wants_in. split.
  - intros (((((A1 & A2) & A3) & A4) & A5) & A6) ng c HI. pose proof (H ng c HI) as HC. cbn in HC.
    assert (K : tolower c = 115 \/ tolower c = 114 \/ tolower c = 102).
    { destruct HC as [<-|[<-|[<-|[<-|[<-|[<-|[]]]]]]]; vm_compute; tauto. }
    unfold flag_on. destruct K as [K|[K|K]]; rewrite K; destruct ng; cbn [negb].
    + apply negb_true_iff. apply A2. eauto.
    + apply A1. eauto.
    + apply negb_true_iff. apply A4. eauto.
    + apply A3. eauto.
    + apply negb_true_iff. apply A6. eauto.
    + apply A5. eauto.
  - intros HH. repeat split; intros (x & HI & K); specialize (HH _ _ HI); unfold flag_on in HH; rewrite K in HH; cbn [negb] in HH; now rewrite ?HH.
Qed.

(* ---- sizes ---- *)
Lemma size_parse z : size_ok z -> parse_size_expr (show_size z) = Ok (Z.of_N (size_value z)).
Proof.
  intros (Z1 & Z2 & Z3 & Z4). unfold parse_size_expr, show_size, size_value in *.
  assert (NL : number (z_digits z) < 2 ^ 31).
  { eapply N.le_lt_trans; [|exact Z3]. destruct (z_unit z); [destruct ((n =? ch "k") || (n =? ch "K"))|]; lia. }
  destruct (z_unit z) as [c|].
  - assert (ND : isdigit c = false) by (cbn in Z4; destruct Z4 as [<-|[<-|[<-|[<-|[]]]]]; reflexivity).
    rewrite scan_int_digits; [|assumption|assumption|now apply digits_stop|assumption]. cbn [bind].
    set (v := number (z_digits z)) in *. cbn in Z4.
    assert (SH : forall k, v * 2 ^ k < 2 ^ 31 -> shift_int (Z.of_N v) k = Ok (Z.of_N (v * 2 ^ k))).
    { intros k Hk. unfold shift_int. assert (E : (Z.of_N v * 2 ^ Z.of_N k)%Z = Z.of_N (v * 2 ^ k)) by (rewrite N2Z.inj_mul, N2Z.inj_pow; reflexivity).
      rewrite E. set (w := v * 2 ^ k) in *. change (2 ^ 31) with 2147483648 in Hk. change (2 ^ 31)%Z with 2147483648%Z.
      destruct ((Z.of_N v <? 0) || (2147483648 <=? Z.of_N w))%Z eqn:X; [|reflexivity]. apply orb_true_iff in X as [X|X]; [apply Z.ltb_lt in X|apply Z.leb_le in X]; lia. }
    destruct Z4 as [<-|[<-|[<-|[<-|[]]]]].
    + exact (SH 10 Z3).
    + exact (SH 10 Z3).
    + exact (SH 20 Z3).
    + exact (SH 20 Z3).
  - rewrite app_nil_r. pose proof (scan_int_digits (z_digits z) [] Z1 Z2) as SI. rewrite app_nil_r in SI.
    rewrite SI; [|now apply digits_all|assumption]. cbn [bind]. now rewrite N.mul_1_r.
Qed.
Lemma size_no_dash z : size_ok z -> ~ In 45 (show_size z).
Proof.
  intros (Z1 & Z2 & Z3 & Z4) HI. unfold show_size in HI. apply in_app_iff in HI as [HI|HI].
  - unfold digit_string in Z2. rewrite Forall_forall in Z2. apply Z2, digit_range in HI. lia.
  - destruct (z_unit z) as [c|]; [|destruct HI]. destruct HI as [->|[]]. cbn in Z4. intuition discriminate.
Qed.
Lemma show_size_cons z : size_ok z -> exists c s, show_size z = c :: s /\ c <> 58.
Proof.
  intros (Z1 & Z2 & _). unfold show_size. destruct (z_digits z) as [|d ds]; [congruence|]. exists d. eexists. split; [reflexivity|].
  inversion Z2 as [|? ? H _]; subst. apply digit_range in H. lia.
Qed.
Lemma size_range lo hi : opt_ok lo -> opt_ok hi -> parse_size_range (show_opt lo ++ bs "-" ++ show_opt hi) = Ok (zopt lo, zopt hi).
Proof.
  intros HL HH. change (bs "-" ++ show_opt hi) with (45 :: show_opt hi). unfold parse_size_range.
  assert (E : drop_colon (show_opt lo ++ 45 :: show_opt hi) = show_opt lo ++ 45 :: show_opt hi).
  { destruct lo as [z|]; cbn [show_opt].
    - destruct (show_size_cons z HL) as (c & s & E & HC). rewrite E. cbn [app drop_colon]. destruct (c =? 58) eqn:X; [apply N.eqb_eq in X; congruence|reflexivity].
    - reflexivity. }
  rewrite E. rewrite split_at_app.
  2:{ destruct lo as [z|]; [now apply size_no_dash|intros []]. }
  assert (P : forall o, opt_ok o -> match show_opt o with [] => Ok None | _ => let! v := parse_size_expr (show_opt o) in Ok (Some v) end = Ok (zopt o)).
  { intros [z|] HO; [|reflexivity]. cbn [show_opt zopt option_map]. destruct (show_size_cons z HO) as (c & s & EQ & _). rewrite EQ at 1.
    now rewrite size_parse. }
  rewrite (P lo HL). cbn [bind]. rewrite (P hi HH). reflexivity.
Qed.
Lemma order_between lo hi v : let (a, b) := order_ends lo hi in
  (match a with Some a => (a <? v)%Z | None => true end && match b with Some b => (v <? b)%Z | None => true end) = true <-> between lo hi v.
Proof.
  unfold order_ends, between. destruct lo as [a|], hi as [b|]; try (rewrite andb_true_iff, ?Z.ltb_lt; tauto).
  destruct (b <? a)%Z eqn:E; [apply Z.ltb_lt in E|apply Z.ltb_ge in E]; rewrite andb_true_iff, !Z.ltb_lt; lia.
Qed.
Lemma u32_pos v : (0 <= v < 2 ^ 31)%Z -> Z.of_N (u32_of_int v) = v.
Proof. intros H. unfold u32_of_int. change (2 ^ 31)%Z with 2147483648%Z in H. rewrite Z.mod_small by (change (2 ^ 32)%Z with 4294967296%Z; lia). lia. Qed.
Lemma zopt_pos o v : opt_ok o -> zopt o = Some v -> (0 <= v < 2 ^ 31)%Z.
Proof.
  destruct o as [z|]; [|discriminate]. intros (_ & _ & H & _) [= <-]. change (2 ^ 31)%Z with (Z.of_N (2 ^ 31)). lia.
Qed.

Section Args.
Context (sd : bytes -> option (option Z * option Z)) (F : bytes) (r : read_db) (hashf : N -> bytes -> N) (db : database)
  (OK : db_ok hashf db) (V : view F r db).
Local Notation n := (N.to_nat (n_msgs db)).

Lemma size_known x : In x (msgs db) -> src x <> S_dead -> no_imap db -> exists s, size_of db x = Some s.
Proof.
  intros HI HD NI. unfold size_of. destruct (src x) as [|p mt sz|p|fi mi] eqn:ES; [congruence|eauto|exfalso; exact (NI x p HI ES)|].
  destruct (ok_places _ _ OK x fi mi HI ES) as (mb & sta & ln & P1 & P2 & P3 & P4 & P5 & P6). rewrite P1, P5. eauto.
Qed.
Lemma flags_hits fs : (forall ng c, In (ng, c) fs -> In c (bs "sSrRfF")) ->
  exists h, find_flag_matches F r (flat_map show_flag fs) = Ok h /\ hv n (fun i => arg_sat sd db (A_flags fs) (N.of_nat i)) h.
Proof.
  intros H. unfold find_flag_matches, each_msg. rewrite (v_n _ _ _ V). apply for_msgs_hv. intros j Hj.
  destruct (message_some db j Hj) as [x Hx]. unfold type_and_flags. rewrite (v_type _ _ _ V j x Hx). cbn [fetch bind].
  destruct (type_byte_bits x) as (_ & T2 & T3 & T4). rewrite T2, T3, T4. eexists. split; [reflexivity|].
  rewrite flags_meaning by assumption. cbn [arg_sat]. rewrite message_nat, Hx. split.
  - intros X. exists x. auto.
  - intros (m & [= <-] & X). exact X.
Qed.
Lemma size_hits lo hi : opt_ok lo -> opt_ok hi -> no_imap db ->
  exists h P, find_size_matches F r (show_opt lo ++ bs "-" ++ show_opt hi) = Ok h /\ hv n P h /\
    forall i, (i < n)%nat -> live db (N.of_nat i) -> (P i <-> arg_sat sd db (A_size lo hi) (N.of_nat i)).
Proof.
  intros HL HH NI. unfold find_size_matches. rewrite size_range by assumption. cbn [bind].
  destruct (order_ends (zopt lo) (zopt hi)) as [a b] eqn:EO. unfold each_msg. rewrite (v_n _ _ _ V).
  set (P := fun i : nat => exists s, ui F (r_size r + N.of_nat i) = Ok s /\ between (zopt lo) (zopt hi) (Z.of_N s)).
  destruct (for_msgs_hv (fun i => let! size := ui F (r_size r + i) in
      Ok (match a with Some a => u32_of_int a <? size | None => true end && match b with Some b => size <? u32_of_int b | None => true end)) P n)
    as (h & E & HV).
  - intros j Hj. destruct (message_some db j Hj) as [x Hx]. destruct (v_size _ _ _ V j x Hx) as (s & ES & _). rewrite ES. cbn [bind].
    eexists. split; [reflexivity|]. pose proof (order_between (zopt lo) (zopt hi) (Z.of_N s)) as OB. rewrite EO in OB. unfold P. rewrite ES.
    assert (PA : forall v, a = Some v -> (0 <= v < 2 ^ 31)%Z).
    { intros v ->. unfold order_ends in EO. destruct (zopt lo) as [x1|] eqn:X1, (zopt hi) as [x2|] eqn:X2; try (injection EO as <- <-); try discriminate; try (destruct (x2 <? x1)%Z; injection EO as <- <-); eauto using zopt_pos. }
    assert (PB : forall v, b = Some v -> (0 <= v < 2 ^ 31)%Z).
    { intros v ->. unfold order_ends in EO. destruct (zopt lo) as [x1|] eqn:X1, (zopt hi) as [x2|] eqn:X2; try (injection EO as <- <-); try discriminate; try (destruct (x2 <? x1)%Z; injection EO as <- <-); eauto using zopt_pos. }
    assert (EQ : (match a with Some a => u32_of_int a <? s | None => true end && match b with Some b => s <? u32_of_int b | None => true end) =
      (match a with Some a => (a <? Z.of_N s)%Z | None => true end && match b with Some b => (Z.of_N s <? b)%Z | None => true end)).
    { f_equal; [destruct a as [v|]|destruct b as [v|]]; try reflexivity.
      - pose proof (u32_pos v (PA v eq_refl)). apply Bool.eq_true_iff_eq. rewrite N.ltb_lt, Z.ltb_lt. lia.
      - pose proof (u32_pos v (PB v eq_refl)). apply Bool.eq_true_iff_eq. rewrite N.ltb_lt, Z.ltb_lt. lia. }
    rewrite EQ, OB. split; [intros X; exists s; auto|intros (s' & [= <-] & X); exact X].
  - exists h, P. split; [exact E|]. split; [exact HV|]. intros i Hi HLv. destruct (message_some db i Hi) as [x Hx].
    destruct HLv as (m & HM & HD). rewrite message_nat, Hx in HM. injection HM as <-.
    destruct (size_known x (nth_error_In _ _ Hx) HD NI) as [s HS]. destruct (v_size _ _ _ V i x Hx) as (s1 & ES & EQ).
    pose proof (EQ s HS) as ->. unfold P. rewrite ES. cbn [arg_sat]. rewrite message_nat, Hx. split.
    + intros (s' & [= <-] & X). exists x, s. auto.
    + intros (m & s' & [= <-] & E2 & X). rewrite HS in E2. injection E2 as <-. exists s. auto.
Qed.
Lemma date_hits e : sd e <> None ->
  exists h P, find_date_matches sd F r e = Ok h /\ hv n P h /\
    forall i, (i < n)%nat -> live db (N.of_nat i) -> (P i <-> arg_sat sd db (A_date e) (N.of_nat i)).
Proof.
  intros HS. unfold find_date_matches. destruct (sd e) as [[lo hi]|] eqn:ES; [|congruence].
  destruct (order_ends lo hi) as [a b] eqn:EO. unfold each_msg. rewrite (v_n _ _ _ V).
  set (P := fun i : nat => exists d, ui F (r_date r + N.of_nat i) = Ok d /\ between lo hi (Z.of_N d)).
  destruct (for_msgs_hv (fun i => let! date := ui F (r_date r + i) in
      Ok (match a with Some a => (a <? Z.of_N date)%Z | None => true end && match b with Some b => (Z.of_N date <? b)%Z | None => true end)) P n)
    as (h & E & HV).
  - intros j Hj. destruct (message_some db j Hj) as [x Hx]. destruct (v_date _ _ _ V j x Hx) as (d & ED & _). rewrite ED. cbn [bind].
    eexists. split; [reflexivity|]. pose proof (order_between lo hi (Z.of_N d)) as OB. rewrite EO in OB. unfold P. rewrite ED, OB.
    split; [intros X; exists d; auto|intros (s' & [= <-] & X); exact X].
  - exists h, P. split; [exact E|]. split; [exact HV|]. intros i Hi HLv. destruct (message_some db i Hi) as [x Hx].
    destruct HLv as (m & HM & HD). rewrite message_nat, Hx in HM. injection HM as <-.
    destruct (v_date _ _ _ V i x Hx) as (d & ED & EQ). pose proof (EQ HD) as ->. unfold P. rewrite ED. cbn [arg_sat]. rewrite message_nat, Hx, ES. split.
    + intros (s' & [= <-] & X). exists x, lo, hi. auto.
    + intros (m & lo' & hi' & [= <-] & [= <- <-] & X). exists (date x). auto.
Qed.

(* Conditions on dates and sizes mean nothing for a dead message: its entry has neither. *)
Definition any_message (a : sarg) : Prop := match a with A_date _ | A_size _ _ => False | _ => True end.

Lemma or_false a h : hv n a h -> hv n a (zip_with orb (zeros r) (zip_with andb (ones r) h)).
Proof.
  intros H. eapply hv_ext; [exact (hv_or _ _ _ _ _ (zeros_hv F r db V) (hv_and _ _ _ _ _ (ones_hv F r db V) H))|].
  intros i _. cbn beta. split; [intros [X|[_ X]]; [discriminate|exact X]|tauto].
Qed.
Lemma show_alternatives_no_colon al : (forall ts t, In ts al -> In t ts -> term_ok t) -> ~ In 58 (show_alternatives al).
Proof.
  intros H HI. unfold show_alternatives in HI.
  assert (J : forall sep l, ~ In 58 sep -> (forall x, In x l -> ~ In 58 x) -> ~ In 58 (join sep l)).
  { intros sep l HS. induction l as [|x l IH]; intros HL; [auto|]. destruct l as [|y l]; [apply HL; now left|].
    change (join sep (x :: y :: l)) with (x ++ sep ++ join sep (y :: l)). rewrite !in_app_iff. intros [X|[X|X]]; [revert X; apply HL; now left|auto|].
    revert X. apply IH. intros z Hz. apply HL. now right. }
  revert HI. apply J; [cbn; intuition discriminate|]. intros x Hx. apply in_map_iff in Hx as (ts & <- & Hts).
  apply J; [cbn; intuition discriminate|]. intros y Hy. apply in_map_iff in Hy as (t & <- & Ht). apply clean_not; [apply clean_term; eauto|auto].
Qed.

Lemma arg_hits_ok a : arg_ok sd db a -> exists h P, arg_hits sd F r (show_arg a) = Ok h /\ hv n P h /\
  forall i, (i < n)%nat -> live db (N.of_nat i) \/ any_message a -> (P i <-> arg_sat sd db a (N.of_nat i)).
Proof.
  destruct a as [key al|id|e|lo hi|fs]; cbn [arg_ok]; intros H.
  - destruct H as (NE & HT & HL & HK). change {| s_not := false; s_anchor := false; s_text := []; s_like := None |} with t0 in HL.
    assert (HP : forall ts t, In ts al -> In t ts -> path_alone db key t).
    { intros ts t I1 I2 SP. destruct key as [k|]; [|destruct SP]. destruct HK as [_ HK]. destruct (HK SP) as (-> & A1 & A2 & A3). eauto 10. }
    destruct al as [|ts rest]; [congruence|].
    destruct (words_loop_ok F r db V key (S (length (show_alternatives (ts :: rest)))) ts rest (fun _ => True) (fun _ => false = true) (ones r) (zeros r))
      as (h1 & h2 & E & HV).
    + apply (HT ts). now left.
    + apply Forall_forall. intros u Hu. apply (HT u). now right.
    + intros t Ht. apply in_app_iff in Ht as [Ht|Ht].
      * split; [apply (proj2 (HT ts ltac:(now left))); exact Ht|apply (HP ts); [now left|exact Ht]].
      * apply in_concat in Ht as (u & Hu & Ht). split; [apply (proj2 (HT u ltac:(now right))); exact Ht|apply (HP u); [now right|exact Ht]].
    + exact HL.
    + lia.
    + exact (ones_hv F r db V).
    + exact (zeros_hv F r db V).
    + exists (zip_with orb h2 h1). eexists. split; [|split; [exact HV|]].
      2:{ intros i _ _. cbn beta. cbn [arg_sat]. split.
          - intros [X|[[_ X]|(us & Hu & X)]]; [discriminate|exists ts; split; [now left|exact X]|exists us; split; [now right|exact X]].
          - intros (us & [<-|Hu] & X); [right; left; auto|right; right; eauto]. }
      unfold arg_hits. destruct key as [k|]; cbn [show_arg keys_of] in *.
      * destruct HK as [HK1 _]. rewrite Forall_forall in HK1. change (bs ":" ++ show_alternatives (ts :: rest)) with (58 :: show_alternatives (ts :: rest)).
        assert (NO : forall c, c = 58 \/ c = 100 \/ c = 122 \/ c = 70 \/ c = 109 -> ~ In c k).
        { intros c Hc HI. destruct (HK1 c HI) as (B1 & B2 & B3 & B4 & B5). change (ch ":") with 58 in *. change (ch "d") with 100 in *.
          change (ch "z") with 122 in *. change (ch "F") with 70 in *. change (ch "m") with 109 in *. tauto. }
        rewrite split_at_app by (apply NO; auto).
        assert (HF : forall c, c = 100 \/ c = 122 \/ c = 70 \/ c = 109 -> has c k = false).
        { intros c Hc. destruct (has c k) eqn:X; [|reflexivity]. apply has_in in X. exfalso. revert X. apply NO. tauto. }
        assert (K1 : k_date (parse_key k) = false) by (apply HF; auto).
        assert (K2 : k_size (parse_key k) = false) by (apply HF; auto).
        assert (K3 : k_flags (parse_key k) = false) by (apply HF; auto).
        assert (K4 : k_msgid (parse_key k) = false) by (apply HF; auto).
        rewrite K4. cbn [andb bind]. rewrite K1, K2, K3, K4, E. reflexivity.
      * rewrite split_at_none. 2:{ apply show_alternatives_no_colon. intros us t I1 I2. apply (proj2 (HT us I1)). exact I2. }
        cbn [bind default_keys k_date k_size k_flags k_msgid]. rewrite E. reflexivity.
  - destruct (ids_hits F r db (lower id) V) as (h & E & HV). eexists. eexists. split; [|split; [exact (or_false _ _ HV)|]].
    + unfold arg_hits, show_arg. change (bs "m:" ++ id) with (109 :: 58 :: id). cbn [split_at]. change (109 =? 58) with false. change (58 =? 58) with true.
      cbn iota beta. change (parse_key [109]) with {| k_to := false; k_cc := false; k_from := false; k_subject := false; k_body := false; k_att := false;
         k_date := false; k_size := false; k_path := false; k_msgid := true; k_flags := false |}.
      cbn [bind k_msgid k_date k_size k_flags andb]. change (1 <? length [109%N])%nat with false. cbn [bind k_msgid k_date k_size k_flags]. unfold lower in E. rewrite E. reflexivity.
    + intros i _ _. reflexivity.
  - destruct H as [_ H]. destruct (date_hits e H) as (h & P & E & HV & HP). eexists. exists P. split; [|split; [exact (or_false _ _ HV)|]].
    + unfold arg_hits, show_arg. change (bs "d:" ++ e) with (100 :: 58 :: e). cbn [split_at]. change (100 =? 58) with false. change (58 =? 58) with true.
      cbn iota beta. change (parse_key [100]) with {| k_to := false; k_cc := false; k_from := false; k_subject := false; k_body := false; k_att := false;
         k_date := true; k_size := false; k_path := false; k_msgid := false; k_flags := false |}.
      cbn [bind k_msgid k_date andb]. rewrite E. reflexivity.
    + intros i Hi [HL|[]]. auto.
  - destruct H as (H1 & H2 & H3). destruct (size_hits lo hi H1 H2 H3) as (h & P & E & HV & HP). eexists. exists P. split; [|split; [exact (or_false _ _ HV)|]].
    + unfold arg_hits, show_arg. change (bs "z:" ++ show_opt lo ++ bs "-" ++ show_opt hi) with (122 :: 58 :: (show_opt lo ++ bs "-" ++ show_opt hi)).
      cbn [split_at]. change (122 =? 58) with false. change (58 =? 58) with true.
      cbn iota beta. change (parse_key [122]) with {| k_to := false; k_cc := false; k_from := false; k_subject := false; k_body := false; k_att := false;
         k_date := false; k_size := true; k_path := false; k_msgid := false; k_flags := false |}.
      cbn [bind k_msgid k_date k_size andb]. rewrite E. reflexivity.
    + intros i Hi [HL|[]]. auto.
  - destruct (flags_hits fs H) as (h & E & HV). eexists. eexists. split; [|split; [exact (or_false _ _ HV)|]].
    + unfold arg_hits, show_arg. change (bs "F:" ++ flat_map show_flag fs) with (70 :: 58 :: flat_map show_flag fs). cbn [split_at].
      change (70 =? 58) with false. change (58 =? 58) with true.
      cbn iota beta. change (parse_key [70]) with {| k_to := false; k_cc := false; k_from := false; k_subject := false; k_body := false; k_att := false;
         k_date := false; k_size := false; k_path := false; k_msgid := false; k_flags := true |}.
      cbn [bind k_msgid k_date k_size k_flags andb]. rewrite E. reflexivity.
    + intros i _ _. reflexivity.
Qed.
Lemma args_hits_ok args : Forall (arg_ok sd db) args -> forall Q hit3, hv n Q hit3 ->
  exists h P, args_hits sd F r (map show_arg args) hit3 = Ok h /\ hv n P h /\
    forall i, (i < n)%nat -> live db (N.of_nat i) \/ Forall any_message args ->
      (P i <-> Q i /\ Forall (fun a => arg_sat sd db a (N.of_nat i)) args).
Proof.
  induction 1 as [|a args HA _ IH]; intros Q hit3 HQ.
  - exists hit3, Q. split; [reflexivity|]. split; [exact HQ|]. intros i _ _. split; [intros X; split; [exact X|constructor]|tauto].
  - destruct (arg_hits_ok a HA) as (h & P & E & HV & HP). cbn [map args_hits]. rewrite E. cbn [bind].
    destruct (IH _ _ (hv_and _ _ _ _ _ HQ HV)) as (h' & P' & E' & HV' & HP'). exists h', P'. split; [exact E'|]. split; [exact HV'|].
    intros i Hi HL. rewrite (HP' i Hi). 2:{ destruct HL as [HL|HL]; [now left|right; now inversion HL]. }
    assert (HPi : P i <-> arg_sat sd db a (N.of_nat i)). { apply HP; [exact Hi|]. destruct HL as [HL|HL]; [now left|right; now inversion HL]. }
    rewrite HPi. split; [intros [[X Y] Z]; split; [exact X|constructor; assumption]|]. intros [X Z]. inversion Z; subst. auto.
Qed.
End Args.
