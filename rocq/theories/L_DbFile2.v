From Coq Require Import Sorted.
From Verif Require Import Base L_Bits M_Encoding M_TokTable S_TokTable M_DbFile S_DbFile L_Encoding L_Encoding2 L_TokTable L_TokTable2 L_DbFile.
Local Open Scope N_scope.

Lemma blen_app a b : blen (a ++ b) = blen a + blen b.
Proof. unfold blen. rewrite app_length. lia. Qed.
Lemma blen_le32 v : blen (le32 v) = 4.
Proof. reflexivity. Qed.

(* ---- items ---- *)
Lemma write_items_spec off items : forall i c,
  wspec (fst (write_items off i items c)) (off + i) (off + i + N.of_nat (length items)) c (snd (write_items off i items c)) /\
  snd (write_items off i items c) = c + sumN (map blen items).
Proof.
  induction items as [|b items IH]; intros i c; cbn [write_items fst snd].
  - split; [|cbn; lia]. split; [constructor|]. split; [constructor|]. reflexivity.
  - destruct (IH (i + 1) (c + blen b)) as [(A & B & C) D]. set (r := write_items off (i + 1) items (c + blen b)) in *.
    split; [|rewrite D; cbn [map sumN fold_right]; fold (sumN (map blen items)); lia]. split; [|split].
    + cbn. fold (words (fst r)). constructor; [|exact A]. intros H. unfold inr in B. rewrite Forall_forall in B. apply B in H. lia.
    + cbn. fold (words (fst r)). constructor; [cbn [length]; lia|]. eapply Forall_impl; [|exact B]. cbn [length]. intros x. cbn beta. lia.
    + cbn. split; [reflexivity|exact C].
Qed.

Lemma write_items_in off items : forall i c k b, nth_error items k = Some b ->
  exists p, In (W32 (off + i + N.of_nat k) p) (fst (write_items off i items c)) /\
            In (WB p b) (fst (write_items off i items c)).
Proof.
  induction items as [|b0 items IH]; intros i c k b H; [destruct k; discriminate|]. cbn [write_items fst].
  destruct k as [|k].
  - injection H as ->. exists c. split; [left; f_equal; lia|right; now left].
  - destruct (IH (i + 1) (c + blen b0) k b H) as (p & P1 & P2). exists p.
    split; [right; right|right; now right]. replace (off + i + N.of_nat (S k)) with (off + (i + 1) + N.of_nat k) by lia. exact P1.
Qed.

(* ---- mapping ---- *)
Fixpoint tabs_words (ts : list (toktable matches)) : N :=
  match ts with [] => 0 | t :: r => tn t + tn t + tabs_words r end.
Lemma map_tabs_total ts : forall total, snd (map_tabs total ts) = total + tabs_words ts.
Proof. induction ts as [|t ts IH]; intros total; cbn [map_tabs snd tabs_words]; [lia|]. rewrite IH. lia. Qed.
Lemma map_tabs_length ts : forall total, length (fst (map_tabs total ts)) = length ts.
Proof. induction ts as [|t ts IH]; intros total; cbn [map_tabs fst length]; [reflexivity|]. now rewrite IH. Qed.

(* ---- tables ---- *)
Lemma collect_ok {P} hashf (t : toktable P) : tinv hashf t -> collect t = Ok (toks (slots t)).
Proof.
  intros H. unfold collect. pose proof (tinv_count hashf t H) as E. unfold entries in E. rewrite map_length in E.
  rewrite E. rewrite N.ltb_irrefl. reflexivity.
Qed.
Lemma tn_toks {P} hashf (t : toktable P) : tinv hashf t -> tn t = N.of_nat (length (toks (slots t))).
Proof. intros H. rewrite (tinv_count hashf t H). unfold entries. now rewrite map_length. Qed.

Lemma sumN_app a b : sumN (a ++ b) = sumN a + sumN b.
Proof. unfold sumN. induction a; cbn [app fold_right]; lia. Qed.
Lemma sumN_map_add {A} (f g : A -> N) l : sumN (map (fun x => f x + g x) l) = sumN (map f l) + sumN (map g l).
Proof. induction l as [|a l IH]; cbn [map sumN fold_right]; [reflexivity|]. unfold sumN in IH. lia. Qed.

Lemma write_toktable_ok hashf t a b c : tinv hashf t -> b = a + tn t ->
  exists ws, write_toktable t (a, b) c = Ok (ws, c + toktable_char_length t) /\
    wspec ws a (b + tn t) c (c + toktable_char_length t) /\
    forall k tk, nth_error (toks (slots t)) k = Some tk ->
      exists p q, In (W32 (a + N.of_nat k) p) ws /\ In (WB p (text_item tk)) ws /\
                  In (W32 (b + N.of_nat k) q) ws /\ In (WB q (enc_item (pay tk))) ws.
Proof.
  intros HT Hb. unfold write_toktable. rewrite (collect_ok hashf t HT). cbn [bind fst snd].
  pose proof (tn_toks hashf t HT) as HN. set (s := toks (slots t)) in *.
  set (r1 := write_items a 0 (map text_item s) c).
  set (r2 := write_items b 0 (map (fun k => enc_item (pay k)) s) (snd r1)).
  destruct (write_items_spec a (map text_item s) 0 c) as [W1 L1]. fold r1 in W1, L1.
  destruct (write_items_spec b (map (fun k => enc_item (pay k)) s) 0 (snd r1)) as [W2 L2]. fold r2 in W2, L2.
  assert (E : snd r2 = c + toktable_char_length t).
  { rewrite L2, L1. unfold toktable_char_length. fold s. rewrite sumN_map_add.
    rewrite !map_map.
    replace (map (fun x => blen (text_item x)) s) with (map (fun k : token matches => 1 + blen (text k)) s)
      by (apply map_ext; intros k; unfold text_item; rewrite blen_app; change (blen [0]) with 1; lia).
    replace (map (fun x => blen (enc_item (pay x))) s) with (map (fun k : token matches => 1 + mn (pay k)) s)
      by (apply map_ext; intros k; unfold enc_item, mn; rewrite blen_app; change (blen [255]) with 1; unfold blen; lia).
    lia. }
  rewrite map_length in W1, W2. rewrite <- HN in W1, W2.
  rewrite N.add_0_r in W1, W2.
  exists (fst r1 ++ fst r2). rewrite <- E. split; [reflexivity|]. split.
  - apply (wspec_app _ _ a b _ c (snd r1)); [|exact W2|lia|lia]. subst b. exact W1.
  - intros k tk Hk.
    destruct (write_items_in a (map text_item s) 0 c k (text_item tk)) as (p & P1 & P2); [rewrite nth_error_map; fold s; rewrite Hk; reflexivity|].
    destruct (write_items_in b (map (fun k => enc_item (pay k)) s) 0 (snd r1) k (enc_item (pay tk))) as (q & Q1 & Q2); [rewrite nth_error_map; rewrite Hk; reflexivity|].
    fold r1 in P1, P2. fold r2 in Q1, Q2. rewrite N.add_0_r in P1, Q1.
    exists p, q. rewrite !in_app_iff. auto.
Qed.

Lemma write_toktables_ok hashf ts : forall total c, (forall t, In t ts -> tinv hashf t) ->
  exists ws, write_toktables ts (fst (map_tabs total ts)) c = Ok (ws, c + sumN (map toktable_char_length ts)) /\
    wspec ws total (total + tabs_words ts) c (c + sumN (map toktable_char_length ts)) /\
    forall j t a b, nth_error ts j = Some t -> nth_error (fst (map_tabs total ts)) j = Some (a, b) ->
      total <= a /\ b = a + tn t /\ b + tn t <= total + tabs_words ts /\
      forall k tk, nth_error (toks (slots t)) k = Some tk ->
      exists p q, In (W32 (a + N.of_nat k) p) ws /\ In (WB p (text_item tk)) ws /\
                  In (W32 (b + N.of_nat k) q) ws /\ In (WB q (enc_item (pay tk))) ws.
Proof.
  induction ts as [|t ts IH]; intros total c HT.
  - exists []. cbn. rewrite N.add_0_r. split; [reflexivity|]. split.
    + split; [constructor|]. split; [constructor|]. reflexivity.
    + intros [|j]; discriminate.
  - cbn [map_tabs fst write_toktables map tabs_words].
    destruct (write_toktable_ok hashf t total (total + tn t) c) as (ws & E1 & W1 & I1); [apply HT; now left|reflexivity|].
    rewrite E1. cbn [bind].
    destruct (IH (total + tn t + tn t) (c + toktable_char_length t)) as (ws' & E2 & W2 & I2); [intros x Hx; apply HT; now right|].
    rewrite E2. cbn [bind]. exists (ws ++ ws').
    change (sumN (toktable_char_length t :: map toktable_char_length ts)) with (toktable_char_length t + sumN (map toktable_char_length ts)).
    rewrite N.add_assoc. split; [reflexivity|]. split.
    + replace (total + (tn t + tn t + tabs_words ts)) with (total + tn t + tn t + tabs_words ts) by lia.
      eapply wspec_app; [exact W1|exact W2|lia|lia].
    + intros [|j] t' a b Hj Ho; cbn [nth_error] in Hj, Ho.
      * injection Hj as <-. injection Ho as <- <-. repeat (split; [lia|]). intros k tk Hk.
        destruct (I1 k tk Hk) as (p & q & Q1 & Q2 & Q3 & Q4). exists p, q. rewrite !in_app_iff. auto.
      * destruct (I2 j t' a b Hj Ho) as (R1 & R2 & R3 & R4). split; [lia|]. split; [exact R2|]. split; [lia|]. intros k tk Hk.
        destruct (R4 k tk Hk) as (p & q & Q1 & Q2 & Q3 & Q4). exists p, q. rewrite !in_app_iff. auto.
Qed.

Lemma write_toktable2_ok hashf t m c : tinv hashf t -> id_enc0 m = id_tok m + tn t -> id_enc1 m = id_enc0 m + tn t ->
  exists ws, write_toktable2 t m c = Ok (ws, c + toktable2_char_length t) /\
    wspec ws (id_tok m) (id_enc1 m + tn t) c (c + toktable2_char_length t) /\
    forall k tk, nth_error (toks (slots t)) k = Some tk ->
      exists p q q1, In (W32 (id_tok m + N.of_nat k) p) ws /\ In (WB p (text_item tk)) ws /\
                  In (W32 (id_enc0 m + N.of_nat k) q) ws /\ In (WB q (enc_item (fst (pay tk)))) ws /\
                  In (W32 (id_enc1 m + N.of_nat k) q1) ws /\ In (WB q1 (enc_item (snd (pay tk)))) ws.
Proof.
  intros HT H0 H1. unfold write_toktable2. rewrite (collect_ok hashf t HT). cbn [bind].
  pose proof (tn_toks hashf t HT) as HN. set (s := toks (slots t)) in *.
  set (a := id_tok m) in *. set (b := id_enc0 m) in *. set (d := id_enc1 m) in *.
  set (r1 := write_items a 0 (map text_item s) c).
  set (r2 := write_items b 0 (map (fun k => enc_item (fst (pay k))) s) (snd r1)).
  set (r3 := write_items d 0 (map (fun k => enc_item (snd (pay k))) s) (snd r2)).
  destruct (write_items_spec a (map text_item s) 0 c) as [W1 L1]. fold r1 in W1, L1.
  destruct (write_items_spec b (map (fun k => enc_item (fst (pay k))) s) 0 (snd r1)) as [W2 L2]. fold r2 in W2, L2.
  destruct (write_items_spec d (map (fun k => enc_item (snd (pay k))) s) 0 (snd r2)) as [W3 L3]. fold r3 in W3, L3.
  assert (E : snd r3 = c + toktable2_char_length t).
  { rewrite L3, L2, L1. unfold toktable2_char_length. fold s. rewrite !sumN_map_add.
    rewrite !map_map.
    replace (map (fun x => blen (text_item x)) s) with (map (fun k : token (matches*matches) => 1 + blen (text k)) s)
      by (apply map_ext; intros k; unfold text_item; rewrite blen_app; change (blen [0]) with 1; lia).
    replace (map (fun x => blen (enc_item (fst (pay x)))) s) with (map (fun k : token (matches*matches) => 1 + mn (fst (pay k))) s)
      by (apply map_ext; intros k; unfold enc_item, mn; rewrite blen_app; change (blen [255]) with 1; unfold blen; lia).
    replace (map (fun x => blen (enc_item (snd (pay x)))) s) with (map (fun k : token (matches*matches) => 1 + mn (snd (pay k))) s)
      by (apply map_ext; intros k; unfold enc_item, mn; rewrite blen_app; change (blen [255]) with 1; unfold blen; lia).
    rewrite !sumN_map_add. lia. }
  rewrite map_length in W1, W2, W3. rewrite <- HN in W1, W2, W3. rewrite N.add_0_r in W1, W2, W3.
  exists (fst r1 ++ fst r2 ++ fst r3). rewrite <- E. split; [reflexivity|]. split.
  - apply (wspec_app _ _ a b _ c (snd r1)); [|apply (wspec_app _ _ b d _ (snd r1) (snd r2)); [|exact W3|lia|lia]|lia|lia].
    + rewrite H0. exact W1.
    + rewrite H1. exact W2.
  - intros k tk Hk.
    destruct (write_items_in a (map text_item s) 0 c k (text_item tk)) as (p & P1 & P2); [rewrite nth_error_map; fold s; rewrite Hk; reflexivity|].
    destruct (write_items_in b (map (fun k => enc_item (fst (pay k))) s) 0 (snd r1) k (enc_item (fst (pay tk)))) as (q & Q1 & Q2); [rewrite nth_error_map; rewrite Hk; reflexivity|].
    destruct (write_items_in d (map (fun k => enc_item (snd (pay k))) s) 0 (snd r2) k (enc_item (snd (pay tk)))) as (u & U1 & U2); [rewrite nth_error_map; rewrite Hk; reflexivity|].
    fold r1 in P1, P2. fold r2 in Q1, Q2. fold r3 in U1, U2. rewrite N.add_0_r in P1, Q1, U1.
    exists p, q, u. rewrite !in_app_iff. tauto.
Qed.

(* ---- messages ---- *)
Definition place_ok (mbs : list mbox) (x : msg) : Prop :=
  forall fi mi, src x = S_mbox fi mi -> exists mb st ln, nth_error mbs (N.to_nat fi) = Some mb /\
    nth_error (starts mb) (N.to_nat mi) = Some (Some st) /\ nth_error (lens mb) (N.to_nat mi) = Some (Some ln).

(* The five message tables are consecutive blocks of n words. *)
Definition msg_map (m : write_map) (n : N) : Prop :=
  mtime_off m = path_off m + n /\ date_off m = path_off m + 2 * n /\ size_off m = path_off m + 3 * n /\
  tid_off m = path_off m + 4 * n.

Definition msg_words (m : write_map) (i : N) (l : list N) : Prop :=
  Forall (fun w => w = path_off m + i \/ w = mtime_off m + i \/ w = size_off m + i \/ w = date_off m + i \/ w = tid_off m + i) l.

Lemma write_message_ok mbs m n i x c : msg_map m n -> i < n -> place_ok mbs x ->
  exists ws, write_message mbs m i x c = Ok (ws, c + msg_char_length x) /\
    NoDup (words ws) /\ msg_words m i (words ws) /\ chain c (chars ws) (c + msg_char_length x).
Proof.
  intros (M1 & M2 & M3 & M4) Hi HP. unfold write_message, msg_char_length. unfold place_ok in HP.
  unfold msg_words.
  destruct (src x) as [|p mt sz|p|fi mi].
  - rewrite N.add_0_r. eexists; split; [reflexivity|]. cbn [words chars flat_map app chain].
    repeat split; repeat constructor; auto; cbn [In]; lia.
  - rewrite (N.add_comm 1), N.add_assoc. eexists; split; [reflexivity|]. cbn [words chars flat_map app chain].
    rewrite blen_app. change (blen [0]) with 1.
    repeat split; repeat constructor; auto; cbn [In]; lia.
  - rewrite (N.add_comm 1), N.add_assoc. eexists; split; [reflexivity|]. cbn [words chars flat_map app chain].
    rewrite blen_app. change (blen [0]) with 1.
    repeat split; repeat constructor; auto; cbn [In]; lia.
  - destruct (HP fi mi eq_refl) as (mb & st & ln & E1 & E2 & E3). rewrite E1, E2, E3.
    eexists; split; [reflexivity|]. cbn [words chars flat_map app chain].
    unfold encode_mbox_indices. rewrite blen_app, !blen_le32.
    repeat split; repeat constructor; auto; cbn [In]; lia.
Qed.

Lemma write_messages_ok mbs m n xs : msg_map m n -> forall i c, i + N.of_nat (length xs) <= n ->
  Forall (place_ok mbs) xs ->
  exists ws, write_messages mbs m i xs c = Ok (ws, c + sumN (map msg_char_length xs)) /\
    NoDup (words ws) /\ Forall (fun w => exists j, i <= j < n /\ msg_words m j [w]) (words ws) /\
    chain c (chars ws) (c + sumN (map msg_char_length xs)) /\
    forall k x, nth_error xs k = Some x -> exists c1 ws1 c2,
      write_message mbs m (i + N.of_nat k) x c1 = Ok (ws1, c2) /\ incl ws1 ws.
Proof.
  intros HM. induction xs as [|x xs IH]; intros i c Hn HP.
  - cbn. rewrite N.add_0_r. exists []. split; [reflexivity|]. split; [constructor|]. split; [constructor|].
    split; [reflexivity|]. intros [|k]; discriminate.
  - inversion HP as [|? ? P1 P2]; subst. cbn [length] in Hn.
    destruct (write_message_ok mbs m n i x c HM ltac:(lia) P1) as (w1 & E1 & N1 & R1 & C1).
    destruct (IH (i + 1) (c + msg_char_length x) ltac:(lia) P2) as (w2 & E2 & N2 & R2 & C2 & I2).
    cbn [write_messages map]. rewrite E1. cbn [bind]. rewrite E2. cbn [bind].
    change (sumN (msg_char_length x :: map msg_char_length xs)) with (msg_char_length x + sumN (map msg_char_length xs)).
    rewrite N.add_assoc. exists (w1 ++ w2). split; [reflexivity|]. rewrite words_app, chars_app.
    split; [|split; [|split; [eapply chain_app; eauto|]]].
    + assert (D : forall w, In w (words w1) -> ~ In w (words w2)).
      { intros w Hw Hw2. unfold msg_words in R1. rewrite Forall_forall in R1, R2. apply R1 in Hw. apply R2 in Hw2 as (j & Hj & Hw2).
        inversion Hw2 as [|? ? Hw3 _]; subst. destruct HM as (M1 & M2 & M3 & M4). rewrite M1, M2, M3, M4 in *. lia. }
      clear -N1 N2 D. induction (words w1) as [|a l IH]; [exact N2|]. inversion N1; subst. cbn. constructor.
      * rewrite in_app_iff. intros [H|H]; [auto|]. exact (D a (or_introl eq_refl) H).
      * apply IH; [assumption|]. intros w Hw. apply D. now right.
    + apply Forall_app. split.
      * unfold msg_words in R1. eapply Forall_impl; [|exact R1]. cbn beta. intros w Hw. exists i. split; [lia|]. constructor; [exact Hw|constructor].
      * eapply Forall_impl; [|exact R2]. cbn beta. intros w (j & Hj & Hw). exists j. split; [lia|exact Hw].
    + intros [|k] y Hk; cbn [nth_error] in Hk.
      * injection Hk as <-. exists c, w1, (c + msg_char_length x). rewrite N.add_0_r. split; [exact E1|]. apply incl_appl, incl_refl.
      * destruct (I2 k y Hk) as (c1 & ws1 & c2 & A & B). exists c1, ws1, c2.
        replace (i + N.of_nat (S k)) with (i + 1 + N.of_nat k) by lia. split; [exact A|]. now apply incl_appr.
Qed.

(* ---- mailboxes ---- *)
Definition mbox_map (m : write_map) (n : N) : Prop :=
  mbe_off m = mbp_off m + n /\ mbm_off m = mbp_off m + 2 * n /\ mbs_off m = mbp_off m + 3 * n /\ mbc_off m = mbp_off m + 4 * n.
Definition path_len (mb : mbox) : N := match mb_path mb with Some p => 1 + blen p | None => 0 end.

Lemma NoDup_app_disj {A} (l1 l2 : list A) : NoDup l1 -> NoDup l2 -> (forall w, In w l1 -> ~ In w l2) -> NoDup (l1 ++ l2).
Proof.
  intros N1 N2 D. induction l1 as [|a l IH]; [exact N2|]. inversion N1; subst. cbn. constructor.
  - rewrite in_app_iff. intros [H|H]; [auto|]. exact (D a (or_introl eq_refl) H).
  - apply IH; [assumption|]. intros w Hw. apply D. now right.
Qed.

Definition hdr_words (m : write_map) (j w : N) : Prop :=
  w = mbp_off m + j \/ w = mbe_off m + j \/ w = mbm_off m + j \/ w = mbs_off m + j.
Lemma write_mbox_headers_ok m n mbs : mbox_map m n -> forall i c, i + N.of_nat (length mbs) <= n ->
  let r := write_mbox_headers m i mbs c in
  snd r = c + sumN (map path_len mbs) /\ NoDup (words (fst r)) /\
  Forall (fun w => exists j, i <= j < n /\ hdr_words m j w) (words (fst r)) /\
  chain c (chars (fst r)) (snd r) /\
  forall k mb, nth_error mbs k = Some mb ->
    In (W32 (mbe_off m + i + N.of_nat k) (mb_n mb)) (fst r) /\
    In (W32 (mbm_off m + i + N.of_nat k) (c_mtime mb)) (fst r) /\
    In (W32 (mbs_off m + i + N.of_nat k) (c_size mb)) (fst r) /\
    match mb_path mb with
    | None => In (W32 (mbp_off m + i + N.of_nat k) 0) (fst r)
    | Some p => exists q, In (W32 (mbp_off m + i + N.of_nat k) q) (fst r) /\ In (WB q (p ++ [0])) (fst r)
    end.
Proof.
  intros HM. induction mbs as [|mb mbs IH]; intros i c Hn r.
  - subst r. cbn. repeat split; try constructor; try lia; destruct k; discriminate.
  - cbn [length] in Hn. subst r. cbn [write_mbox_headers].
    set (r := write_mbox_headers m (i + 1) mbs (c + path_len mb)).
    assert (ER : write_mbox_headers m i (mb :: mbs) c =
      (([W32 (mbe_off m + i) (mb_n mb); W32 (mbm_off m + i) (c_mtime mb); W32 (mbs_off m + i) (c_size mb)] ++
        match mb_path mb with Some p => [W32 (mbp_off m + i) c; WB c (p ++ [0])] | None => [W32 (mbp_off m + i) 0] end) ++ fst r, snd r)).
    { unfold r, path_len. cbn [write_mbox_headers]. destruct (mb_path mb); cbn [app fst snd]; [reflexivity|]. now rewrite N.add_0_r. }
    cbn [write_mbox_headers] in ER. rewrite ER. clear ER. cbn [fst snd].
    specialize (IH (i + 1) (c + path_len mb) ltac:(lia)). cbv zeta in IH. fold r in IH. destruct IH as (A & B & C & D & E).
    set (hd := [W32 (mbe_off m + i) (mb_n mb); W32 (mbm_off m + i) (c_mtime mb); W32 (mbs_off m + i) (c_size mb)] ++ _).
    assert (W : words hd = [mbe_off m + i; mbm_off m + i; mbs_off m + i; mbp_off m + i]) by (unfold hd; now destruct (mb_path mb)).
    assert (CH : chain c (chars hd) (c + path_len mb)).
    { unfold hd, path_len. destruct (mb_path mb); cbn [chars flat_map app chain]; [|lia].
      split; [reflexivity|]. rewrite blen_app. change (blen [0]) with 1. lia. }
    rewrite words_app, chars_app, W. destruct HM as (M1 & M2 & M3 & M4).
    split; [cbn [map]; change (sumN (path_len mb :: map path_len mbs)) with (path_len mb + sumN (map path_len mbs)); lia|].
    split; [|split; [|split]].
    + apply NoDup_app_disj; [repeat constructor; cbn [In]; lia|exact B|].
      intros w Hw Hw2. rewrite Forall_forall in C. apply C in Hw2 as (j & Hj & Hw2). unfold hdr_words in Hw2. cbn [In] in Hw.
      rewrite M1, M2, M3 in *. lia.
    + apply Forall_app. split.
      * unfold hdr_words. repeat constructor; exists i; lia.
      * eapply Forall_impl; [|exact C]. cbn beta. intros w (j & Hj & Hw). exists j. split; [lia|exact Hw].
    + eapply chain_app; eauto.
    + intros [|k] mb' Hk; cbn [nth_error] in Hk.
      * injection Hk as <-. rewrite !N.add_0_r. unfold hd. destruct (mb_path mb) as [p|].
        -- cbn [app In]. repeat (split; [tauto|]). exists c. tauto.
        -- cbn [app In]. tauto.
      * destruct (E k mb' Hk) as (E1 & E2 & E3 & E4).
        replace (N.of_nat (S k)) with (1 + N.of_nat k) by lia. rewrite !N.add_assoc in *.
        repeat (split; [apply in_app_iff; now right|]).
        destruct (mb_path mb') as [p|]; [|apply in_app_iff; now right].
        destruct E4 as (q & Q1 & Q2). exists q. rewrite !in_app_iff. auto.
Qed.

Lemma blen_concat16 l : Forall (fun c : bytes => length c = 16%nat) l -> blen (concat l) = 16 * N.of_nat (length l).
Proof.
  induction l as [|a l IH]; intros H; [reflexivity|]. inversion H as [|? ? H1 H2]; subst. cbn [concat]. rewrite blen_app, IH by assumption.
  unfold blen. rewrite H1. cbn [length]. lia.
Qed.
Lemma Forall_firstn {A} (Q : A -> Prop) l n : Forall Q l -> Forall Q (firstn n l).
Proof. revert l; induction n; intros l H; [constructor|]. destruct H; cbn; constructor; auto. Qed.

Lemma write_mbox_checksums_ok m mbs : forall i c, Forall mbox_storable mbs ->
  exists ws, write_mbox_checksums m i mbs c = Ok (ws, c + sumN (map (fun mb => 16 * mb_n mb) mbs)) /\
    wspec ws (mbc_off m + i) (mbc_off m + i + N.of_nat (length mbs)) c (c + sumN (map (fun mb => 16 * mb_n mb) mbs)) /\
    forall k mb, nth_error mbs k = Some mb -> exists q, In (W32 (mbc_off m + i + N.of_nat k) q) ws /\
      In (WB q (concat (firstn (N.to_nat (mb_n mb)) (checks mb)))) ws.
Proof.
  induction mbs as [|mb mbs IH]; intros i c HS.
  - cbn. rewrite N.add_0_r. exists []. split; [reflexivity|]. split; [split; [constructor|split; [constructor|reflexivity]]|]. intros [|k]; discriminate.
  - inversion HS as [|? ? H1 H2]; subst. destruct H1 as (_ & _ & _ & HL & H16).
    cbn [write_mbox_checksums map]. destruct (mb_n mb <=? N.of_nat (length (checks mb))) eqn:E; [|apply N.leb_gt in E; lia].
    change (sumN (16 * mb_n mb :: map (fun mb => 16 * mb_n mb) mbs)) with (16 * mb_n mb + sumN (map (fun mb => 16 * mb_n mb) mbs)).
    destruct (IH (i + 1) (c + 16 * mb_n mb) H2) as (ws & E1 & (N1 & R1 & C1) & I1). rewrite E1. cbn [bind].
    rewrite N.add_assoc. eexists. split; [reflexivity|]. split.
    + split; [|split].
      * cbn. fold (words ws). constructor; [|exact N1]. intros H. unfold inr in R1. rewrite Forall_forall in R1. apply R1 in H. lia.
      * cbn. fold (words ws). constructor; [cbn [length]; lia|]. eapply Forall_impl; [|exact R1]. cbn [length]. intros x. cbn beta. lia.
      * cbn [chars flat_map app chain]. split; [reflexivity|].
        rewrite blen_concat16 by now apply Forall_firstn. rewrite firstn_length.
        replace (N.of_nat (Nat.min (N.to_nat (mb_n mb)) (length (checks mb)))) with (mb_n mb) by lia. exact C1.
    + intros [|k] mb' Hk; cbn [nth_error] in Hk.
      * injection Hk as <-. exists c. split; [left; f_equal; lia|right; now left].
      * destruct (I1 k mb' Hk) as (q & Q1 & Q2). exists q. split; right; right; [|exact Q2].
        replace (mbc_off m + i + N.of_nat (S k)) with (mbc_off m + (i + 1) + N.of_nat k) by lia. exact Q1.
Qed.
