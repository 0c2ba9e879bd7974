From Coq Require Import Sorted Permutation.
From Verif Require Import Base L_Bits M_Encoding M_TokTable S_TokTable M_DbFile S_DbFile L_Encoding L_Encoding2 L_TokTable L_TokTable2 L_DbFile L_DbFile2 L_DbFile3.
Local Open Scope N_scope.

Lemma rd32_le32 F off v : holds F off (le32 v) -> word v -> rd32 F off = Some v.
Proof.
  intros H Hv. unfold rd32. pose proof (holds_sub _ _ _ H) as E. rewrite blen_le32 in E. rewrite E.
  unfold le32. f_equal. unfold word in Hv. change (2 ^ 32) with 4294967296 in Hv. lia.
Qed.

Lemma until_nul_app s r : c_string s -> until_nul (s ++ 0 :: r) = Some s.
Proof.
  induction s as [|b s IH]; intros H; [reflexivity|]. inversion H as [|? ? H1 H2]; subst. cbn [app until_nul].
  unfold c_char in H1. destruct (b =? 0) eqn:E; [apply N.eqb_eq in E; lia|]. now rewrite IH.
Qed.
Lemma skipn_pre (pre l : bytes) n : length pre = n -> skipn n (pre ++ l) = l.
Proof. intros <-. rewrite skipn_app, skipn_all, Nat.sub_diag. reflexivity. Qed.
Lemma cstr_holds F off s : holds F off (s ++ [0]) -> c_string s -> cstr F off = Ok s.
Proof.
  intros H Hs. unfold cstr. destruct (holds_split _ _ _ H) as (pre & tail & E & L). destruct H as [H _].
  rewrite blen_app in H. change (blen [0]) with 1 in H. unfold blen in H.
  destruct (off <? N.of_nat (length F)) eqn:B; [|apply N.ltb_ge in B; lia].
  rewrite E, (skipn_pre _ _ _ L), <- app_assoc. cbn [app]. now rewrite until_nul_app.
Qed.
Lemma scan_nul_app s r : c_string s -> scan_nul (s ++ 0 :: r) = Some s.
Proof.
  intros H. apply scan_nul_spec. exists r. split; [reflexivity|]. eapply Forall_impl; [|exact H].
  unfold c_char. intros a Ha. lia.
Qed.
Lemma load_text_holds F off s : holds F off (s ++ [0]) -> c_string s -> load_text F off = Ok s.
Proof.
  intros H Hs. unfold load_text, get_db_token. rewrite token_loop_scan by lia.
  destruct (holds_split _ _ _ H) as (pre & tail & E & L).
  rewrite E, (skipn_pre _ _ _ L), <- app_assoc. cbn [app]. now rewrite scan_nul_app.
Qed.

Lemma load_list_holds gi F off m vs : holds F off (enc_item m) -> mlist m vs ->
  exists m', load_list gi F off = Ok m' /\ reloaded m m' /\ highest m' = last vs (gi off).
Proof.
  intros H HM. destruct (holds_split _ _ _ H) as (pre & tail & E & L). unfold enc_item in E.
  rewrite <- app_assoc in E. cbn [app] in E.
  destruct (enc_inv_copy (gi off) m vs pre tail (proj1 HM)) as (m' & C & _ & _ & Hh & _).
  { pose proof (mlist_last _ _ HM) as HL. eapply N.lt_trans; [exact HL|now vm_compute]. }
  exists m'. split; [|split; [|exact Hh]].
  - unfold load_list. rewrite E at 1. rewrite <- L, C. reflexivity.
  - exists (gi off), pre, tail. exact C.
Qed.

Lemma last_bound (xs : list N) g b : Forall (fun x => x < b) xs -> (xs = [] -> g < b) -> last xs g < b.
Proof. intros H1 H2. destruct xs as [|x xs]; [now apply H2|]. rewrite Forall_forall in H1. apply H1. apply last_In. discriminate. Qed.

Lemma load_entries_ok gi F nm td s : forall i,
  (forall k tk, nth_error s k = Some tk -> exists p q,
     ui F (t_tok td + i + N.of_nat k) = Ok p /\ holds F p (text_item tk) /\
     ui F (t_enc td + i + N.of_nat k) = Ok q /\ holds F q (enc_item (pay tk))) ->
  (forall tk, In tk s -> c_string (text tk) /\ exists xs, mlist (pay tk) xs /\ Forall (fun x => x < nm) xs /\ xs <> []) ->
  exists ents, load_entries gi F nm td (length s) i = Ok ents /\
    Forall2 (fun tk e => fst e = text tk /\ reloaded (pay tk) (snd e)) s ents.
Proof.
  induction s as [|tk s IH]; intros i HR HW.
  - exists []. split; [reflexivity|constructor].
  - destruct (HR 0%nat tk eq_refl) as (p & q & U1 & H1 & U2 & H2). rewrite !N.add_0_r in *.
    destruct (HW tk (or_introl eq_refl)) as (Hc & xs & HM & HB & HN).
    destruct (load_list_holds gi F q (pay tk) xs H2 HM) as (m' & L1 & L2 & L3).
    destruct (IH (i + 1)) as (ents & E & FA).
    { intros k tk' Hk. destruct (HR (S k) tk' Hk) as (p' & q' & A). exists p', q'.
      replace (t_tok td + (i + 1) + N.of_nat k) with (t_tok td + i + N.of_nat (S k)) by lia.
      replace (t_enc td + (i + 1) + N.of_nat k) with (t_enc td + i + N.of_nat (S k)) by lia. exact A. }
    { intros tk' Hk. apply HW. now right. }
    exists ((text tk, m') :: ents). split.
    + cbn [length load_entries]. rewrite U2. cbn [bind]. rewrite L1. cbn [bind]. rewrite U1. cbn [bind].
      rewrite (load_text_holds F p (text tk) H1 Hc). cbn [bind].
      destruct (nm <=? highest m') eqn:B.
      * apply N.leb_le in B. rewrite L3 in B. pose proof (last_bound xs (gi q) nm HB ltac:(congruence)) as HL. lia.
      * rewrite E. reflexivity.
    + constructor; [split; [reflexivity|exact L2]|exact FA].
Qed.

Lemma load_entries2_ok gi F nm td s : (forall off, gi off < nm \/ nm = 0) -> forall i,
  (forall k tk, nth_error s k = Some tk -> exists p q q1,
     ui F (t2_tok td + i + N.of_nat k) = Ok p /\ holds F p (text_item tk) /\
     ui F (t2_enc0 td + i + N.of_nat k) = Ok q /\ holds F q (enc_item (fst (pay tk))) /\
     ui F (t2_enc1 td + i + N.of_nat k) = Ok q1 /\ holds F q1 (enc_item (snd (pay tk)))) ->
  (forall tk, In tk s -> c_string (text tk) /\ exists xs ys, mlist (fst (pay tk)) xs /\ mlist (snd (pay tk)) ys /\
     Forall (fun x => x < nm) xs /\ xs <> [] /\ Forall (fun x => x < nm) ys) ->
  exists ents, load_entries2 gi F nm td (length s) i = Ok ents /\
    Forall2 (fun tk e => fst e = text tk /\ reloaded (fst (pay tk)) (fst (snd e)) /\ reloaded (snd (pay tk)) (snd (snd e))) s ents.
Proof.
  intros HG. induction s as [|tk s IH]; intros i HR HW.
  - exists []. split; [reflexivity|constructor].
  - destruct (HR 0%nat tk eq_refl) as (p & q & q1 & U1 & H1 & U2 & H2 & U3 & H3). rewrite !N.add_0_r in *.
    destruct (HW tk (or_introl eq_refl)) as (Hc & xs & ys & HM & HM' & HB & HN & HB').
    destruct (load_list_holds gi F q _ xs H2 HM) as (m' & L1 & L2 & L3).
    destruct (load_list_holds gi F q1 _ ys H3 HM') as (m1' & K1 & K2 & K3).
    destruct (IH (i + 1)) as (ents & E & FA).
    { intros k tk' Hk. destruct (HR (S k) tk' Hk) as (p' & q' & q1' & A). exists p', q', q1'.
      replace (t2_tok td + (i + 1) + N.of_nat k) with (t2_tok td + i + N.of_nat (S k)) by lia.
      replace (t2_enc0 td + (i + 1) + N.of_nat k) with (t2_enc0 td + i + N.of_nat (S k)) by lia.
      replace (t2_enc1 td + (i + 1) + N.of_nat k) with (t2_enc1 td + i + N.of_nat (S k)) by lia. exact A. }
    { intros tk' Hk. apply HW. now right. }
    exists ((text tk, (m', m1')) :: ents). split.
    + cbn [length load_entries2]. rewrite U2. cbn [bind]. rewrite L1. cbn [bind]. rewrite U3. cbn [bind]. rewrite K1. cbn [bind].
      rewrite U1. cbn [bind]. rewrite (load_text_holds F p (text tk) H1 Hc). cbn [bind].
      assert (NZ : nm <> 0) by (destruct xs as [|x xs]; [congruence|inversion HB; lia]).
      destruct (nm <=? highest m') eqn:B.
      * apply N.leb_le in B. rewrite L3 in B. pose proof (last_bound xs (gi q) nm HB ltac:(congruence)) as HL. lia.
      * destruct (nm <=? highest m1') eqn:B1.
        -- apply N.leb_le in B1. rewrite K3 in B1. pose proof (last_bound ys (gi q1) nm HB') as HL.
           destruct (HG q1); [|congruence]. specialize (HL (fun _ => H)). lia.
        -- cbn [orb]. rewrite E. reflexivity.
    + constructor; [split; [reflexivity|split; [exact L2|exact K2]]|exact FA].
Qed.

Lemma toks_words {P} hashf okp (t : toktable P) (R : P -> P -> Prop) ents : ginv hashf okp t ->
  Forall2 (fun tk e => fst e = text tk /\ R (pay tk) (snd e)) (toks (slots t)) ents ->
  Forall2 (fun e0 e => fst e = fst e0 /\ R (snd e0) (snd e)) (entries t) ents.
Proof.
  intros _ H. unfold entries. induction H; cbn; constructor; auto.
Qed.

Lemma Forall2_in_l {A B} (R : A -> B -> Prop) l l' a : Forall2 R l l' -> In a l -> exists b, In b l' /\ R a b.
Proof.
  intros F. induction F as [|x y l l' HR F IH]; intros []; [subst; exists y; split; [now left|assumption]|].
  destruct IH as (b & B1 & B2); [assumption|]. exists b. split; [now right|assumption].
Qed.

(* A reloaded table lists the same words. *)
Lemma reload_table hashf t ents : index_table hashf t ->
  Forall2 (fun e0 e => fst e = fst e0 /\ reloaded (snd e0) (snd e)) (entries t) ents ->
  exists t', import_toktable hashf true ents = Ok t' /\ index_table hashf t' /\ same_words t t'.
Proof.
  intros HT HF. pose proof (index_table_ginv _ _ HT) as HG.
  assert (ND : NoDup (map fst ents)).
  { rewrite (Forall2_fst_map _ _ _ (fun a b H => proj1 H) HF). eapply ginv_nodup; exact HG. }
  destruct (import_ok hashf true ents ND) as (t' & E & _ & PE). exists t'. split; [exact E|].
  split; [eapply IT_load; eauto|]. intros w xs. split.
  - intros (m' & I1 & I2). apply (Permutation_in _ PE) in I1.
    destruct (Forall2_in_r _ _ _ _ HF I1) as ([w0 m] & J1 & J2 & J3). cbn [fst snd] in *. subst w0.
    exists m. split; [exact J1|]. apply entries_toks in J1 as (k & K1 & K2 & K3). destruct HG as [_ HG].
    destruct (HG k K1) as [vs Hvs]. rewrite K3 in Hvs. pose proof (mlist_reload _ _ _ Hvs J3) as R.
    rewrite (lists_fun _ _ _ I2 (mlist_lists _ _ R)). now apply mlist_lists.
  - intros (m & I1 & I2). destruct (Forall2_in_l _ _ _ _ HF I1) as ([w0 m'] & J1 & J2 & J3). cbn [fst snd] in *. subst w0.
    exists m'. split; [apply (Permutation_in _ (Permutation_sym PE)); exact J1|].
    apply entries_toks in I1 as (k & K1 & K2 & K3). destruct HG as [_ HG].
    destruct (HG k K1) as [vs Hvs]. rewrite K3 in Hvs. pose proof (mlist_reload _ _ _ Hvs J3) as R.
    rewrite (lists_fun _ _ _ I2 (mlist_lists _ _ Hvs)). now apply mlist_lists.
Qed.
Lemma reload_table2 hashf t ents : index_table2 hashf t ->
  Forall2 (fun e0 e => fst e = fst e0 /\ reloaded (fst (snd e0)) (fst (snd e)) /\ reloaded (snd (snd e0)) (snd (snd e))) (entries t) ents ->
  exists t', import_toktable hashf false ents = Ok t' /\ index_table2 hashf t' /\ same_ids t t'.
Proof.
  intros HT HF. pose proof (index_table2_ginv _ _ HT) as HG.
  assert (ND : NoDup (map fst ents)).
  { rewrite (Forall2_fst_map _ _ _ (fun a b H => proj1 H) HF). eapply ginv_nodup; exact HG. }
  destruct (import_ok hashf false ents ND) as (t' & E & _ & PE). exists t'. split; [exact E|].
  split; [eapply IT2_load; eauto|]. intros w xs ys. split.
  - intros (m' & m1' & I1 & I2 & I3). apply (Permutation_in _ PE) in I1.
    destruct (Forall2_in_r _ _ _ _ HF I1) as ([w0 [m m1]] & J1 & J2 & J3 & J4). cbn [fst snd] in *. subst w0.
    exists m, m1. split; [exact J1|]. apply entries_toks in J1 as (k & K1 & K2 & K3). destruct HG as [_ HG].
    destruct (HG k K1) as [[vs Hvs] [us Hus]]. rewrite K3 in Hvs, Hus. cbn [fst snd] in *.
    pose proof (mlist_reload _ _ _ Hvs J3) as R. pose proof (mlist_reload _ _ _ Hus J4) as R2.
    rewrite (lists_fun _ _ _ I2 (mlist_lists _ _ R)), (lists_fun _ _ _ I3 (mlist_lists _ _ R2)). split; now apply mlist_lists.
  - intros (m & m1 & I1 & I2 & I3). destruct (Forall2_in_l _ _ _ _ HF I1) as ([w0 [m' m1']] & J1 & J2 & J3 & J4). cbn [fst snd] in *. subst w0.
    exists m', m1'. split; [apply (Permutation_in _ (Permutation_sym PE)); exact J1|].
    apply entries_toks in I1 as (k & K1 & K2 & K3). destruct HG as [_ HG].
    destruct (HG k K1) as [[vs Hvs] [us Hus]]. rewrite K3 in Hvs, Hus. cbn [fst snd] in *.
    pose proof (mlist_reload _ _ _ Hvs J3) as R. pose proof (mlist_reload _ _ _ Hus J4) as R2.
    rewrite (lists_fun _ _ _ I2 (mlist_lists _ _ Hvs)), (lists_fun _ _ _ I3 (mlist_lists _ _ Hus)). split; now apply mlist_lists.
Qed.

(* ---- mailboxes ---- *)
Definition filled (gm : N) (mb : mbox) (k : nat) : mbox :=
  {| mb_path := mb_path mb; f_mtime := c_mtime mb; f_size := c_size mb; c_mtime := gm; c_size := gm; mb_n := mb_n mb;
     starts := firstn k (starts mb) ++ repeat None (N.to_nat (mb_n mb) - k);
     lens := firstn k (lens mb) ++ repeat None (N.to_nat (mb_n mb) - k);
     checks := firstn (N.to_nat (mb_n mb)) (checks mb) |}.

Lemma chop_concat l : Forall (fun c : bytes => length c = 16%nat) l ->
  chop (length l) (concat l) = l.
Proof.
  induction l as [|a l IH]; intros H; [reflexivity|]. inversion H as [|? ? H1 H2]; subst. cbn [length concat chop].
  rewrite firstn_app, H1, Nat.sub_diag, firstn_O, app_nil_r, <- H1, firstn_all.
  rewrite H1. rewrite (skipn_pre a _ 16 H1). now rewrite IH.
Qed.
