From Coq Require Import Sorted Permutation.
From Verif Require Import Base L_Bits M_Encoding M_TokTable S_TokTable M_DbFile S_DbFile L_Encoding L_Encoding2 L_TokTable L_TokTable2 L_DbFile L_DbFile2 L_DbFile3 L_DbFile4 L_DbFile5.
Local Open Scope N_scope.

(* ---- opening arbitrary bytes ---- *)
Lemma ui_in data i : 4 * i + 4 <= blen data -> exists v, ui data i = Ok v.
Proof.
  intros H. unfold ui, rd32, sub. change (N.of_nat (length data)) with (blen data).
  destruct (4 * i + 4 <=? blen data) eqn:B; [|apply N.leb_gt in B; lia].
  assert (LS : length (firstn (N.to_nat 4) (skipn (N.to_nat (4 * i)) data)) = 4%nat).
  { rewrite firstn_length, skipn_length. unfold blen in H. lia. }
  destruct (firstn _ _) as [|q1 [|q2 [|q3 [|q4 [|? ?]]]]]; try discriminate. eexists; reflexivity.
Qed.

(* Either a value with property Q or exit status 2. *)
Definition checked {A} (Q : A -> Prop) (r : res A) : Prop := match r with Ok a => Q a | Err e => e = E_exit 2 end.
Lemma checked_bind {A B} (Q : A -> Prop) (R : B -> Prop) r f : checked Q r -> (forall a, Q a -> checked R (f a)) -> checked R (bind r f).
Proof. destruct r; cbn; auto. Qed.
Lemma checked_ui {B} (R : B -> Prop) data i f : 4 * i + 4 <= blen data -> (forall v, checked R (f v)) -> checked R (bind (ui data i) f).
Proof. intros H H2. destruct (ui_in data i H) as [v ->]. cbn. apply H2. Qed.
Definition table_ok (data : bytes) (n off : N) : Prop := u32 (off + n) <= blen data / 4.
Lemma checked_table {B} (R : B -> Prop) data i n f : 4 * i + 4 <= blen data -> (forall v, table_ok data n v -> checked R (f v)) ->
  checked R (bind (get_table data i n) f).
Proof.
  intros H H2. unfold get_table. destruct (ui_in data i H) as [v ->]. cbn [bind]. change (N.of_nat (length data)) with (blen data).
  destruct (blen data / 4 <? u32 (v + n)) eqn:E; [reflexivity|]. cbn [bind]. apply H2. unfold table_ok. apply N.ltb_ge in E. exact E.
Qed.
Definition tok_in (data : bytes) (t : toktable_db) : Prop := 4 * t_tok t + 4 * t_n t <= blen data /\ 4 * t_enc t + 4 * t_n t <= blen data.
Definition tok2_in (data : bytes) (t : toktable2_db) : Prop :=
  4 * t2_tok t + 4 * t2_n t <= blen data /\ 4 * t2_enc0 t + 4 * t2_n t <= blen data /\ 4 * t2_enc1 t + 4 * t2_n t <= blen data.
Lemma checked_tok data s : 160 <= blen data -> s <= 37 -> checked (tok_in data) (read_toktable_db data s).
Proof.
  intros HL Hs. unfold read_toktable_db. change (N.of_nat (length data)) with (blen data).
  apply checked_ui; [lia|intros n]. apply checked_ui; [lia|intros t].
  destruct (blen data <? 4 * t + 4 * n) eqn:E1; [reflexivity|]. apply N.ltb_ge in E1.
  apply checked_ui; [lia|intros e]. destruct (blen data <? 4 * e + 4 * n) eqn:E2; [reflexivity|]. apply N.ltb_ge in E2.
  cbn. split; assumption.
Qed.
Lemma checked_tok2 data s : 160 <= blen data -> s <= 36 -> checked (tok2_in data) (read_toktable2_db data s).
Proof.
  intros HL Hs. unfold read_toktable2_db. change (N.of_nat (length data)) with (blen data).
  apply checked_ui; [lia|intros n]. apply checked_ui; [lia|intros t].
  destruct (blen data <? 4 * t + 4 * n) eqn:E1; [reflexivity|]. apply N.ltb_ge in E1.
  apply checked_ui; [lia|intros e]. destruct (blen data <? 4 * e + 4 * n) eqn:E2; [reflexivity|]. apply N.ltb_ge in E2.
  apply checked_ui; [lia|intros e1]. destruct (blen data <? 4 * e1 + 4 * n) eqn:E3; [reflexivity|]. apply N.ltb_ge in E3.
  cbn. repeat split; assumption.
Qed.
Lemma checked_tabs data ss : 160 <= blen data -> Forall (fun s => s <= 37) ss -> checked (Forall (tok_in data)) (read_tabs data ss).
Proof.
  intros HL H. induction H as [|s ss H1 H2 IH]; cbn [read_tabs]; [constructor|].
  eapply checked_bind; [apply checked_tok; assumption|]. intros t Ht. eapply checked_bind; [exact IH|]. intros ts Hts. cbn. now constructor.
Qed.

Definition db_tables_in (data : bytes) (r : read_db) : Prop :=
  Forall (fun off => table_ok data (r_n r) off) [r_path r; r_mtime r; r_size r; r_date r; r_tid r] /\
  Forall (fun off => table_ok data (r_nb r) off) [r_mbp r; r_mbe r; r_mbm r; r_mbs r; r_mbc r] /\
  Forall (tok_in data) (r_tabs r) /\ tok2_in data (r_ids r).

Lemma open_db_checked data : checked (db_tables_in data) (open_db data).
Proof.
  unfold open_db. change (N.of_nat (length data)) with (blen data).
  destruct (blen data <? 160) eqn:E; [reflexivity|]. apply N.ltb_ge in E.
  destruct (negb (magic_ok data)); [reflexivity|].
  apply checked_ui; [lia|intros e]. destruct (negb (e =? 0x44332211)); [reflexivity|].
  apply checked_ui; [lia|intros n]. apply checked_ui; [lia|intros ty].
  apply checked_table; [lia|intros a1 A1]. apply checked_table; [lia|intros a2 A2]. apply checked_table; [lia|intros a3 A3].
  apply checked_table; [lia|intros a4 A4]. apply checked_table; [lia|intros a5 A5].
  apply checked_ui; [lia|intros nb].
  apply checked_table; [lia|intros b1 B1]. apply checked_table; [lia|intros b2 B2]. apply checked_table; [lia|intros b3 B3].
  apply checked_table; [lia|intros b4 B4]. apply checked_table; [lia|intros b5 B5].
  apply checked_ui; [lia|intros key].
  eapply checked_bind; [apply checked_tabs; [lia|repeat constructor; lia]|]. intros ts Hts.
  eapply checked_bind; [apply checked_tok2; lia|]. intros ids Hids. cbn.
  unfold db_tables_in. cbn. split; [repeat (constructor; [assumption|]); constructor|]. split; [repeat (constructor; [assumption|]); constructor|]. split; assumption.
Qed.

Lemma table_ok_in data n off : table_ok data n off -> off + n < 2 ^ 32 -> 4 * off + 4 * n <= blen data.
Proof. unfold table_ok, u32. intros H1 H2. rewrite N.mod_small in H1 by assumption. lia. Qed.

Lemma Forall_weak {A} (P Q : A -> Prop) l : (forall a, P a -> Q a) -> Forall P l -> Forall Q l.
Proof. intros H F. eapply Forall_impl; eauto. Qed.

Lemma open_db_partial data :
  open_db data = Err (E_exit 2) \/
  exists r, open_db data = Ok r /\
    Forall (fun off => off + r_n r < 2 ^ 32 -> 4 * off + 4 * r_n r <= N.of_nat (length data))
      [r_path r; r_mtime r; r_size r; r_date r; r_tid r] /\
    Forall (fun off => off + r_nb r < 2 ^ 32 -> 4 * off + 4 * r_nb r <= N.of_nat (length data))
      [r_mbp r; r_mbe r; r_mbm r; r_mbs r; r_mbc r] /\
    Forall (fun t => 4 * t_tok t + 4 * t_n t <= N.of_nat (length data) /\
                     4 * t_enc t + 4 * t_n t <= N.of_nat (length data)) (r_tabs r) /\
    Forall (fun off => 4 * off + 4 * t2_n (r_ids r) <= N.of_nat (length data))
      [t2_tok (r_ids r); t2_enc0 (r_ids r); t2_enc1 (r_ids r)].
Proof.
  pose proof (open_db_checked data) as H. destruct (open_db data) as [r|e]; cbn in H; [|left; now subst].
  right. exists r. split; [reflexivity|]. destruct H as (H1 & H2 & H3 & H4 & H5 & H6).
  split; [|split; [|split]].
  - eapply Forall_weak; [|exact H1]. intros a Ha. now apply table_ok_in.
  - eapply Forall_weak; [|exact H2]. intros a Ha. now apply table_ok_in.
  - exact H3.
  - repeat constructor; assumption.
Qed.

(* ---- packing ---- *)
Lemma packing pre post mb ms : word mb -> word ms ->
  decode_mbox_indices (pre ++ encode_mbox_indices mb ms ++ post) (N.of_nat (length pre)) = Ok (mb, ms).
Proof.
  intros H1 H2. pose proof (split_holds pre (encode_mbox_indices mb ms) post) as H.
  apply holds_app in H as [A B]. rewrite blen_le32 in B. unfold decode_mbox_indices.
  rewrite (rd32_le32 _ _ _ A H1), (rd32_le32 _ _ _ B H2). reflexivity.
Qed.
Lemma size_check_passes n counts : verify_mbox_size_constraints n counts = true.
Proof.
  unfold verify_mbox_size_constraints. apply forallb_forall. intros k _. apply N.leb_le. unfold u32_of_int.
  pose proof (Z.mod_pos_bound k (2 ^ 32) ltac:(lia)). change (2 ^ 32 - 1) with 4294967295. change (2 ^ 32)%Z with 4294967296%Z in *. lia.
Qed.
Lemma int_is_word (k : Z) : (0 <= k < 2 ^ 31)%Z -> word (Z.to_N k).
Proof. unfold word. change (2 ^ 32) with 4294967296. change (2 ^ 31)%Z with 2147483648%Z. lia. Qed.
Lemma packing_ints pre post (mb ms : Z) : (0 <= mb < 2 ^ 31)%Z -> (0 <= ms < 2 ^ 31)%Z ->
  decode_mbox_indices (pre ++ encode_mbox_indices (Z.to_N mb) (Z.to_N ms) ++ post) (N.of_nat (length pre)) = Ok (Z.to_N mb, Z.to_N ms).
Proof. intros. apply packing; now apply int_is_word. Qed.

(* ---- integrity ---- *)
Lemma any_dup_false l : any_dup l = false <-> NoDup l.
Proof.
  induction l as [|a l IH]; cbn [any_dup].
  - split; [constructor|reflexivity].
  - rewrite orb_false_iff, IH. split.
    + intros [H1 H2]. constructor; [|assumption]. intros HI.
      assert (existsb (bytes_eqb a) l = true) by (apply existsb_exists; exists a; split; [assumption|apply bytes_eqb_refl]). congruence.
    + intros H. inversion H; subst. split; [|assumption]. destruct (existsb (bytes_eqb a) l) eqn:E; [|reflexivity].
      apply existsb_exists in E as (x & X1 & X2). apply bytes_eqb_eq in X2. subst x. contradiction.
Qed.

Lemma ulong_small x : x < 2 ^ 31 -> ulong_of_int (int_of_u32 x) = x.
Proof.
  intros H. unfold ulong_of_int, int_of_u32. destruct (x <? 2 ^ 31) eqn:E; [|apply N.ltb_ge in E; lia].
  rewrite Z.mod_small; [lia|]. change (2 ^ 31) with 2147483648 in H. change (2 ^ 64)%Z with 18446744073709551616%Z. lia.
Qed.
Lemma int_small31 x : x < 2 ^ 31 -> int_of_u32 x = Z.of_N x.
Proof. intros H. unfold int_of_u32. destruct (x <? 2 ^ 31) eqn:E; [reflexivity|apply N.ltb_ge in E; lia]. Qed.

Lemma chains_ok_true n ts : forall idx, (forall t, In t ts -> exists xs, mlist (pay t) xs /\ xs <> [] /\ Forall (fun x => (Z.of_N x < n)%Z) xs) ->
  chains_ok n idx ts = Ok true.
Proof.
  induction ts as [|t ts IH]; intros idx H; [reflexivity|]. cbn [chains_ok].
  destruct (H t (or_introl eq_refl)) as (xs & HM & HN & HB). destruct (mlist_lists _ _ HM) as [q ->].
  pose proof (mlist_last _ _ HM) as HL.
  assert (L31 : last xs 0 < 2 ^ 31) by (eapply N.lt_trans; [exact HL|now vm_compute]).
  destruct xs as [|x xs]; [congruence|]. rewrite IH by (intros t' Ht'; apply H; now right). cbn [bind].
  rewrite (ulong_small _ L31), (int_small31 _ L31).
  assert (HH : highest (pay t) = last (x :: xs) 0) by (destruct HM as [[_ A] _]; apply A; discriminate).
  rewrite HH, N.eqb_refl. cbn [andb].
  assert (HLI : In (last (x :: xs) 0) (x :: xs)) by (apply last_In; discriminate).
  rewrite Forall_forall in HB. apply HB in HLI. destruct (Z.ltb_spec (Z.of_N (last (x :: xs) 0)) n) as [E|E]; [reflexivity|lia].
Qed.

Lemma sorted_below l b : StronglySorted N.lt l -> last l 0 < b -> Forall (fun x => x < b) l.
Proof.
  induction l as [|a l IH]; intros HS HL; [constructor|]. inversion HS as [|? ? H1 H2]; subst.
  destruct l as [|c l]; [repeat constructor; exact HL|]. constructor; [|now apply IH].
  change (last (a :: c :: l) 0) with (last (c :: l) 0) in HL. rewrite Forall_forall in H2.
  specialize (H2 (last (c :: l) 0) ltac:(apply last_In; discriminate)). lia.
Qed.

Lemma chains_ok_range n ts : forall idx, chains_ok n idx ts = Ok true -> forall t xs, In t ts -> mlist (pay t) xs ->
  Forall (fun x => (Z.of_N x < n)%Z) xs.
Proof.
  induction ts as [|t ts IH]; intros idx H t' xs Ht HM; [contradiction|]. cbn [chains_ok] in H.
  destruct (read_matches (pay t)) as [ys q| |] eqn:ER; [|discriminate|discriminate].
  destruct (chains_ok n _ ts) as [r|] eqn:EC; [|discriminate]. cbn [bind] in H. injection H as H.
  apply andb_true_iff in H as [H HR]. subst r. apply andb_true_iff in H as [_ H2].
  destruct Ht as [<-|Ht]; [|eapply IH; eauto].
  destruct (mlist_lists _ _ HM) as [q' R']. rewrite ER in R'. injection R' as -> ->.
  destruct xs as [|x xs]; [constructor|]. apply Z.ltb_lt in H2. pose proof (mlist_last _ _ HM) as HL.
  rewrite int_small31 in H2 by (eapply N.lt_trans; [exact HL|now vm_compute]).
  pose proof (sorted_below (x :: xs) (last (x :: xs) 0 + 1) (proj2 (proj2 HM)) ltac:(lia)) as SB.
  eapply Forall_impl; [|exact SB]. cbn beta. intros a Ha. lia.
Qed.

Lemma texts_entries {P} (t : toktable P) : map text (toks (slots t)) = map fst (entries t).
Proof. unfold entries. rewrite map_map. reflexivity. Qed.

Lemma check_toktable_ok hashf n idx t : index_table hashf t ->
  (forall w m, In (w, m) (entries t) -> exists xs, lists m xs /\ xs <> [] /\ Forall (fun x => (Z.of_N x < n)%Z) xs) ->
  check_toktable n idx t = Ok tt.
Proof.
  intros HT HE. pose proof (index_table_ginv _ _ HT) as HG. unfold check_toktable.
  rewrite chains_ok_true.
  - cbn [bind negb]. rewrite (collect_ok hashf t (proj1 HG)). cbn [bind].
    rewrite texts_entries. assert (any_dup (map fst (entries t)) = false) as -> by (apply any_dup_false; eapply ginv_nodup; exact HG).
    reflexivity.
  - intros k Hk. destruct (HE (text k) (pay k)) as (xs & X1 & X2 & X3); [apply entries_toks; eauto|].
    exists xs. split; [|auto]. destruct HG as [_ HG]. destruct (HG k Hk) as [vs Hvs]. now rewrite (lists_fun _ _ _ X1 (mlist_lists _ _ Hvs)).
Qed.

Lemma integrity_accepts hashf db idx : db_ok hashf db -> NoDup (file_paths db) -> NoDup (imap_paths db) ->
  check_database_integrity idx db = Ok tt.
Proof.
  intros OK N1 N2. unfold check_database_integrity, check_paths.
  apply any_dup_false in N1. apply any_dup_false in N2. rewrite N1, N2. cbn [orb bind].
  pose proof (ok_tabs _ _ OK) as HT. induction (tabs db) as [|t ts IH]; [reflexivity|]. cbn [check_tabs].
  destruct (HT t (or_introl eq_refl)) as [IT HE].
  rewrite (check_toktable_ok _ _ idx t IT).
  - cbn [bind]. apply IH. intros t' Ht'. apply HT. now right.
  - intros w mm Hw. destruct (HE w mm Hw) as (_ & xs & X1 & X2 & X3). exists xs. split; [exact X1|]. split; [exact X2|].
    eapply Forall_impl; [|exact X3]. cbn beta. intros a Ha. lia.
Qed.

Lemma integrity_rejects hashf db idx t : In t (tabs db) -> index_table hashf t -> check_database_integrity idx db = Ok tt ->
  forall w m xs x, In (w, m) (entries t) -> lists m xs -> In x xs -> x < n_msgs db.
Proof.
  intros Ht IT H w mm xs x Hw HL Hx. unfold check_database_integrity in H. destruct (check_paths db); [|discriminate]. cbn [bind] in H.
  assert (HC : check_toktable (Z.of_N (n_msgs db)) idx t = Ok tt).
  { clear -H Ht. induction (tabs db) as [|t' ts IH]; [contradiction|]. cbn [check_tabs] in H.
    destruct (check_toktable _ idx t') as [[]|] eqn:E; [|discriminate]. cbn [bind] in H. destruct Ht as [<-|Ht]; auto. }
  unfold check_toktable in HC. destruct (chains_ok _ idx (toks (slots t))) as [[]|] eqn:EC; cbn in HC; try discriminate.
  pose proof Hw as Hw2. apply entries_toks in Hw2 as (k & K1 & K2 & K3).
  pose proof (chains_ok_range _ _ _ EC k xs K1) as HF. rewrite K3 in HF.
  specialize (HF (list_of_entry _ t w mm xs IT Hw HL)). rewrite Forall_forall in HF. apply HF in Hx. lia.
Qed.
Lemma paths_checked db idx : check_database_integrity idx db = Ok tt -> NoDup (file_paths db) /\ NoDup (imap_paths db).
Proof.
  unfold check_database_integrity, check_paths. destruct (any_dup (file_paths db) || any_dup (imap_paths db)) eqn:E; [discriminate|].
  apply orb_false_iff in E as [A B]. intros _. split; now apply any_dup_false.
Qed.

(* ---- deciding the hypotheses on concrete databases ---- *)
Lemma add_tokens_index hashf hs : forall t t', index_table hashf t -> Forall small (map snd hs) ->
  add_tokens hashf init_matches upd1 t hs = Ok t' -> index_table hashf t'.
Proof.
  induction hs as [|[w x] hs IH]; intros t t' HT HS H; cbn [add_tokens] in H; [now injection H as <-|].
  cbn [map snd] in HS. inversion HS; subst. destruct (add_token hashf init_matches upd1 t w x) as [t1|] eqn:E; [|discriminate].
  cbn [bind] in H. eapply IH; [|eassumption|exact H]. eapply IT_add; eauto.
Qed.
Lemma add_tokens_index2 hashf hs : forall t t', index_table2 hashf t -> Forall small (map (fun h => fst (snd h)) hs) ->
  add_tokens hashf (init_matches, init_matches) upd2 t hs = Ok t' -> index_table2 hashf t'.
Proof.
  induction hs as [|[w [x b]] hs IH]; intros t t' HT HS H; cbn [add_tokens] in H; [now injection H as <-|].
  cbn [map fst snd] in HS. inversion HS; subst. destruct (add_token hashf _ upd2 t w (x, b)) as [t1|] eqn:E; [|discriminate].
  cbn [bind] in H. eapply IH; [|eassumption|exact H]. eapply IT2_add; eauto.
Qed.
Definition list_below (n : N) (m : matches) (nonempty : bool) : bool :=
  match read_matches m with
  | RA_ok [] _ => negb nonempty
  | RA_ok xs _ => forallb (fun x => x <? n) xs
  | _ => false end.
Definition c_stringb (s : bytes) : bool := forallb (fun b => (0 <? b) && (b <? 256)) s.
Definition entries_below (n : N) (t : toktable matches) : bool :=
  forallb (fun e => c_stringb (fst e) && list_below n (snd e) true) (entries t).
Definition entries2_below (n : N) (t : toktable (matches * matches)) : bool :=
  forallb (fun e => c_stringb (fst e) && list_below n (fst (snd e)) true && list_below n (snd (snd e)) false) (entries t).
Lemma c_stringb_ok s : c_stringb s = true -> c_string s.
Proof.
  unfold c_stringb. rewrite forallb_forall. intros H. apply Forall_forall. intros b Hb. apply H in Hb. unfold c_char.
  apply andb_true_iff in Hb as [A B]. apply N.ltb_lt in A, B. lia.
Qed.
Lemma list_below_ok n m ne : list_below n m ne = true -> exists xs, lists m xs /\ (ne = true -> xs <> []) /\ Forall (fun x => x < n) xs.
Proof.
  unfold list_below, lists. destruct (read_matches m) as [[|x xs] q| |]; try discriminate; intros H.
  - exists []. split; [eauto|]. split; [destruct ne; discriminate|constructor].
  - exists (x :: xs). split; [eauto|]. split; [discriminate|]. rewrite forallb_forall in H. apply Forall_forall.
    intros y Hy. apply H in Hy. now apply N.ltb_lt.
Qed.
Lemma entries_below_ok n t : entries_below n t = true -> forall w m, In (w, m) (entries t) -> c_string w /\
  exists xs, lists m xs /\ xs <> [] /\ Forall (fun x => x < n) xs.
Proof.
  unfold entries_below. rewrite forallb_forall. intros H w m Hw. apply H in Hw. cbn [fst snd] in Hw.
  apply andb_true_iff in Hw as [A B]. split; [now apply c_stringb_ok|]. destruct (list_below_ok _ _ _ B) as (xs & X1 & X2 & X3). eauto.
Qed.
Lemma entries2_below_ok n t : entries2_below n t = true -> forall w m0 m1, In (w, (m0, m1)) (entries t) -> c_string w /\
  exists xs ys, lists m0 xs /\ xs <> [] /\ lists m1 ys /\ Forall (fun x => x < n) xs /\ Forall (fun x => x < n) ys.
Proof.
  unfold entries2_below. rewrite forallb_forall. intros H w m0 m1 Hw. apply H in Hw. cbn [fst snd] in Hw.
  apply andb_true_iff in Hw as [A C]. apply andb_true_iff in A as [A B]. split; [now apply c_stringb_ok|].
  destruct (list_below_ok _ _ _ B) as (xs & X1 & X2 & X3). destruct (list_below_ok _ _ _ C) as (ys & Y1 & Y2 & Y3). exists xs, ys. auto 6.
Qed.
