(* Results, threads, sorting, and the counterexamples. *)
From Coq Require Import Sorted Permutation.
From Verif Require Import Base L_Bits M_Encoding M_TokTable S_TokTable M_DbFile S_DbFile M_WuManber S_Match M_Search S_Search
  L_Encoding L_Encoding2 L_TokTable L_TokTable2 L_DbFile L_DbFile2 L_DbFile3 L_DbFile4 L_DbFile5 L_DbFile7 L_WuManber L_Search L_Search2 L_Search3 L_Search4 L_Search5.
Local Open Scope N_scope.

(* ---- the result list, whatever the file ---- *)
Lemma live_loop data r hit k : forall i l,
  for_msgs (fun i => let! ty := rd_msg_type data r i in Ok (if nth (N.to_nat i) hit false && negb (ty =? 0) then [i] else [])) k i = Ok l ->
  StronglySorted N.lt (concat l) /\
  forall j, In j (concat l) <-> (i <= j < i + N.of_nat k /\ nth (N.to_nat j) hit false = true /\ exists ty, rd_msg_type data r j = Ok ty /\ ty <> 0).
Proof.
  induction k as [|k IH]; intros i l E; cbn [for_msgs] in E.
  - injection E as <-. split; [constructor|]. intros j. cbn. split; [tauto|lia].
  - destruct (rd_msg_type data r i) as [ty|] eqn:ET; cbn [bind] in E; [|discriminate].
    destruct (for_msgs _ k (i + 1)) as [l'|] eqn:EL; cbn [bind] in E; [|discriminate]. injection E as <-.
    destruct (IH _ _ EL) as [SS IN]. cbn [concat]. split.
    + destruct (nth (N.to_nat i) hit false && negb (ty =? 0)); [|exact SS]. cbn [app]. constructor; [exact SS|].
      apply Forall_forall. intros j Hj. apply IN in Hj. lia.
    + intros j. rewrite in_app_iff, IN. destruct (N.eq_dec j i) as [->|NE].
      * split.
        -- intros [HI|HI]; [|lia]. destruct (nth (N.to_nat i) hit false && negb (ty =? 0)) eqn:B; [|destruct HI].
           apply andb_true_iff in B as [B1 B2]. apply negb_true_iff, N.eqb_neq in B2. split; [lia|]. split; [exact B1|]. eauto.
        -- intros (_ & B1 & ty' & E & B2). rewrite ET in E. injection E as <-. left. apply N.eqb_neq in B2. rewrite B1, B2. now left.
      * split.
        -- intros [HI|HI]; [destruct (_ && _); [destruct HI as [HI|[]]; congruence|destruct HI]|]. destruct HI as (H1 & H2 & H3). split; [lia|]. auto.
        -- intros (H1 & H2 & H3). right. split; [lia|]. auto.
Qed.
Lemma live_hits_spec data r hit l : live_hits data r hit = Ok l ->
  StronglySorted N.lt l /\
  forall j, In j l <-> (j < r_n r /\ nth (N.to_nat j) hit false = true /\ exists ty, rd_msg_type data r j = Ok ty /\ ty <> 0).
Proof.
  unfold live_hits, each_msg. intros E. destruct (for_msgs _ _ 0) as [l0|] eqn:EL; cbn [bind] in E; [|discriminate]. injection E as <-.
  destruct (live_loop _ _ _ _ _ _ EL) as [SS IN]. split; [exact SS|]. intros j. rewrite IN, N2Nat.id. split; intros (H1 & H2); (split; [lia|exact H2]).
Qed.
Lemma search_live sd data r th args l : search sd data r th args = Ok l ->
  StronglySorted N.lt l /\ (forall j, In j l -> j < r_n r /\ exists ty, rd_msg_type data r j = Ok ty /\ ty <> 0) /\
  (status l = 1 <-> l = []) /\ (status l = 0 <-> l <> []).
Proof.
  unfold search. intros E. destruct (2 ^ 31 <=? r_n r); [discriminate|].
  destruct (args_hits sd data r args (ones r)) as [h|]; cbn [bind] in E; [|discriminate].
  destruct (if th then add_threads data r h else Ok h) as [h2|]; cbn [bind] in E; [|discriminate].
  apply live_hits_spec in E as [SS IN]. split; [exact SS|]. split; [intros j Hj; apply IN in Hj as (H1 & _ & H2); auto|].
  unfold status. destruct l; cbn; split; split; intros; try reflexivity; try discriminate; congruence.
Qed.

Section Search.
Context (sd : bytes -> option (option Z * option Z)) (F : bytes) (r : read_db) (hashf : N -> bytes -> N) (db : database)
  (OK : db_ok hashf db) (V : view F r db).
Local Notation n := (N.to_nat (n_msgs db)).

Lemma type_view_live i x : nth_error (msgs db) i = Some x ->
  exists ty, rd_msg_type F r (N.of_nat i) = Ok ty /\ (ty <> 0 <-> src x <> S_dead).
Proof.
  intros H. unfold rd_msg_type, type_and_flags. rewrite (v_type _ _ _ V i x H). cbn [fetch bind]. destruct (type_byte_bits x) as (T & _). rewrite T.
  eexists. split; [reflexivity|]. unfold type_code. destruct (src x); split; intros; congruence.
Qed.
Lemma live_hits_ok P h : hv n P h -> exists l, live_hits F r h = Ok l /\ StronglySorted N.lt l /\
  forall i, In i l <-> live db i /\ P (N.to_nat i).
Proof.
  intros [HL HP].
  assert (E : exists l, live_hits F r h = Ok l).
  { unfold live_hits, each_msg. rewrite (v_n _ _ _ V).
    destruct (for_msgs_ok (fun i => let! ty := rd_msg_type F r i in Ok (if nth (N.to_nat i) h false && negb (ty =? 0) then [i] else [])) (fun _ _ => True) n 0) as (l & E & _).
    - intros j Hj. destruct (message_some db j Hj) as [x Hx]. destruct (type_view_live j x Hx) as (ty & ET & _). rewrite N.add_0_l, ET. cbn [bind]. eauto.
    - rewrite E. cbn [bind]. eauto. }
  destruct E as [l E]. exists l. split; [exact E|]. apply live_hits_spec in E as [SS IN]. split; [exact SS|].
  intros i. rewrite IN, (v_n _ _ _ V). split.
  - intros (H1 & H2 & ty & ET & H3). assert (Hj : (N.to_nat i < n)%nat) by lia. destruct (message_some db _ Hj) as [x Hx].
    destruct (type_view_live _ x Hx) as (ty' & ET' & HT). rewrite N2Nat.id, ET in ET'. injection ET' as <-. split.
    + exists x. split; [exact Hx|tauto].
    + now apply HP.
  - intros ((x & Hx & HD) & Hp). unfold message in Hx. assert (Hj : (N.to_nat i < n)%nat).
    { unfold n_msgs. rewrite Nat2N.id. apply nth_error_Some. congruence. }
    split; [lia|]. split; [now apply HP|]. destruct (type_view_live _ x Hx) as (ty' & ET' & HT). rewrite N2Nat.id in ET'. exists ty'. tauto.
Qed.
Lemma lt_of_live i : live db i -> (N.to_nat i < n)%nat.
Proof. intros (x & Hx & _). unfold message in Hx. unfold n_msgs. rewrite Nat2N.id. apply nth_error_Some. congruence. Qed.
Lemma small_n : (2 ^ 31 <=? r_n r) = false.
Proof. apply N.leb_gt. rewrite (v_n _ _ _ V). exact (v_lim _ _ _ V). Qed.

Lemma search_exact args : Forall (arg_ok sd db) args ->
  exists l, search sd F r false (map show_arg args) = Ok l /\ StronglySorted N.lt l /\
    forall i, In i l <-> live db i /\ Forall (fun a => arg_sat sd db a i) args.
Proof.
  intros HA. unfold search. rewrite small_n.
  destruct (args_hits_ok sd F r hashf db OK V args HA (fun _ => True) (ones r)) as (h & P & E & HV & HP).
  { eapply hv_ext; [exact (ones_hv F r db V)|]. tauto. }
  rewrite E. cbn [bind]. destruct (live_hits_ok P h HV) as (l & EL & SS & IN). exists l. split; [exact EL|]. split; [exact SS|].
  intros i. rewrite IN. split; intros [HL X]; (split; [exact HL|]).
  - pose proof (HP (N.to_nat i) (lt_of_live i HL)) as Q. rewrite N2Nat.id in Q. apply Q in X; [tauto|now left].
  - pose proof (HP (N.to_nat i) (lt_of_live i HL)) as Q. rewrite N2Nat.id in Q. apply Q; [now left|]. auto.
Qed.

Lemma mark_threads_ok hit : forall i tids, (forall k x, nth_error (msgs db) k = Some x -> tid x < n_msgs db) ->
  length tids = n -> (N.to_nat i + length hit = n)%nat ->
  exists t2, mark_threads F r i hit tids = Ok t2 /\ length t2 = n /\
    forall t, nth t t2 false = true <-> nth t tids false = true \/
      exists k x, (k < length hit)%nat /\ nth k hit false = true /\ nth_error (msgs db) (N.to_nat i + k) = Some x /\ tid x = N.of_nat t.
Proof.
  induction hit as [|b hit IH]; intros i tids HT HL HN.
  - exists tids. split; [reflexivity|]. split; [exact HL|]. intros t. split; [auto|intros [X|(k & x & X & _)]; [exact X|cbn in X; lia]].
  - cbn [length] in HN. assert (Hi : (N.to_nat i < n)%nat) by lia. destruct (message_some db _ Hi) as [x Hx].
    assert (A : forall tids', length tids' = n -> exists t2, mark_threads F r (i + 1) hit tids' = Ok t2 /\ length t2 = n /\
      forall t, nth t t2 false = true <-> nth t tids' false = true \/
      exists k x, (k < length hit)%nat /\ nth k hit false = true /\ nth_error (msgs db) (S (N.to_nat i + k)) = Some x /\ tid x = N.of_nat t).
    { intros tids' HL'. destruct (IH (i + 1) tids' HT HL') as (t2 & E & L & H); [lia|]. exists t2. split; [exact E|]. split; [exact L|].
      intros t. rewrite H. replace (N.to_nat (i + 1)) with (S (N.to_nat i)) by lia. reflexivity. }
    cbn [mark_threads]. destruct b.
    + pose proof (v_tid _ _ _ V _ _ Hx) as ET. rewrite N2Nat.id in ET. rewrite ET. cbn [bind]. pose proof (HT _ _ Hx) as HTx.
      destruct (N.to_nat (tid x) <? length tids)%nat eqn:B; [|apply Nat.ltb_ge in B; lia]. apply Nat.ltb_lt in B.
      destruct (A (set_nth tids (N.to_nat (tid x)) true)) as (t2 & E & L & H); [now rewrite set_nth_length|]. exists t2. split; [exact E|]. split; [exact L|].
      intros t. rewrite H, nth_set_nth by assumption. split.
      * intros [[X|X]|(k & y & K1 & K2 & K3 & K4)].
        -- right. exists 0%nat, x. cbn [length nth]. rewrite Nat.add_0_r. split; [lia|]. split; [reflexivity|]. split; [exact Hx|lia].
        -- now left.
        -- right. exists (S k), y. cbn [length nth]. rewrite Nat.add_succ_r. split; [lia|]. auto.
      * intros [X|(k & y & K1 & K2 & K3 & K4)]; [auto|]. destruct k as [|k].
        -- rewrite Nat.add_0_r in K3. rewrite Hx in K3. injection K3 as <-. left. left. lia.
        -- right. exists k, y. cbn [length nth] in *. rewrite Nat.add_succ_r in K3. split; [lia|]. auto.
    + destruct (A tids HL) as (t2 & E & L & H). exists t2. split; [exact E|]. split; [exact L|]. intros t. rewrite H. split.
      * intros [X|(k & y & K1 & K2 & K3 & K4)]; [auto|]. right. exists (S k), y. cbn [length nth]. rewrite Nat.add_succ_r. split; [lia|]. auto.
      * intros [X|(k & y & K1 & K2 & K3 & K4)]; [auto|]. destruct k as [|k]; [discriminate|]. right. exists k, y.
        cbn [length nth] in *. rewrite Nat.add_succ_r in K3. split; [lia|]. auto.
Qed.
Lemma threads_ok P h : (forall k x, nth_error (msgs db) k = Some x -> tid x < n_msgs db) -> hv n P h ->
  exists h2, add_threads F r h = Ok h2 /\ hv n (fun i => exists j, (j < n)%nat /\ P j /\ same_thread db (N.of_nat i) (N.of_nat j)) h2.
Proof.
  intros HT [HL HP]. unfold add_threads.
  destruct (mark_threads_ok h 0 (zeros r) HT) as (t2 & E & L & H); [exact (proj1 (zeros_hv F r db V))|cbn; lia|].
  rewrite E. cbn [bind]. unfold each_msg. rewrite (v_n _ _ _ V).
  set (Q := fun i : nat => exists j, (j < n)%nat /\ P j /\ same_thread db (N.of_nat i) (N.of_nat j)).
  destruct (for_msgs_hv (fun i => let! t := ui F (r_tid r + i) in fetch (nth_error t2 (N.to_nat t))) Q n) as (hs & ES & HS).
  - intros j Hj. destruct (message_some db j Hj) as [x Hx]. rewrite (v_tid _ _ _ V j x Hx). cbn [bind]. pose proof (HT _ _ Hx) as HTx.
    destruct (nth_error t2 (N.to_nat (tid x))) as [b|] eqn:EB; [|apply nth_error_None in EB; lia]. exists b. split; [reflexivity|].
    assert (EN : nth (N.to_nat (tid x)) t2 false = b) by now apply nth_error_nth. rewrite <- EN, H. unfold Q. split.
    + intros [X|(k & y & K1 & K2 & K3 & K4)].
      * destruct (zeros_hv F r db V) as [Z1 Z2]. apply Z2 in X; [discriminate|lia].
      * rewrite HL in K1. exists k. split; [exact K1|]. split; [now apply HP|]. exists x, y. rewrite !message_nat. cbn in K3. split; [exact Hx|]. split; [exact K3|lia].
    + intros (k & K1 & K2 & (a & y & A1 & A2 & A3)). rewrite message_nat in A1, A2. rewrite Hx in A1. injection A1 as <-. right. exists k, y.
      rewrite HL. split; [exact K1|]. split; [now apply HP|]. cbn. split; [exact A2|lia].
  - rewrite ES. cbn [bind]. eexists. split; [reflexivity|]. eapply hv_ext; [exact (hv_or _ _ _ _ _ (conj HL HP) HS)|].
    intros i Hi. cbn beta. split; [intros [X|X]; [|exact X]|auto]. exists i. split; [exact Hi|]. split; [exact X|].
    destruct (message_some db i Hi) as [x Hx]. exists x, x. rewrite message_nat. auto.
Qed.
Lemma search_threads args : Forall (arg_ok sd db) args ->
  (forall k x, nth_error (msgs db) k = Some x -> tid x < n_msgs db) ->
  (forall i, i < n_msgs db -> live db i) \/ Forall any_message args ->
  exists l, search sd F r true (map show_arg args) = Ok l /\ StronglySorted N.lt l /\
    forall i, In i l <-> live db i /\ exists j, same_thread db i j /\ Forall (fun a => arg_sat sd db a j) args.
Proof.
  intros HA HT HAL. unfold search. rewrite small_n.
  destruct (args_hits_ok sd F r hashf db OK V args HA (fun _ => True) (ones r)) as (h & P & E & HV & HP).
  { eapply hv_ext; [exact (ones_hv F r db V)|]. tauto. }
  rewrite E. cbn [bind]. destruct (threads_ok P h HT HV) as (h2 & E2 & HV2). rewrite E2. cbn [bind].
  destruct (live_hits_ok _ h2 HV2) as (l & EL & SS & IN). exists l. split; [exact EL|]. split; [exact SS|].
  intros i. rewrite IN. rewrite N2Nat.id. 
  assert (Q : forall j, (j < n)%nat -> (P j <-> Forall (fun a => arg_sat sd db a (N.of_nat j)) args)).
  { intros j Hj. rewrite (HP j Hj); [tauto|]. destruct HAL as [HAL|HAL]; [left; apply HAL; lia|now right]. }
  split; intros [HL X]; (split; [exact HL|]).
  - destruct X as (j & J1 & J2 & J3). exists (N.of_nat j). split; [exact J3|]. now apply Q.
  - destruct X as (j & J1 & J2). exists (N.to_nat j). rewrite N2Nat.id.
    assert (Hj : (N.to_nat j < n)%nat). { destruct J1 as (a & b & A1 & A2 & A3). unfold message in A2. unfold n_msgs. rewrite Nat2N.id. apply nth_error_Some. congruence. }
    split; [exact Hj|]. split; [|exact J1]. apply Q; [exact Hj|]. now rewrite N2Nat.id.
Qed.
End Search.

(* ---- sorting by date ---- *)
Lemma date_cmp_sub dates a b : dates a < 2 ^ 32 -> dates b < 2 ^ 32 -> (Z.abs (Z.of_N (dates a) - Z.of_N (dates b)) < 2 ^ 31)%Z ->
  date_cmp dates a b = (Z.of_N (dates a) - Z.of_N (dates b))%Z.
Proof.
  unfold date_cmp. generalize (dates a) as x, (dates b) as y. intros x y. change (2 ^ 32) with 4294967296. change (2 ^ 31)%Z with 2147483648%Z. intros Hx Hy HA.
  unfold int_of_u32. change (2 ^ 31) with 2147483648. change (2 ^ 32)%Z with 4294967296%Z.
  destruct (N.le_gt_cases y x) as [L|L].
  - replace (x + (4294967296 - y)) with ((x - y) + 1 * 4294967296) by lia. rewrite N.mod_add by lia. rewrite N.mod_small by lia.
    destruct (x - y <? 2147483648) eqn:B; [lia|apply N.ltb_ge in B; lia].
  - rewrite N.mod_small by lia. destruct (x + (4294967296 - y) <? 2147483648) eqn:B; [apply N.ltb_lt in B; lia|lia].
Qed.
Lemma sorted_map {A} (R S : A -> A -> Prop) l : (forall a b, In a l -> In b l -> R a b -> S a b) -> StronglySorted R l -> StronglySorted S l.
Proof.
  intros H HS. induction HS as [|a l HS IH HF]; constructor.
  - apply IH. intros x y Hx Hy. apply H; now right.
  - rewrite Forall_forall in *. intros y Hy. apply H; [now left|now right|auto].
Qed.
Lemma date_sort dates l l' : (forall a, In a l -> dates a < 2 ^ 32) ->
  (forall a b, In a l -> In b l -> (Z.abs (Z.of_N (dates a) - Z.of_N (dates b)) < 2 ^ 31)%Z) ->
  qsorted (date_cmp dates) l l' -> Permutation l l' /\ StronglySorted (fun a b => dates a <= dates b) l'.
Proof.
  intros HD HC [HP HS]. split; [exact HP|].
  assert (C : forall a b, In a l -> In b l -> date_cmp dates a b = (Z.of_N (dates a) - Z.of_N (dates b))%Z) by (intros; apply date_cmp_sub; auto).
  assert (PO : preorder_on (date_cmp dates) l).
  { split; [|split]; intros; rewrite ?C in * by assumption; lia. }
  specialize (HS PO). eapply sorted_map; [|exact HS]. intros a b Ha Hb. cbn beta.
  apply (Permutation_in _ (Permutation_sym HP)) in Ha. apply (Permutation_in _ (Permutation_sym HP)) in Hb. rewrite C by assumption. lia.
Qed.
Definition far_dates (i : N) : N := if i =? 0 then 100 else 4000000000.
Lemma date_sort_refuted : exists dates l l', (forall a, In a l -> dates a < 2 ^ 32) /\ qsorted (date_cmp dates) l l' /\
  ~ StronglySorted (fun a b => dates a <= dates b) l'.
Proof.
  exists far_dates, [0; 1], [1; 0]. split; [|split].
  - intros a [<-|[<-|[]]]; now vm_compute.
  - split; [apply perm_swap|]. intros _. constructor; [repeat constructor|]. constructor; [|constructor]. now vm_compute.
  - intros H. inversion H as [|? ? _ HF]; subst. inversion HF as [|? ? X _]; subst. vm_compute in X. now apply X.
Qed.
(* and no other outcome is possible for these two messages *)
Lemma date_sort_forced l' : qsorted (date_cmp far_dates) [0; 1] l' -> l' = [1; 0].
Proof.
  intros [HP HS].
  assert (PO : preorder_on (date_cmp far_dates) [0; 1]).
  { split; [|split].
    - intros a [<-|[<-|[]]]; now vm_compute.
    - intros a b [<-|[<-|[]]] [<-|[<-|[]]]; vm_compute; split; intros; congruence.
    - intros a b c [<-|[<-|[]]] [<-|[<-|[]]] [<-|[<-|[]]]; vm_compute; intros; congruence. }
  specialize (HS PO). apply Permutation_length_2_inv in HP as [->| ->]; [|reflexivity].
  inversion HS as [|? ? _ HF]; subst. inversion HF as [|? ? X _]; subst. vm_compute in X. now contradiction X.
Qed.

(* ---- statements with the file opened ---- *)
Lemma opened_view hashf db old F r : db_ok hashf db -> write_database db old = Ok F -> open_db F = Ok r -> view F r db.
Proof. intros OK EW EO. destruct (written_view hashf db old F OK EW) as (r' & E & V). rewrite EO in E. injection E as <-. exact V. Qed.
Lemma search_main sd hashf db old F r args : db_ok hashf db -> write_database db old = Ok F -> open_db F = Ok r ->
  Forall (arg_ok sd db) args ->
  exists l, search sd F r false (map show_arg args) = Ok l /\ StronglySorted N.lt l /\
    forall i, In i l <-> live db i /\ Forall (fun a => arg_sat sd db a i) args.
Proof. intros OK EW EO. apply (search_exact sd F r hashf db OK). eapply opened_view; eassumption. Qed.
Lemma search_one sd hashf db old F r a : db_ok hashf db -> write_database db old = Ok F -> open_db F = Ok r -> arg_ok sd db a ->
  exists l, search sd F r false [show_arg a] = Ok l /\ forall i, In i l <-> live db i /\ arg_sat sd db a i.
Proof.
  intros OK EW EO HA. destruct (search_main sd hashf db old F r [a] OK EW EO) as (l & E & _ & IN); [constructor; [exact HA|constructor]|].
  exists l. split; [exact E|]. intros i. rewrite IN. split; intros [X Y]; (split; [exact X|]); [now inversion Y|constructor; [exact Y|constructor]].
Qed.
Lemma threads_main sd hashf db old F r args : db_ok hashf db -> write_database db old = Ok F -> open_db F = Ok r ->
  Forall (arg_ok sd db) args ->
  (forall m, In m (msgs db) -> tid m < n_msgs db) ->
  (forall i, i < n_msgs db -> live db i) \/ Forall any_message args ->
  exists l, search sd F r true (map show_arg args) = Ok l /\
    forall i, In i l <-> live db i /\ exists j, same_thread db i j /\ Forall (fun a => arg_sat sd db a j) args.
Proof.
  intros OK EW EO HA HT HL. destruct (search_threads sd F r hashf db OK (opened_view _ _ _ _ _ OK EW EO) args HA) as (l & E & _ & IN); [|exact HL|eauto].
  intros k x Hx. apply HT. eapply nth_error_In; exact Hx.
Qed.

Definition part_key (p : part) : bytes :=
  match p with To => bs "t" | Cc => bs "c" | From_ => bs "f" | Subject => bs "s" | Body => bs "b" | Attachment => bs "n" end.
Lemma part_key_selects p q : selects (Some (part_key p)) q <-> q = p.
Proof. destruct p, q; vm_compute; split; intros H; try congruence; intuition discriminate. Qed.
Lemma word_main sd hashf db old F r p w : db_ok hashf db -> write_database db old = Ok F -> open_db F = Ok r ->
  w <> [] -> Forall plain w -> (forall c s, w = c :: s -> c <> ch "~" /\ c <> ch "^") ->
  exists l, search sd F r false [part_key p ++ bs ":" ++ w] = Ok l /\ forall i, In i l <-> live db i /\ recorded db p (lower w) i.
Proof.
  intros OK EW EO H1 H2 H3. set (t := {| s_not := false; s_anchor := false; s_text := w; s_like := None |}).
  destruct (search_one sd hashf db old F r (A_words (Some (part_key p)) [[t]]) OK EW EO) as (l & E & IN).
  - cbn [arg_ok]. split; [discriminate|]. split; [|split; [|split]].
    + intros ts [<-|[]]. split; [discriminate|]. intros t' [<-|[]]. unfold term_ok. cbn. auto.
    + cbn. rewrite app_nil_r. exact H1.
    + destruct p; repeat constructor; intros X; vm_compute in X; discriminate.
    + intros HI. exfalso. destruct p; vm_compute in HI; intuition discriminate.
  - exists l. split.
    + rewrite <- E. do 2 f_equal. cbn. rewrite app_nil_r. reflexivity.
    + intros i. rewrite IN. cbn [arg_sat]. split; intros [X Y]; (split; [exact X|]).
      * destruct Y as (ts & [<-|[]] & Y). specialize (Y t (or_introl eq_refl)). cbn [term_sat t s_not] in Y. destruct Y as [(q & v & Y1 & Y2 & Y3)|[Y _]].
        -- apply part_key_selects in Y1 as ->. cbn in Y3. now subst v.
        -- exfalso. destruct p; vm_compute in Y; intuition discriminate.
      * exists [t]. split; [now left|]. intros t' [<-|[]]. cbn [term_sat t s_not]. left. exists p, (lower w).
        split; [now apply part_key_selects|]. split; [exact Y|reflexivity].
Qed.

(* ---- counterexamples ---- *)
Definition no_dates : bytes -> option (option Z * option Z) := fun _ => None.
Definition file_of (db : database) : bytes := get_ok [] (write_database db []).

(* The documented meaning fails for a trailing '/'. *)
Lemma trailing_refuted : exists hashf db F r w l1 l2, db_ok hashf db /\ write_database db [] = Ok F /\ open_db F = Ok r /\
  search no_dates F r false [w] = Ok l1 /\ search no_dates F r false [w ++ bs "/"] = Ok l2 /\ l1 <> l2 /\
  l2 = [0; 1; 3; 4] /\ l1 = [1].
Proof.
  exists ex_h, ex_db, (file_of ex_db), (exp_db ex_db), (bs "f:bob"), [1], [0; 1; 3; 4]. split; [exact ex_db_ok|].
  repeat (split; [now vm_compute|]). reflexivity.
Qed.
Lemma path_group_refuted : exists hashf db F r, db_ok hashf db /\ write_database db [] = Ok F /\ open_db F = Ok r /\
  search no_dates F r false [bs "f:alice"] = Ok [0] /\ search no_dates F r false [bs "fp:alice"] = Ok [].
Proof.
  exists ex_h, old_db, (file_of old_db), (exp_db old_db). split; [exact old_db_ok|]. repeat (split; [now vm_compute|]). now vm_compute.
Qed.
Lemma imap_path_refuted : exists hashf db F r, db_ok hashf db /\ write_database db [] = Ok F /\ open_db F = Ok r /\
  search no_dates F r false [bs "p:box"] = Err E_assert.
Proof.
  exists ex_h, ex_db, (file_of ex_db), (exp_db ex_db). split; [exact ex_db_ok|]. repeat (split; [now vm_compute|]). now vm_compute.
Qed.
(* What is left of an index of two messages in two threads when the first has been purged. *)
Definition purged_db := mk_db 0 [mk_msg (S_file (bs "/m/a") 1 10) 3 1] [] [(bs "alice", 0)] [(bs "first", 0)] [].
Lemma purged_db_ok : db_ok ex_h purged_db.
Proof.
  apply mk_db_ok.
  - now vm_compute.
  - repeat constructor; cbn; try (now vm_compute); apply c_stringb_ok; now vm_compute.
  - constructor.
  - intros b. exists 0%nat. reflexivity.
  - intros m fi mi [<-|[]] E. discriminate E.
  - now vm_compute.
Qed.
Lemma threads_refuted : exists hashf db F r, db_ok hashf db /\ write_database db [] = Ok F /\ open_db F = Ok r /\
  search no_dates F r false [bs "alice"] = Ok [0] /\ search no_dates F r true [bs "alice"] = Err E_oob.
Proof.
  exists ex_h, purged_db, (file_of purged_db), (exp_db purged_db). split; [exact purged_db_ok|]. repeat (split; [now vm_compute|]). now vm_compute.
Qed.

(* ---- example arguments ---- *)
Definition tm (n a : bool) (s : string) (e : option string) : sterm :=
  {| s_not := n; s_anchor := a; s_text := bs s; s_like := option_map bs e |}.
(* f:alice/bob,~carol   h=1 (any word with "h" within one error)   F:s-r *)
Definition ex_args : list sarg :=
  [A_words (Some (bs "f")) [[tm false false "alice" None]; [tm false false "Bob" None; tm true false "carol" None]];
   A_words None [[tm false false "helo" (Some "1"%string)]]; A_flags [(false, ch "s"); (true, ch "r")]].

Ltac plain_text := repeat constructor; try (intros X; vm_compute in X; discriminate); try now vm_compute.
Ltac term_tac := split; [plain_text|split; [intros c s [= <- _]; split; discriminate|try exact I]].
Lemma ex_args_ok : Forall (arg_ok no_dates ex_db) ex_args.
Proof.
  repeat apply Forall_cons; [| | |constructor].
  - split; [discriminate|]. split; [|split; [discriminate|split]].
    + intros ts [<-|[<-|[]]]; (split; [discriminate|]).
      * intros t [<-|[]]. term_tac.
      * intros t [<-|[<-|[]]]; term_tac.
    + repeat constructor; discriminate.
    + intros [X|[]]. discriminate X.
  - split; [discriminate|]. split; [|split; [discriminate|exact I]].
    intros ts [<-|[]]. split; [discriminate|]. intros t [<-|[]]. term_tac. cbn.
    split; [repeat constructor|]. split; [now vm_compute|]. split; [lia|discriminate].
  - intros ng c [[= <- <-]|[[= <- <-]|[]]]; cbn; auto 10.
Qed.
Lemma sorted_case : qsorted (date_cmp (fun i => 1000 - i)) [1; 2; 3] [3; 2; 1].
Proof.
  split.
  - apply Permutation_rev with (l := [1; 2; 3]).
  - intros _. repeat constructor; now vm_compute.
Qed.
