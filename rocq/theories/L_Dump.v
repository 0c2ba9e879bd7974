(* The dump of a written index lists it. *)
From Verif Require Import Base L_Bits M_Encoding M_TokTable S_TokTable M_DbFile S_DbFile M_WuManber S_Match M_Search S_Search M_Dump S_Dump
  L_Encoding L_Encoding2 L_TokTable L_TokTable2 L_DbFile L_DbFile2 L_DbFile3 L_DbFile4 L_DbFile5 L_DbFile6 L_DbFile7 L_Search S_Search M_Output.
Local Open Scope N_scope.
Local Opaque bs.

Section Lists.
Variable P : printf.
Lemma put_num v : v < 2 ^ 31 -> put P v = num P v.
Proof. intros H. unfold put, num. now rewrite int_small31. Qed.
Lemma put_short : forall vs k, Forall (fun v => v < 2 ^ 31) vs -> (k + length vs <= 16)%nat -> put_list P k vs = row P vs.
Proof.
  induction vs as [|v vs IH]; intros k H L; [reflexivity|]. inversion H as [|? ? H1 H2]; subst. cbn [length] in L. cbn [put_list]. destruct (Nat.ltb_spec 15 k); [lia|].
  rewrite (IH (S k) H2) by lia. unfold row. cbn [map concat]. rewrite put_num by exact H1. now rewrite <- !app_assoc.
Qed.
Lemma put_full : forall vs k ws, Forall (fun v => v < 2 ^ 31) vs -> (k + length vs = 16)%nat -> ws <> [] -> put_list P k (vs ++ ws) = row P vs ++ put_list P 0 ws.
Proof.
  induction vs as [|v vs IH]; intros k ws H L NE.
  - cbn [app length] in *. replace k with 16%nat by lia. destruct ws as [|w ws]; [contradiction|]. cbn [put_list]. reflexivity.
  - inversion H as [|? ? H1 H2]; subst. cbn [length] in L. cbn [put_list app]. destruct (Nat.ltb_spec 15 k); [lia|].
    rewrite (IH (S k) ws H2) by (auto; lia). unfold row. cbn [map concat]. rewrite put_num by exact H1. now rewrite <- !app_assoc.
Qed.
Lemma put_rows : forall n vs, (length vs <= n)%nat -> Forall (fun v => v < 2 ^ 31) vs -> rows P vs (put_list P 0 vs).
Proof.
  induction n as [|n IH]; intros vs L H.
  - rewrite put_short by (auto; lia). constructor. lia.
  - destruct (le_lt_dec (length vs) 16) as [S|S]; [rewrite put_short by (auto; lia); now constructor|].
    rewrite <- (firstn_skipn 16 vs). assert (LF : length (firstn 16 vs) = 16%nat) by (rewrite firstn_length; lia). pose proof (skipn_length 16 vs) as LS.
    rewrite <- (firstn_skipn 16 vs) in H. apply Forall_app in H as [H1 H2]. assert (NE : skipn 16 vs <> []) by (intros E; rewrite E in LS; cbn in LS; lia).
    rewrite put_full by (auto; lia). apply Row_more; auto. apply IH; [lia|exact H2].
Qed.
Lemma words_ok F n tok enc : n <= 2 ^ 31 -> forall l i, i + N.of_nat (length l) <= 2 ^ 31 ->
  (forall j w m, nth_error l j = Some (w, m) -> exists p q, ui F (tok + (i + N.of_nat j)) = Ok p /\ get_db_token F (N.to_nat p) = T_ok w /\ ui F (enc + (i + N.of_nat j)) = Ok q /\ list_in F q m n) ->
  exists s, dump_words P F tok enc (length l) i = Ok s /\ words_listed P i l s.
Proof.
  intros LN. induction l as [|[w m] l IH]; intros i LI H.
  - exists []. split; [reflexivity|constructor].
  - cbn [length] in LI. destruct (H 0%nat w m eq_refl) as (p & q & E1 & E2 & E3 & (xs & pos & R & LX & FX)). rewrite N.add_0_r in E1, E3.
    destruct (IH (i + 1)) as (s & E & WL); [lia|intros j w' m' J; replace (i + 1 + N.of_nat j) with (i + N.of_nat (S j)) by lia; exact (H (S j) w' m' J)|].
    exists (bs "Word " ++ num P i ++ bs " : <" ++ w ++ bs ">" ++ [10] ++ bs "  " ++ put_list P 0 xs ++ s). split.
    + cbn [dump_words length]. rewrite E1. cbn [bind]. rewrite E2. cbn [bind]. rewrite E3. cbn [bind]. rewrite R. cbn [bind]. rewrite E. cbn [bind]. rewrite put_num by lia. now rewrite <- !app_assoc.
    + apply Wl_next with (xs := xs); [exact LX| |exact WL]. apply (put_rows (length xs)); [lia|]. revert FX. apply Forall_impl. intros x X. lia.
Qed.
Lemma chain_ok F n tok enc l k : n <= 2 ^ 31 -> k = N.of_nat (length l) -> k < 2 ^ 31 ->
  (forall j w m, nth_error l j = Some (w, m) -> exists p q, ui F (tok + N.of_nat j) = Ok p /\ get_db_token F (N.to_nat p) = T_ok w /\ ui F (enc + N.of_nat j) = Ok q /\ list_in F q m n) ->
  exists s, dump_token_chain P F k tok enc = Ok s /\ chain_listed P l s.
Proof.
  intros LN EK LK H. destruct (words_ok F n tok enc LN l 0) as (s & E & WL); [lia|intros j w m J; rewrite N.add_0_l; exact (H j w m J)|].
  exists (num P k ++ bs " entries" ++ [10] ++ s). split; [|exists s; split; [exact WL|now subst k]]. unfold dump_token_chain. rewrite EK, Nat2N.id, E. cbn [bind]. rewrite <- EK, put_num by exact LK. reflexivity.
Qed.
Lemma loop_ok {A} (f : N -> res bytes) (g : nat -> A -> bytes) : forall l k, (forall j x, nth_error l j = Some x -> f (N.of_nat (k + j)) = Ok (g (k + j)%nat x)) ->
  exists ls, for_msgs f (length l) (N.of_nat k) = Ok ls /\ concat ls = numbered g k l.
Proof.
  induction l as [|x l IH]; intros k H; [exists []; split; reflexivity|]. destruct (IH (S k)) as (ls & E & C); [intros j y J; replace (S k + j)%nat with (k + S j)%nat by lia; exact (H (S j) y J)|].
  pose proof (H 0%nat x eq_refl) as H0. rewrite Nat.add_0_r in H0. exists (g k x :: ls). split; [|cbn [concat numbered]; now rewrite C].
  cbn [length for_msgs]. rewrite H0. cbn [bind]. replace (N.of_nat k + 1) with (N.of_nat (S k)) by lia. rewrite E. reflexivity.
Qed.
Lemma each_ok {A} (f : N -> res bytes) (g : nat -> A -> bytes) l n : n = N.of_nat (length l) -> n < 2 ^ 31 -> (forall j x, nth_error l j = Some x -> f (N.of_nat j) = Ok (g j x)) -> each f n = Ok (numbered g 0 l).
Proof.
  intros EN LN H. destruct (loop_ok f g l 0%nat H) as (ls & E & C). unfold each. rewrite int_small31 by exact LN. subst n. rewrite nat_N_Z, Nat2Z.id. change (N.of_nat 0) with 0 in E. rewrite E. cbn [bind]. now rewrite C.
Qed.
End Lists.

Section Dumped.
Context (P : printf) (hashf : N -> bytes -> N) (db : database) (ws : list write) (F : bytes).
Local Notation M := (compute_mapping db).
Context (OK : db_ok hashf db) (LEN : blen F = file_len db) (LIMIT : file_len db < 2 ^ 31)
  (HOLD : forall w, In w ws -> holds F (fst (span w)) (wbytes w))
  (CH : chain (4 * beyond M) (chars ws) (file_len db)) (TH : trace_has db M ws) (SMALL : small_numbers db).
Local Notation r := (exp_db db).
Local Notation U := (rui ws F HOLD).
Local Notation W := (rwb (fun _ => 0) db ws F LEN LIMIT HOLD CH (g0 db F LEN LIMIT)).

Lemma below v : v <= beyond M -> v < 2 ^ 31.
Proof. intros H. pose proof (chain_le _ _ _ CH). lia. Qed.
Lemma w31 v : v < 2 ^ 31 -> word v.
Proof. apply word31. Qed.

Lemma msg_dumped k x : nth_error (msgs db) k = Some x -> dump_msg P F r (N.of_nat k) = Ok (message_line P db k x).
Proof.
  intros HN. assert (HX : In x (msgs db)) by (eapply nth_error_In; exact HN). destruct (SMALL x HX) as [ST SS].
  assert (HS : msg_storable x) by (pose proof (ok_msgs _ _ OK) as A; rewrite Forall_forall in A; auto). destruct HS as (Hdt & Htd & HSrc).
  assert (KL : N.of_nat k < 2 ^ 31). { apply below. destruct (mapping_layout db) as (L1 & L2 & L3 & L4 & L5 & L6 & L7 & L8 & L9). assert (k < length (msgs db))%nat by (apply nth_error_Some; congruence). unfold n_msgs in *. lia. }
  destruct (th_msgs _ _ _ TH k x HN) as (c1 & ws1 & c2 & EW & HW). unfold write_message in EW. pose proof (type_view db ws F LEN LIMIT HOLD CH TH k x HN) as TV.
  unfold dump_msg, rd_msg_type, type_and_flags. cbn [exp_db r_type r_path r_size r_tid r_mtime]. rewrite TV. cbn [fetch bind]. destruct (type_byte_bits x) as (-> & T2 & T3 & T4).
  assert (FL : forall b v (s : bytes), negb (N.land (type_byte x) b =? 0) = v -> (if N.land (type_byte x) b =? 0 then [] else s) = if v then s else []) by (intros b v s <-; now destruct (N.land (type_byte x) b =? 0)).
  rewrite (FL _ _ _ T2), (FL _ _ _ T3), (FL _ _ _ T4), int_small31, nat_N_Z by exact KL. unfold message_line, what.
  destruct (src x) as [|p mt sz|p|fi mi] eqn:ES; cbn [type_code].
  - reflexivity.
  - specialize (ST ltac:(discriminate)). injection EW as <- <-. destruct HSrc as (HP & Hmt & Hsz). destruct (W c1 (p ++ [0])) as (Q1 & Q2 & Q3); [apply HW; cbn [In]; tauto|].
    change (1 =? 0) with false. change (1 =? 1) with true. cbn iota. rewrite (U (path_off M + N.of_nat k) c1); [|apply HW; cbn [In]; tauto|exact Q2]. cbn [bind]. rewrite (cstr_holds _ _ _ Q1 HP). cbn [bind].
    rewrite (U (size_off M + N.of_nat k) sz); [|apply HW; cbn [In]; tauto|exact Hsz]. cbn [bind]. rewrite (U (tid_off M + N.of_nat k) (tid x)); [|apply HW; cbn [In]; tauto|exact Htd]. cbn [bind].
    rewrite !put_num by assumption. now rewrite <- !app_assoc.
  - specialize (ST ltac:(discriminate)). injection EW as <- <-. destruct (W c1 (p ++ [0])) as (Q1 & Q2 & Q3); [apply HW; cbn [In]; tauto|].
    change (3 =? 0) with false. change (3 =? 1) with false. change (3 =? 3) with true. cbn iota. rewrite (U (path_off M + N.of_nat k) c1); [|apply HW; cbn [In]; tauto|exact Q2]. cbn [bind]. rewrite (cstr_holds _ _ _ Q1 HSrc). cbn [bind].
    rewrite (U (tid_off M + N.of_nat k) (tid x)); [|apply HW; cbn [In]; tauto|exact Htd]. cbn [bind].
    rewrite !put_num by assumption. now rewrite <- !app_assoc.
  - specialize (ST ltac:(discriminate)). destruct (ok_places _ _ OK x fi mi HX ES) as (mb & sta & ln & P1 & P2 & P3 & P4 & P5 & P6). rewrite P1, P3, P5 in EW. injection EW as <- <-.
    unfold place in *. rewrite P1, P3, P5 in *. destruct SS as [S1 S2].
    destruct (W c1 (encode_mbox_indices fi mi)) as (Q1 & Q2 & Q3); [apply HW; cbn [In]; tauto|]. apply holds_app in Q1 as [Q1 Q1']. rewrite blen_le32 in Q1'.
    assert (fib : fi < 2 ^ 31). { assert (Hfi : (N.to_nat fi < length (mboxen db))%nat) by (apply nth_error_Some; congruence). apply below. destruct (mapping_layout db) as (L1 & L2 & L3 & L4 & L5 & L6 & L7 & L8 & L9). unfold n_mboxen in *. lia. }
    assert (mib : mi < 2 ^ 31). { pose proof (mb_n_lim hashf (fun _ => 0) db ws F OK LEN LIMIT CH TH (g0 db F LEN LIMIT) _ _ P1) as NL. lia. }
    change (2 =? 0) with false. change (2 =? 1) with false. change (2 =? 3) with false. change (2 =? 2) with true. cbn iota. rewrite (U (path_off M + N.of_nat k) c1); [|apply HW; cbn [In]; tauto|exact Q2]. cbn [bind].
    assert (ED : decode_mbox_indices F c1 = Ok (fi, mi)) by (unfold decode_mbox_indices; now rewrite (rd32_le32 _ _ _ Q1 (w31 _ fib)), (rd32_le32 _ _ _ Q1' (w31 _ mib))). rewrite ED. cbn [bind].
    rewrite (U (mtime_off M + N.of_nat k) sta); [|apply HW; cbn [In]; tauto|exact P4]. cbn [bind].
    rewrite (U (size_off M + N.of_nat k) ln); [|apply HW; cbn [In]; tauto|exact P6]. cbn [bind]. rewrite (U (tid_off M + N.of_nat k) (tid x)); [|apply HW; cbn [In]; tauto|exact Htd]. cbn [bind].
    rewrite !put_num by assumption. now rewrite <- !app_assoc.
Qed.
Lemma mbox_dumped k mb : nth_error (mboxen db) k = Some mb -> dump_mbox P F r (N.of_nat k) = Ok (mailbox_line P k mb).
Proof.
  intros HN. assert (KL : N.of_nat k < 2 ^ 31). { apply below. destruct (mapping_layout db) as (L1 & L2 & L3 & L4 & L5 & L6 & L7 & L8 & L9). assert (k < length (mboxen db))%nat by (apply nth_error_Some; congruence). unfold n_mboxen in *. lia. }
  destruct (th_mbox _ _ _ TH k mb HN) as (E1 & _ & _ & E4). unfold dump_mbox, mailbox_line. cbn [exp_db r_mbp r_mbe]. rewrite int_small31, nat_N_Z by exact KL.
  pose proof (mb_n_lim hashf (fun _ => 0) db ws F OK LEN LIMIT CH TH (g0 db F LEN LIMIT) _ _ HN) as NL. destruct (mb_path mb) as [p|] eqn:EP.
  - destruct E4 as (q & Q1 & Q2). apply W in Q2 as (Q2 & Q3 & Q4). rewrite (U _ _ Q1 Q3). cbn [bind].
    destruct (N.eqb_spec q 0) as [Z|_]; [exfalso; destruct (mapping_layout db) as (L1 & L2 & L3 & L4 & L5 & L6 & L7 & L8 & L9); lia|].
    rewrite (U _ _ E1 (w31 _ NL)). cbn [bind]. assert (HC : c_string p). { pose proof (ok_mboxen _ _ OK) as A. rewrite Forall_forall in A. destruct (A mb (nth_error_In _ _ HN)) as (A1 & _). auto. }
    rewrite (cstr_holds _ _ _ Q2 HC). cbn [bind]. rewrite put_num by exact NL. now rewrite <- !app_assoc.
  - rewrite (U _ _ E4 ltac:(now vm_compute)). cbn [bind]. change (0 =? 0) with true. cbn iota. reflexivity.
Qed.
Lemma nth_entries {A} (t : toktable A) j w m : nth_error (entries t) j = Some (w, m) -> exists tk, nth_error (toks (slots t)) j = Some tk /\ text tk = w /\ pay tk = m.
Proof. unfold entries. rewrite nth_error_map. destruct (nth_error (toks (slots t)) j) as [tk|]; [|discriminate]. cbn [option_map]. intros E. injection E as <- <-. eauto. Qed.
Lemma len_entries {A} (t : toktable A) : length (entries t) = length (toks (slots t)).
Proof. unfold entries. apply map_length. Qed.
Lemma n31 : n_msgs db <= 2 ^ 31.
Proof. apply N.lt_le_incl, below. destruct (mapping_layout db) as (L1 & L2 & L3 & L4 & L5 & L6 & L7 & L8 & L9). lia. Qed.
Lemma table_dumped t tb name : tab_view F (n_msgs db) t tb -> t_n tb < 2 ^ 31 -> exists c, dump_toktable P F tb (bs name) = Ok (title name ++ c) /\ chain_listed P (entries t) c.
Proof.
  intros [EN V] LN. destruct (chain_ok P F (n_msgs db) (t_tok tb) (t_enc tb) (entries t) (t_n tb) n31) as (c & E & C); [now rewrite len_entries|exact LN| |].
  - intros j w m J. apply nth_entries in J as (tk & J & <- & <-). destruct (V j tk J) as (p & q & V1 & V2 & _ & V3 & V4). exists p, q. auto.
  - exists c. split; [|exact C]. unfold dump_toktable. rewrite E. cbn [bind]. unfold title. now rewrite <- !app_assoc.
Qed.
Lemma tables_dumped : forall (l : list (toktable matches * string)) tbs, Forall2 (fun x tb => tab_view F (n_msgs db) (fst x) tb /\ t_n tb < 2 ^ 31) l tbs ->
  exists s, dump_tables P F tbs (map (fun x => bs (snd x)) l) = Ok s /\ tables_listed P l s.
Proof.
  induction 1 as [|[t name] tb l tbs [V L] H IH]; [exists []; split; [reflexivity|constructor]|]. destruct IH as (s & E & T). destruct (table_dumped t tb name V L) as (c & EC & C).
  exists (title name ++ c ++ rule ++ s). split; [|constructor; assumption]. cbn [map snd dump_tables]. rewrite EC. cbn [bind]. rewrite E. cbn [bind]. unfold dashes, rule. now rewrite <- !app_assoc.
Qed.
Lemma ids_dumped : exists c0 c1, dump_toktable2 P F (r_ids r) (bs "Message Ids") = Ok (title "Message Ids" ++ bs "Chain 0" ++ [10] ++ c0 ++ bs "Chain 1" ++ [10] ++ c1) /\
  chain_listed P (map (fun e => (fst e, fst (snd e))) (entries (d_ids db))) c0 /\ chain_listed P (map (fun e => (fst e, snd (snd e))) (entries (d_ids db))) c1.
Proof.
  destruct (ok_ids _ _ OK) as [IT HE]. pose proof (index_table2_ginv _ _ IT) as HG. pose proof (tn_toks _ _ (proj1 HG)) as TN.
  assert (LN : tn (d_ids db) < 2 ^ 31) by (apply below; destruct (mapping_layout db) as (L1 & L2 & L3 & L4 & L5 & L6 & L7 & L8 & L9); lia).
  assert (G : forall k tk, nth_error (toks (slots (d_ids db))) k = Some tk -> exists p q q1, ui F (id_tok M + N.of_nat k) = Ok p /\ get_db_token F (N.to_nat p) = T_ok (text tk) /\
    ui F (id_enc0 M + N.of_nat k) = Ok q /\ list_in F q (fst (pay tk)) (n_msgs db) /\ ui F (id_enc1 M + N.of_nat k) = Ok q1 /\ list_in F q1 (snd (pay tk)) (n_msgs db)).
  { intros k tk Hk. destruct (th_ids _ _ _ TH k tk Hk) as (p & q & q1 & Q1 & Q2 & Q3 & Q4 & Q5 & Q6). exists p, q, q1.
    apply W in Q2 as (Q2 & W2 & _). apply W in Q4 as (Q4 & W4 & _). apply W in Q6 as (Q6 & W6 & _). assert (HI : In tk (toks (slots (d_ids db)))) by (eapply nth_error_In; exact Hk).
    destruct (HE (text tk) (fst (pay tk)) (snd (pay tk))) as (Hc & xs & ys & X1 & X2 & X3 & X4 & X5); [apply entries_toks; exists tk; rewrite <- surjective_pairing; auto|].
    rewrite (U _ _ Q1 W2), (U _ _ Q3 W4), (U _ _ Q5 W6). destruct HG as [_ HG]. destruct (HG tk HI) as [[us0 Hus0] [us Hus]].
    split; [reflexivity|]. split; [now apply get_token_holds|]. split; [reflexivity|]. split; [|split; [reflexivity|]].
    - eapply list_in_holds; [exact Q4|exact Hus0|]. now rewrite <- (lists_fun _ _ _ X1 (mlist_lists _ _ Hus0)).
    - eapply list_in_holds; [exact Q6|exact Hus|]. now rewrite <- (lists_fun _ _ _ X3 (mlist_lists _ _ Hus)). }
  destruct (chain_ok P F (n_msgs db) (id_tok M) (id_enc0 M) (map (fun e => (fst e, fst (snd e))) (entries (d_ids db))) (tn (d_ids db)) n31) as (c0 & E0 & C0); [now rewrite map_length, len_entries|exact LN| |].
  { intros j w m J. rewrite nth_error_map in J. destruct (nth_error (entries (d_ids db)) j) as [[w' m']|] eqn:J'; [|discriminate]. cbn in J. injection J as <- <-. apply nth_entries in J' as (tk & J' & <- & <-). destruct (G j tk J') as (p & q & q1 & G1 & G2 & G3 & G4 & _). exists p, q. auto. }
  destruct (chain_ok P F (n_msgs db) (id_tok M) (id_enc1 M) (map (fun e => (fst e, snd (snd e))) (entries (d_ids db))) (tn (d_ids db)) n31) as (c1 & E1 & C1); [now rewrite map_length, len_entries|exact LN| |].
  { intros j w m J. rewrite nth_error_map in J. destruct (nth_error (entries (d_ids db)) j) as [[w' m']|] eqn:J'; [|discriminate]. cbn in J. injection J as <- <-. apply nth_entries in J' as (tk & J' & <- & <-). destruct (G j tk J') as (p & q & q1 & G1 & G2 & G3 & G4 & G5 & G6). exists p, q1. auto. }
  exists c0, c1. split; [|auto]. unfold dump_toktable2. cbn [exp_db r_ids t2_n t2_tok t2_enc0 t2_enc1]. rewrite E0. cbn [bind]. rewrite E1. cbn [bind]. unfold title. now rewrite <- !app_assoc.
Qed.
Lemma dump_ok name : exists s, dump_database P F name = Ok s /\ listing P name db s.
Proof.
  destruct (mapping_layout db) as (L1 & L2 & L3 & L4 & L5 & L6 & L7 & L8 & L9).
  assert (N1 : n_msgs db < 2 ^ 31) by (apply below; lia). assert (N2 : n_mboxen db < 2 ^ 31) by (apply below; lia).
  destruct (view_ok hashf db ws F OK LEN LIMIT HOLD CH TH) as [OP V].
  assert (TB : Forall2 (fun (x : toktable matches * string) tb => tab_view F (n_msgs db) (fst x) tb /\ t_n tb < 2 ^ 31) (tables_of db) (r_tabs r)).
  { assert (TT : forall t, In t (tabs db) -> tn t < 2 ^ 31).
    { intros t I. apply In_nth_error in I as (j & J). destruct (nth_error (tab_offs M) j) as [[a b]|] eqn:EJ.
      - destruct (th_tabs _ _ _ TH j t a b J EJ) as (_ & B & _). apply below. lia.
      - exfalso. apply nth_error_None in EJ. rewrite L5, map_tabs_length in EJ. assert (j < length (tabs db))%nat by (apply nth_error_Some; congruence). lia. }
    assert (TN : forall t tb, In t (tabs db) -> tab_view F (n_msgs db) t tb -> t_n tb < 2 ^ 31).
    { intros t tb I [V1 _]. rewrite V1. rewrite <- (tn_toks _ _ (proj1 (index_table_ginv _ _ (proj1 (ok_tabs _ _ OK t I))))). exact (TT t I). }
    pose proof (v_tabs _ _ _ V) as VT. clear TT. revert TN VT. generalize (r_tabs r). unfold tabs, tables_of. intros tbs TN VT.
    repeat match goal with H : Forall2 _ (_ :: _) _ |- _ => inversion H; clear H; subst | H : Forall2 _ [] _ |- _ => inversion H; clear H; subst end.
    repeat (apply Forall2_cons; [cbn [fst]; split; [assumption|eapply TN; [|eassumption]; cbn [In]; tauto]|]). apply Forall2_nil. }
  destruct (tables_dumped _ _ TB) as (ts & ET & TL). destruct ids_dumped as (c0 & c1 & EI & C0 & C1).
  pose proof (each_ok (dump_msg P F r) (message_line P db) (msgs db) (n_msgs db) eq_refl N1 msg_dumped) as EM.
  pose proof (each_ok (dump_mbox P F r) (mailbox_line P) (mboxen db) (n_mboxen db) eq_refl N2 mbox_dumped) as EB.
  eexists. split; [|exists ts, c0, c1; split; [exact TL|]; split; [exact C0|]; split; [exact C1|reflexivity]].
  unfold dump_database. rewrite OP. cbn [bind]. change (r_n r) with (n_msgs db). change (r_nb r) with (n_mboxen db). change (r_key r) with (hash_key db). rewrite EM. cbn [bind].
  unfold tables_of in ET. cbn [map snd] in ET. rewrite EB, int_small31 by exact N2.
  assert (MB : (if (0 <? Z.of_N (n_mboxen db))%Z then let! l := Ok (numbered (mailbox_line P) 0 (mboxen db)) in Ok ([10] ++ bs "MBOX INFORMATION" ++ [10] ++ put P (n_mboxen db) ++ bs " mboxen" ++ [10] ++ l ++ [10]) else Ok []) = Ok (mailboxes P (mboxen db))).
  { rewrite put_num by exact N2. unfold n_mboxen, mailboxes. destruct (mboxen db) as [|mb mbs]; [reflexivity|]. destruct (Z.ltb_spec 0 (Z.of_N (N.of_nat (length (mb :: mbs))))) as [_|Z]; [reflexivity|cbn [length] in Z; lia]. }
  rewrite MB. cbn [bind]. rewrite ET. cbn [bind]. rewrite EI. cbn [bind]. rewrite put_num by exact N1. reflexivity.
Qed.
End Dumped.
Lemma dump_main P hashf db old F name : db_ok hashf db -> small_numbers db -> write_database db old = Ok F -> exists s, dump_database P F name = Ok s /\ listing P name db s.
Proof.
  intros OK SM EW. assert (L : file_len db < 2 ^ 31).
  { unfold write_database in EW. destruct (2 ^ 31 <=? file_len db) eqn:Z; [discriminate|]. apply N.leb_gt in Z. exact Z. }
  destruct (write_ok hashf db old OK L) as (ws & F' & E & EW' & LF & B & D & HF & C & T). rewrite EW in EW'. injection EW' as <-. exact (dump_ok P hashf db ws F OK LF L HF C T SM name).
Qed.
(* a file of three thousand million bytes *)
Definition big_db := mk_db 0 [mk_msg (S_file (bs "/m/1") 1 3000000000) 3 0] [] [] [] [].
Definition big_F := get_ok [] (write_database big_db []).
Lemma big_ok : db_ok ex_h big_db.
Proof. apply one_file_ok; now vm_compute. Qed.
Lemma big_dump s : dump_database c_printf big_F (bs "x") = Ok s -> ~ listing c_printf (bs "x") big_db s.
Proof.
  intros E (ts & c0 & c1 & _ & _ & _ & L).
  assert (A : firstn 48 s = bs "Dump of x" ++ [10] ++ bs "1 messages" ++ [10] ++ bs "     0: FILE /m/1, size=-12") by (revert E; vm_compute; now intros [= <-]).
  rewrite L in A. revert A. cbn [firstn]. vm_compute. discriminate.
Qed.
Definition big_text := get_ok [] (dump_database c_printf big_F (bs "x")).
Lemma big_text_ok : dump_database c_printf big_F (bs "x") = Ok big_text.
Proof. now vm_compute. Qed.
Lemma big_main : db_ok ex_h big_db /\ write_database big_db [] = Ok big_F /\ dump_database c_printf big_F (bs "x") = Ok big_text /\ ~ listing c_printf (bs "x") big_db big_text.
Proof. split; [exact big_ok|]. split; [now vm_compute|]. split; [exact big_text_ok|]. exact (big_dump _ big_text_ok). Qed.
Lemma dump_wrong : exists hashf db F name s, db_ok hashf db /\ write_database db [] = Ok F /\ dump_database c_printf F name = Ok s /\ ~ listing c_printf name db s.
Proof. exists ex_h, big_db, big_F, (bs "x"), big_text. exact big_main. Qed.
Definition dump_text := get_ok [] (dump_database c_printf (get_ok [] (write_database ex_db [])) (bs "/home/.db")).
Lemma ex_db_small : small_numbers ex_db.
Proof. intros m H. cbn in H. destruct H as [<-|[<-|[<-|[<-|[<-|[]]]]]]; split; try (intros _; now vm_compute); try exact Logic.I; try (now vm_compute). Qed.
