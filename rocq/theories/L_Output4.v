(* What the index file says about a message that is to be output. *)
From Verif Require Import Base L_Bits M_Encoding M_TokTable S_TokTable M_DbFile S_DbFile M_WuManber S_Match M_Search S_Search M_Output S_Output
  L_Encoding L_Encoding2 L_TokTable L_TokTable2 L_DbFile L_DbFile2 L_DbFile3 L_DbFile4 L_DbFile5 L_Search L_Search6.
Local Open Scope N_scope.

Record out_facts (F : bytes) (r : read_db) (db : database) (i : N) (x : msg) : Prop := {
  of_type : type_and_flags F r i = Ok (type_byte x);
  of_path : forall p, src x = S_imap p \/ (exists mt sz, src x = S_file p mt sz) -> path_at F r i = Ok p;
  of_box : forall w st ln ck, indexed_at db x w st ln ck -> exists fi mi off po co,
     src x = S_mbox fi mi /\ ui F (r_path r + i) = Ok off /\ decode_mbox_indices F off = Ok (fi, mi) /\
     ui F (r_mbp r + fi) = Ok po /\ cstr F po = Ok w /\ ui F (r_mtime r + i) = Ok st /\ ui F (r_size r + i) = Ok ln /\
     ui F (r_mbc r + fi) = Ok co /\ sub F (co + 16 * mi) 16 = Some ck }.

Lemma concat_nth : forall (l : list bytes) k c, Forall (fun c => length c = 16%nat) l -> nth_error l k = Some c ->
  exists a b, concat l = a ++ c ++ b /\ length a = (16 * k)%nat.
Proof.
  induction l as [|x l IH]; intros [|k] c H E; try discriminate; inversion H; subst.
  - injection E as ->. exists [], (concat l). auto.
  - destruct (IH k c) as (a & b & A & B); [assumption|exact E|]. exists (x ++ a), b. cbn [concat]. rewrite A, app_assoc, app_length. split; [now rewrite <- !app_assoc|lia].
Qed.
Lemma nth_error_firstn {A} : forall (l : list A) k n, (k < n)%nat -> nth_error (firstn n l) k = nth_error l k.
Proof. induction l as [|x l IH]; intros [|k] [|n] H; try reflexivity; try lia. cbn [firstn nth_error]. apply IH. lia. Qed.

Section View.
Context (hashf : N -> bytes -> N) (db : database) (ws : list write) (F : bytes).
Local Notation M := (compute_mapping db).
Context (OK : db_ok hashf db) (LEN : blen F = file_len db) (LIMIT : file_len db < 2 ^ 31)
  (HOLD : forall w, In w ws -> holds F (fst (span w)) (wbytes w))
  (CH : chain (4 * beyond M) (chars ws) (file_len db)) (TH : trace_has db M ws).
Local Notation r := (exp_db db).
Local Notation U := (rui ws F HOLD).
Local Notation W := (rwb (fun _ => 0) db ws F LEN LIMIT HOLD CH (g0 db F LEN LIMIT)).

Lemma out_view i x : nth_error (msgs db) i = Some x -> out_facts F r db (N.of_nat i) x.
Proof.
  intros HN. assert (HX : In x (msgs db)) by (eapply nth_error_In; exact HN).
  assert (HS : msg_storable x) by (pose proof (ok_msgs _ _ OK) as A; rewrite Forall_forall in A; auto).
  destruct HS as (Hdt & Htd & HSrc). constructor.
  - unfold type_and_flags. cbn [r_type exp_db]. rewrite (type_view db ws F LEN LIMIT HOLD CH TH i x HN). reflexivity.
  - intros p HP. unfold path_at. cbn [r_path exp_db].
    destruct (th_msgs _ _ _ TH i x HN) as (c1 & ws1 & c2 & EW & HW). unfold write_message in EW.
    destruct HP as [HP|(mt & sz & HP)]; rewrite HP in EW, HSrc; injection EW as <- <-;
      (destruct (W c1 (p ++ [0])) as (Q1 & Q2 & Q3); [apply HW; cbn [In]; tauto|]);
      (rewrite (U (path_off M + N.of_nat i) c1); [|apply HW; cbn [In]; tauto|assumption]); cbn [bind]; apply cstr_holds; try assumption; apply HSrc.
  - intros w st ln ck (fi & mi & mb & ES & P1 & PW & P3 & P5 & PC).
    destruct (msg_view hashf db ws F OK LEN LIMIT HOLD CH TH i x HN) as [_ _ MS _ MB].
    destruct (MB fi mi ES) as (c & mb' & E1 & E2 & E3). rewrite P1 in E3. injection E3 as <-.
    destruct (ok_places _ _ OK x fi mi HX ES) as (mb' & sta & len & R1 & R2 & R3 & R4 & R5 & R6).
    rewrite P1 in R1. injection R1 as <-. rewrite P3 in R3. injection R3 as <-. rewrite P5 in R5. injection R5 as <-.
    destruct (th_mbox _ _ _ TH (N.to_nat fi) mb P1) as (_ & _ & _ & PP). rewrite PW in PP. destruct PP as (q & Q1 & Q2).
    rewrite N2Nat.id in Q1. apply W in Q2 as (Q2 & W2 & _).
    destruct (th_cks _ _ _ TH (N.to_nat fi) mb P1) as (co & C1 & C2). rewrite N2Nat.id in C1. apply W in C2 as (C2 & W3 & _).
    assert (HB : mbox_storable mb) by (pose proof (ok_mboxen _ _ OK) as A; rewrite Forall_forall in A; apply A; eapply nth_error_In; exact P1).
    destruct HB as (HP & _ & _ & HL & H16).
    exists fi, mi, c, q, co. split; [exact ES|]. split; [exact E1|]. split; [exact E2|]. split; [exact (U _ _ Q1 W2)|].
    split; [apply cstr_holds; auto|]. split.
    + destruct (th_msgs _ _ _ TH i x HN) as (c1 & ws1 & c2 & EW & HW). unfold write_message in EW. rewrite ES, P1, P3, P5 in EW. injection EW as <- <-.
      apply U; [apply HW; cbn [In]; tauto|assumption].
    + split.
      * apply MS. unfold size_of. now rewrite ES, P1, P5.
      * split; [exact (U _ _ C1 W3)|].
        destruct (concat_nth (firstn (N.to_nat (mb_n mb)) (checks mb)) (N.to_nat mi) ck) as (a & b & A & B).
        -- now apply Forall_firstn.
        -- rewrite nth_error_firstn by lia. exact PC.
        -- rewrite A in C2. apply holds_app in C2 as [_ C2]. apply holds_app in C2 as [C2 _]. apply holds_sub in C2.
           assert (L16 : length ck = 16%nat) by (rewrite Forall_forall in H16; apply H16; eapply nth_error_In; exact PC).
           unfold blen in C2. rewrite B, L16 in C2. replace (co + 16 * mi) with (co + N.of_nat (16 * N.to_nat mi)) by lia. exact C2.
Qed.
End View.

Lemma out_written hashf db old F r : db_ok hashf db -> write_database db old = Ok F -> open_db F = Ok r ->
  forall i x, message db i = Some x -> out_facts F r db i x.
Proof.
  intros OK EW EO i x HM. assert (L : file_len db < 2 ^ 31).
  { unfold write_database in EW. destruct (2 ^ 31 <=? file_len db) eqn:Z; [discriminate|]. apply N.leb_gt in Z. exact Z. }
  destruct (write_ok hashf db old OK L) as (ws & F' & E & EW' & LF & B & D & HF & C & T).
  rewrite EW in EW'. injection EW' as <-.
  pose proof (proj1 (view_ok hashf db ws F OK LF L HF C T)) as E2. rewrite EO in E2. injection E2 as ->.
  rewrite <- (N2Nat.id i). exact (out_view hashf db ws F OK LF L HF C T (N.to_nat i) x HM).
Qed.

(* The message at a place, cut short by the end of the file. *)
Section Valid.
Context (csum : bytes -> bytes) (expand : bytes -> bytes -> option bytes).
Lemma clip_ok (b : bytes) st ln : blen b < 2 ^ 31 -> st < 2 ^ 31 -> ln < 2 ^ 31 ->
  (let len := if blen b <=? st then 0 else if blen b <=? (st + ln) mod 2 ^ 32 then blen b - st else ln in
   if len =? 0 then Ok [] else fetch (sub b st len)) = Ok (firstn (N.to_nat ln) (skipn (N.to_nat st) b)).
Proof.
  intros HB HS HL. cbv zeta. rewrite N.mod_small by (change (2 ^ 31) with 2147483648 in *; change (2 ^ 32) with 4294967296; lia).
  unfold sub, fetch. unfold blen in *.
  destruct (N.of_nat (length b) <=? st) eqn:E1; [apply N.leb_le in E1|apply N.leb_gt in E1].
  - change (0 =? 0) with true. cbv iota. rewrite skipn_all2 by lia. now rewrite firstn_nil.
  - destruct (N.of_nat (length b) <=? st + ln) eqn:E2; [apply N.leb_le in E2|apply N.leb_gt in E2].
    + destruct (N.of_nat (length b) - st =? 0) eqn:Z; [apply N.eqb_eq in Z; lia|].
      replace (st + (N.of_nat (length b) - st) <=? N.of_nat (length b)) with true by (symmetry; apply N.leb_le; lia). apply (f_equal Ok).
      rewrite !firstn_all2; [reflexivity|rewrite skipn_length; lia|rewrite skipn_length; lia].
    + destruct (ln =? 0) eqn:Z; [apply N.eqb_eq in Z; subst ln; reflexivity|].
      replace (st + ln <=? N.of_nat (length b)) with true by (symmetry; apply N.leb_le; lia). reflexivity.
Qed.
Lemma map_file_bound d p b : map_file expand d p = Ok (Some b) -> blen b < 2 ^ 31.
Proof.
  unfold map_file. destruct (stat_node d p) as [[i|t|]|]; try discriminate. destruct (expand p (data d i)) as [[|c s]|]; try discriminate.
  destruct (2 ^ 31 <=? blen (c :: s)) eqn:E; [discriminate|]. intros H. injection H as <-. now apply N.leb_gt.
Qed.
Lemma indexed_fun db x w st ln ck w' st' ln' ck' : indexed_at db x w st ln ck -> indexed_at db x w' st' ln' ck' ->
  w = w' /\ st = st' /\ ln = ln' /\ ck = ck'.
Proof.
  intros (fi & mi & mb & A1 & A2 & A3 & A4 & A5 & A6) (fi' & mi' & mb' & B1 & B2 & B3 & B4 & B5 & B6).
  rewrite A1 in B1. injection B1 as <- <-. rewrite A2 in B2. injection B2 as <-. split; [congruence|]. split; [congruence|]. split; congruence.
Qed.
Lemma validated_ok F r db d i x w st ln ck : out_facts F r db i x -> indexed_at db x w st ln ck -> st < 2 ^ 31 -> ln < 2 ^ 31 ->
  forall o, map_file expand d w = Ok o ->
  get_validated_mbox_msg csum expand d F r i = Ok match o with
    | None => V_unmapped
    | Some b => let t := firstn (N.to_nat ln) (skipn (N.to_nat st) b) in if bytes_eqb ck (csum t) then V_good w t else V_bad end.
Proof.
  intros [_ _ OB] IX HS HL o EM. destruct (OB _ _ _ _ IX) as (fi & mi & off & po & co & ES & E1 & E2 & E3 & E4 & E5 & E6 & E7 & E8).
  unfold get_validated_mbox_msg. rewrite E1. cbn [bind]. rewrite E2. cbn [bind]. rewrite E3. cbn [bind]. rewrite E4. cbn [bind]. rewrite EM. cbn [bind].
  destruct o as [b|]; [|reflexivity]. rewrite E5. cbn [bind]. rewrite E6. cbn [bind].
  pose proof (clip_ok b st ln (map_file_bound _ _ _ EM) HS HL) as CL. cbv zeta in CL. rewrite CL. cbn [bind]. rewrite E7. cbn [bind]. rewrite E8. reflexivity.
Qed.
Lemma validated_spec F r db d i x : out_facts F r db i x ->
  (exists w st ln ck, indexed_at db x w st ln ck /\ st < 2 ^ 31 /\ ln < 2 ^ 31 /\ exists o, map_file expand d w = Ok o) ->
  exists v, get_validated_mbox_msg csum expand d F r i = Ok v /\
    (forall w t, v = V_good w t <-> unchanged csum expand d db x w t) /\
    (v = V_bad <-> changed csum expand d db x) /\
    (v = V_unmapped <-> forall w t, ~ text_now expand d db x w t).
Proof.
  intros OF (w & st & ln & ck & IX & HS & HL & o & EM).
  exists match o with
    | None => V_unmapped
    | Some b => let t := firstn (N.to_nat ln) (skipn (N.to_nat st) b) in if bytes_eqb ck (csum t) then V_good w t else V_bad end.
  split; [eapply validated_ok; eassumption|].
  assert (TN : forall w' t, text_now expand d db x w' t <-> w' = w /\ exists b, o = Some b /\ t = firstn (N.to_nat ln) (skipn (N.to_nat st) b)).
  { intros w' t. split.
    - intros (st' & ln' & ck' & b & IX' & EM' & ->). destruct (indexed_fun _ _ _ _ _ _ _ _ _ _ IX IX') as (<- & <- & <- & <-).
      split; [reflexivity|]. exists b. split; [congruence|reflexivity].
    - intros (-> & b & -> & ->). exists st, ln, ck, b. auto. }
  assert (UN : forall w' t, unchanged csum expand d db x w' t <-> text_now expand d db x w' t /\ ck = csum t).
  { intros w' t. split.
    - intros (T & st' & ln' & IX'). split; [exact T|]. destruct (indexed_fun _ _ _ _ _ _ _ _ _ _ IX IX') as (_ & _ & _ & E). exact E.
    - intros (T & E). split; [exact T|]. exists st, ln. rewrite <- E. apply TN in T as (-> & _). exact IX. }
  destruct o as [b|].
  - cbv zeta. set (t0 := firstn (N.to_nat ln) (skipn (N.to_nat st) b)) in *.
    assert (T0 : text_now expand d db x w t0) by (apply TN; split; [reflexivity|]; exists b; auto).
    assert (T1 : forall w' t, text_now expand d db x w' t -> w' = w /\ t = t0).
    { intros w' t H. apply TN in H as (-> & b' & E & ->). injection E as <-. auto. }
    destruct (bytes_eqb ck (csum t0)) eqn:EC.
    + apply bytes_eqb_eq in EC. split; [|split].
      * intros w' t. rewrite UN. split; [intros H; injection H as <- <-; auto|]. intros (H & _). apply T1 in H as (-> & ->). reflexivity.
      * split; [discriminate|]. intros (w' & t & H & N). exfalso. apply N. apply UN. apply T1 in H as (-> & ->). auto.
      * split; [discriminate|]. intros H. exfalso. eapply H. exact T0.
    + apply bytes_eqb_neq in EC. split; [|split].
      * intros w' t. rewrite UN. split; [discriminate|]. intros (H & N). exfalso. apply T1 in H as (-> & ->). auto.
      * split; [|reflexivity]. intros _. exists w, t0. split; [exact T0|]. rewrite UN. intros (_ & N). auto.
      * split; [discriminate|]. intros H. exfalso. eapply H. exact T0.
  - assert (T1 : forall w' t, ~ text_now expand d db x w' t) by (intros w' t H; apply TN in H as (_ & b' & E & _); discriminate).
    split; [|split].
    + intros w' t. rewrite UN. split; [discriminate|]. intros (H & _). exfalso. eapply T1. exact H.
    + split; [discriminate|]. intros (w' & t & H & _). exfalso. eapply T1. exact H.
    + split; [auto|reflexivity].
Qed.
End Valid.
