(* Adding the messages of mailboxes. *)
From Coq Require Import Permutation Sorted.
From Verif Require Import Base M_Encoding M_TokTable S_TokTable M_DbFile S_DbFile M_Search S_Search M_Thread M_Purge M_Tokens S_Tokens M_Mbox S_Mbox M_Update S_Update L_Thread L_Mbox L_Mbox4 L_Update3.
Local Open Scope N_scope.

Definition text_at (va : bytes) (st ln : N) : bytes := firstn (N.to_nat ln) (skipn (N.to_nat st) va).
(* message mi of mailbox mb is at st, ln and has its checksum *)
Definition at_place (mb : mbox) (mi st ln : N) : Prop :=
  nth_error (starts mb) (N.to_nat mi) = Some (Some st) /\ nth_error (lens mb) (N.to_nat mi) = Some (Some ln).
Definition place_says (W : world) (mb : mbox) (mi : N) (r : rfc822) : Prop :=
  exists p va st ln, mb_path mb = Some p /\ w_map W p = Mapped va /\ at_place mb mi st ln /\
    st + ln <= N.of_nat (length va) /\ fst (w_parse W (text_at va st ln)) = Some r.

Lemma sub_in va st ln : st + ln <= N.of_nat (length va) -> sub va st ln = Some (text_at va st ln).
Proof. intros H. unfold sub. destruct (N.leb_spec (st + ln) (N.of_nat (length va))); [reflexivity|lia]. Qed.

Definition chunks_in (va : bytes) (cs : list (N * N)) : Prop := Forall (fun c => fst c + snd c <= N.of_nat (length va)) cs.
Definition chunks_up (cs : list (N * N)) : Prop := StronglySorted (fun a b => fst a <= fst b) cs.
Lemma try_parse_ok W va start : forall cs trials, (trials < 100) -> chunks_in va cs -> Forall (fun c => start <= fst c) cs ->
  exists o, try_parse W trials va start cs = Ok o /\
    match o with
    | None => forall i d, (i < N.to_nat (100 - trials))%nat -> nth_error cs i = Some d -> ~ ends_well W va start d
    | Some (len, r8, rest) => start + len <= N.of_nat (length va) /\ fst (w_parse W (text_at va start len)) = r8 /\ exists k c, (k < length cs)%nat /\ rest = skipn (S k) cs /\
        nth_error cs k = Some c /\ (k < N.to_nat (100 - trials))%nat /\ len = fst c + snd c - start /\ ends_well W va start c /\ (forall i d, (i < k)%nat -> nth_error cs i = Some d -> ~ ends_well W va start d)
    end.
Proof.
  induction cs as [|[s l] cs IH]; intros trials LT I F; cbn [try_parse].
  - exists None. split; [reflexivity|]. intros [|i] d _ H; discriminate.
  - inversion I as [|? ? I1 I2]; inversion F as [|? ? F1 F2]; subst. cbn [fst snd] in *.
    rewrite (sub_in va start (s + l - start)) by lia. cbn [fetch bind]. destruct (w_parse W (text_at va start (s + l - start))) as [r8 me] eqn:E.
    assert (EW : ends_well W va start (s, l) <-> me = false) by (unfold ends_well; cbn [fst snd]; fold (text_at va start (s + l - start)); rewrite E; reflexivity).
    destruct me.
    + destruct (N.ltb_spec (trials + 1) 100) as [LT'|GE].
      * destruct (IH (trials + 1) LT' I2 F2) as (o & E' & H). exists o. split; [exact E'|].
        destruct o as [[[len r] rest]|].
        -- destruct H as (A & B & k & c & C & D & G1 & G2 & G3 & G4 & G5). split; [exact A|]. split; [exact B|]. exists (S k), c. split; [cbn [length]; lia|]. split; [exact D|].
           split; [exact G1|]. split; [lia|]. split; [exact G3|]. split; [exact G4|]. intros [|i] d L X; [injection X as <-; rewrite EW; discriminate|]. apply (G5 i d); [lia|exact X].
        -- intros [|i] d L X; [injection X as <-; rewrite EW; discriminate|]. apply (H i d); [lia|exact X].
      * exists None. split; [reflexivity|]. intros i d L X. assert (i = O) by lia. subst i. injection X as <-. rewrite EW. discriminate.
    + eexists. split; [reflexivity|]. split; [lia|]. split; [rewrite E; reflexivity|]. exists O, (s, l). split; [cbn [length]; lia|]. split; [reflexivity|]. split; [reflexivity|]. split; [lia|]. split; [reflexivity|].
      split; [now apply EW|]. intros i d L. lia.
Qed.

Lemma store_ok {A} (a : list A) i v : i < N.of_nat (length a) -> store a i v = Ok (set_nth a (N.to_nat i) v).
Proof. intros H. unfold store. destruct (N.ltb_spec i (N.of_nat (length a))); [reflexivity|lia]. Qed.

(* [part] is what mailbox number fi has gained from message j on; the messages before lo are the old ones *)
Record filled (W : world) (va : bytes) (j j' : N) (mb mb' : mbox) : Prop := {
  fl_path : mb_path mb' = mb_path mb;
  fl_fm : f_mtime mb' = f_mtime mb; fl_fs : f_size mb' = f_size mb;
  fl_cm : c_mtime mb' = c_mtime mb; fl_cs : c_size mb' = c_size mb;
  fl_len : length (starts mb') = length (starts mb);
  fl_level : level mb';
  fl_old : forall i, (i < N.to_nat j)%nat -> nth_error (starts mb') i = nth_error (starts mb) i /\ nth_error (lens mb') i = nth_error (lens mb) i /\ nth_error (checks mb') i = nth_error (checks mb) i;
  fl_new : forall i, j <= i < j' -> exists st ln, at_place mb' i st ln /\ st + ln <= N.of_nat (length va) /\ nth_error (checks mb') (N.to_nat i) = Some (w_csum W (text_at va st ln)) ;
  fl_sums : (forall t, length (w_csum W t) = 16%nat) -> Forall (fun c => length c = 16%nat) (checks mb) -> Forall (fun c => length c = 16%nat) (checks mb') }.

Definition entry_of (W : world) (n fi mi : N) (o : option rfc822) : msg :=
  match o with
  | Some (Rfc822 h _) => with_flags (with_src (w_junk_msg W n) (S_mbox fi mi)) (u32_of_int (h_date h)) (h_seen h, h_replied h, h_flagged h)
  | None => with_src (w_junk_msg W n) (S_mbox fi mi)
  end.
(* the entry made for message mi of the mailbox *)
Definition entry_at (W : world) (va : bytes) (mb : mbox) (n fi mi : N) (m : msg) : Prop :=
  exists st ln, at_place mb mi st ln /\ st + ln <= N.of_nat (length va) /\ m = entry_of W n fi mi (fst (w_parse W (text_at va st ln))).

Lemma Forall_set {A} (P : A -> Prop) (l : list A) i x : Forall P l -> P x -> Forall P (set_nth l i x).
Proof. intros F X. revert i. induction F as [|a l H F IH]; intros [|i]; cbn; constructor; auto. Qed.
Lemma skipn_cons_in {A} (P : A -> Prop) k (l : list A) : Forall P l -> Forall P (skipn k l).
Proof. revert l. induction k as [|k IH]; intros l H; [exact H|]. destruct l; [constructor|]. inversion H; subst. now apply IH. Qed.
Lemma skipn_sorted {A} (R : A -> A -> Prop) k (l : list A) : StronglySorted R l -> StronglySorted R (skipn k l).
Proof. revert l. induction k as [|k IH]; intros l H; [exact H|]. destruct l; [constructor|]. inversion H; subst. now apply IH. Qed.

Lemma add_chunks_ok W fi va : world_ok W -> forall fuel cs j mb n db, (length cs < fuel)%nat -> chunks_in va cs -> chunks_up cs ->
  level mb -> j + N.of_nat (length cs) <= N.of_nat (length (starts mb)) ->
  tabs_good W n db -> n <= n_msgs db -> n_msgs db + N.of_nat (length cs) <= 63 * 2 ^ 24 ->
  exists mb' part db', add_chunks W fuel fi va j cs mb db = Ok (mb', j + N.of_nat (length part), db') /\
    (length part <= length cs)%nat /\ (cs <> [] -> part <> []) /\ mb_n mb' = mb_n mb /\ filled W va j (j + N.of_nat (length part)) mb mb' /\
    mboxen db' = mboxen db /\ msgs db' = msgs db ++ part /\ tabs_good W (n_msgs db + N.of_nat (length part)) db' /\
    (forall k m, nth_error part k = Some m -> entry_at W va mb' (n_msgs db + N.of_nat k) fi (j + N.of_nat k) m) /\
    (exists places, grouped W va cs places /\ length places = length part /\ forall k st ln, nth_error places k = Some (st, ln) -> at_place mb' (j + N.of_nat k) st ln) /\
    learns W db db' (fun x r => exists k st ln, (k < length part)%nat /\ x = n_msgs db + N.of_nat k /\ at_place mb' (j + N.of_nat k) st ln /\
        st + ln <= N.of_nat (length va) /\ fst (w_parse W (text_at va st ln)) = Some r).
Proof.
  intros WO. induction fuel as [|f IH]; intros cs j mb n db LF CI CU LV LJ T LN SM; [lia|]. cbn [add_chunks]. destruct cs as [|[start len1] rest1].
  - exists mb, [], db. cbn [length]. replace (j + N.of_nat 0) with j by lia. split; [reflexivity|]. split; [lia|]. split; [congruence|]. split; [reflexivity|]. split; [|split; [reflexivity|]].
    + constructor; auto. intros i H. lia.
    + split; [now rewrite app_nil_r|]. split; [eapply tabs_le; [exact T|lia]|]. split; [intros [|k] m H; discriminate|].
      split; [exists []; split; [constructor|]; split; [reflexivity|]; intros [|k] st ln H; discriminate|].
      apply learns_none; auto. intros x r (k & st & ln & H & _). lia.
  - set (cs := (start, len1) :: rest1) in *.
    assert (CH : start + len1 <= N.of_nat (length va)) by (inversion CI; assumption).
    assert (CG : Forall (fun c => start <= fst c) cs).
    { inversion CU as [|? ? S1 S2]; subst. constructor; [cbn; lia|]. eapply Forall_impl; [|exact S2]. cbn. auto. }
    assert (TRY : exists len r8 rest,
       (let! tried := try_parse W 0 va start cs in
        match tried with
        | Some x => Ok x
        | None => let! text := fetch (sub va start len1) in Ok (len1, fst (w_parse W text), rest1)
        end) = Ok (len, r8, rest) /\ start + len <= N.of_nat (length va) /\ fst (w_parse W (text_at va start len)) = r8 /\
        (exists k, (k < length cs)%nat /\ rest = skipn (S k) cs) /\ forall places, grouped W va rest places -> grouped W va cs ((start, len) :: places)).
    { destruct (try_parse_ok W va start cs 0 ltac:(lia) CI CG) as (o & E & H). rewrite E. cbn [bind]. destruct o as [[[len r8] rest]|].
      - exists len, r8, rest. destruct H as (H1 & H2 & k & c & H3 & H4 & H5 & H6 & H7 & H8 & H9). split; [reflexivity|]. split; [exact H1|]. split; [exact H2|]. split; [eauto|].
        intros places G. rewrite H7. apply (Grouped_join W va start len1 rest1 k c); auto. rewrite H4 in G. exact G.
      - rewrite sub_in by exact CH. cbn [fetch bind]. exists len1, (fst (w_parse W (text_at va start len1))), rest1. split; [reflexivity|]. split; [exact CH|]. split; [reflexivity|].
        split; [exists O; split; [cbn; lia|reflexivity]|]. intros places G. now apply Grouped_alone. }
    destruct TRY as (len & r8 & rest & E1 & B1 & P1 & (k0 & K1 & K2) & GR).
    assert (BB : forall {A} (g : N * option rfc822 * list (N * N) -> res A),
      (let! tried := try_parse W 0 va start cs in let! x := match tried with
        | Some x => Ok x
        | None => let! text := fetch (sub va start len1) in Ok (len1, fst (w_parse W text), rest1)
        end in g x) = g (len, r8, rest)).
    { intros A g. destruct (try_parse W 0 va start cs) as [o|]; cbn [bind] in E1 |- *; [rewrite E1; reflexivity|discriminate]. }
    rewrite (BB _ (fun x => let '(len, r8, rest) := x in _)). clear BB E1. rewrite (sub_in va start len B1). cbn [fetch bind].
    destruct LV as [LV1 LV2]. assert (LC : length cs = S (length rest1)) by reflexivity. rewrite LC in LJ, SM, LF, K1.
    rewrite !store_ok by (rewrite ?LV1, ?LV2; lia). cbn [bind].
    set (mb1 := with_arrays mb (set_nth (starts mb) (N.to_nat j) (Some start)) (set_nth (lens mb) (N.to_nat j) (Some len)) (set_nth (checks mb) (N.to_nat j) (w_csum W (text_at va start len)))).
    set (m := match r8 with Some (Rfc822 h _) => _ | None => _ end).
    assert (EM : m = entry_of W (n_msgs db) fi j r8) by reflexivity.
    assert (IW : exists db1, match r8 with Some r => index_words W (n_msgs db) r (with_msgs db (msgs db ++ [m])) | None => Ok (with_msgs db (msgs db ++ [m])) end = Ok db1 /\
       tabs_good W (n_msgs db + 1) db1 /\ mboxen db1 = mboxen db /\ msgs db1 = msgs db ++ [m] /\ learns W db db1 (fun x r => x = n_msgs db /\ r8 = Some r)).
    { destruct r8 as [r|].
      - destruct (index_words_ok W (n_msgs db) r n (with_msgs db (msgs db ++ [m])) WO) as (db1 & E & T1 & M1 & R1).
        + eapply (wo_parse W WO). exact P1.
        + unfold small. lia.
        + now apply tabs_good_msgs.
        + lia.
        + exists db1. split; [exact E|]. split; [exact T1|]. split; [apply R1|]. split; [exact M1|].
          apply records_learns in R1. apply learns_msgs in R1. eapply learns_iff; [exact R1|]. cbv beta. intuition congruence.
      - eexists. split; [reflexivity|]. split; [apply tabs_good_msgs; eapply tabs_le; [exact T|lia]|]. split; [reflexivity|]. split; [reflexivity|].
        apply learns_none; auto using table_with_msgs. intros x r [_ X]. discriminate. }
    destruct IW as (db1 & EI & T1 & B2 & M1 & L1). rewrite EI. cbn [bind].
    assert (LR : (length rest <= length rest1)%nat) by (rewrite K2; cbn [cs skipn]; rewrite skipn_length; lia).
    assert (N1 : n_msgs db1 = n_msgs db + 1) by (unfold n_msgs; rewrite M1, app_length; cbn [length]; lia).
    assert (S1 : length (starts mb1) = length (starts mb)) by (cbn; now rewrite length_set).
    destruct (IH rest (j + 1) mb1 (n_msgs db + 1) db1) as (mb' & part & db' & E & A1 & A2 & A3 & A4 & A5 & A6 & A7 & A8 & (places & GP & GL & GA) & A9).
    + lia.
    + rewrite K2. apply skipn_cons_in. exact CI.
    + rewrite K2. apply skipn_sorted. exact CU.
    + split; cbn; rewrite !length_set; assumption.
    + rewrite S1. lia.
    + exact T1.
    + lia.
    + lia.
    + exists mb', (m :: part), db'. cbn [length]. replace (j + N.of_nat (S (length part))) with (j + 1 + N.of_nat (length part)) by lia.
      split; [exact E|]. split; [lia|]. split; [discriminate|]. split; [exact A3|].
      assert (PL : at_place mb' j start len /\ nth_error (checks mb') (N.to_nat j) = Some (w_csum W (text_at va start len))).
      { destruct (fl_old _ _ _ _ _ _ A4 (N.to_nat j) ltac:(lia)) as (O1 & O2 & O3). unfold at_place. rewrite O1, O2, O3. cbn. rewrite !nth_set_same by lia. auto. }
      destruct PL as [PL PC].
      split; [|split; [congruence|split; [rewrite A6, M1, <- app_assoc; reflexivity|split; [|split; [|split]]]]].
      * constructor.
        -- rewrite (fl_path _ _ _ _ _ _ A4). reflexivity.
        -- rewrite (fl_fm _ _ _ _ _ _ A4). reflexivity.
        -- rewrite (fl_fs _ _ _ _ _ _ A4). reflexivity.
        -- rewrite (fl_cm _ _ _ _ _ _ A4). reflexivity.
        -- rewrite (fl_cs _ _ _ _ _ _ A4). reflexivity.
        -- rewrite (fl_len _ _ _ _ _ _ A4). exact S1.
        -- apply A4.
        -- intros i H. destruct (fl_old _ _ _ _ _ _ A4 i ltac:(lia)) as (O1 & O2 & O3). rewrite O1, O2, O3. cbn. rewrite !nth_set_other by lia. auto.
        -- intros i H. destruct (N.eq_dec i j) as [->|NE].
           ++ exists start, len. auto.
           ++ apply (fl_new _ _ _ _ _ _ A4). lia.
        -- intros C1 C2. apply (fl_sums _ _ _ _ _ _ A4 C1). cbn. apply Forall_set; auto.
      * rewrite N1 in A7. replace (n_msgs db + N.of_nat (S (length part))) with (n_msgs db + 1 + N.of_nat (length part)) by lia. exact A7.
      * intros [|k] m' H.
        -- cbn in H. injection H as <-. exists start, len. replace (j + N.of_nat 0) with j by lia. replace (n_msgs db + N.of_nat 0) with (n_msgs db) by lia.
           split; [exact PL|]. split; [exact B1|]. rewrite P1. exact EM.
        -- cbn in H. specialize (A8 k m' H). rewrite N1 in A8. replace (n_msgs db + N.of_nat (S k)) with (n_msgs db + 1 + N.of_nat k) by lia.
           replace (j + N.of_nat (S k)) with (j + 1 + N.of_nat k) by lia. exact A8.
      * exists ((start, len) :: places). split; [apply GR; exact GP|]. split; [cbn [length]; congruence|]. intros [|k] st ln H.
        -- injection H as <- <-. replace (j + N.of_nat 0) with j by lia. exact PL.
        -- replace (j + N.of_nat (S k)) with (j + 1 + N.of_nat k) by lia. apply GA. exact H.
      * eapply learns_trans; [exact L1|exact A9|]. cbv beta. rewrite N1. intros x r. split.
        -- intros (k & st & ln & Q1 & Q2 & Q3 & Q4 & Q5). destruct k as [|k].
           ++ left. replace (j + N.of_nat 0) with j in Q3 by lia. split; [lia|]. destruct PL as [PL1 PL2], Q3 as [Q31 Q32]. assert (st = start) by congruence. assert (ln = len) by congruence. subst. congruence.
           ++ right. exists k, st, ln. split; [lia|]. split; [lia|]. replace (j + 1 + N.of_nat k) with (j + N.of_nat (S k)) by lia. auto.
        -- intros [(-> & Q)|(k & st & ln & Q1 & Q2 & Q3 & Q4 & Q5)].
           ++ exists O, start, len. split; [lia|]. split; [lia|]. replace (j + N.of_nat 0) with j by lia. split; [exact PL|]. split; [exact B1|]. congruence.
           ++ exists (S k), st, ln. split; [lia|]. split; [lia|]. replace (j + N.of_nat (S k)) with (j + 1 + N.of_nat k) by lia. auto.
Qed.

Record scan_ok (W : world) (mb : mbox) (s : scan) : Prop := {
  so_level : level mb;
  so_sums : Forall (fun c => length c = 16%nat) (checks mb);
  so_n : mb_n mb <= N.of_nat (length (starts mb));
  so_le : old_valid s <= mb_n mb;
  so_none : mb_path mb = None -> new_msgs s = [];
  so_new : new_msgs s <> [] -> exists p va, mb_path mb = Some p /\ w_map W p = Mapped va /\ chunks_in va (new_msgs s) /\ chunks_up (new_msgs s) }.

Record box_post (W : world) (n0 fi : N) (mb : mbox) (s : scan) (mb' : mbox) (part : list msg) : Prop := {
  bp_path : mb_path mb' = mb_path mb;
  bp_cm : c_mtime mb' = c_mtime mb; bp_cs : c_size mb' = c_size mb;
  bp_level : level mb';
  bp_sums : Forall (fun c => length c = 16%nat) (checks mb');
  bp_len : mb_n mb' <= N.of_nat (length (starts mb'));
  bp_n : mb_n mb' = match new_msgs s with [] => mb_n mb | _ => old_valid s + N.of_nat (length part) end;
  bp_same : new_msgs s = [] -> mb' = mb /\ part = [];
  bp_some : new_msgs s <> [] -> part <> [];
  bp_old : forall i, i < old_valid s -> nth_error (starts mb') (N.to_nat i) = nth_error (starts mb) (N.to_nat i) /\ nth_error (lens mb') (N.to_nat i) = nth_error (lens mb) (N.to_nat i)
      /\ nth_error (checks mb') (N.to_nat i) = nth_error (checks mb) (N.to_nat i);
  bp_part : forall k m, nth_error part k = Some m -> exists p va, mb_path mb' = Some p /\ w_map W p = Mapped va /\
      entry_at W va mb' (n0 + N.of_nat k) fi (old_valid s + N.of_nat k) m;
  bp_groups : forall p va, mb_path mb = Some p -> w_map W p = Mapped va -> exists places, grouped W va (new_msgs s) places /\ length places = length part /\
      forall k st ln, nth_error places k = Some (st, ln) -> at_place mb' (old_valid s + N.of_nat k) st ln /\ nth_error (checks mb') (N.to_nat (old_valid s + N.of_nat k)) = Some (w_csum W (text_at va st ln)) }.

Lemma entry_src W n fi mi o : src (entry_of W n fi mi o) = S_mbox fi mi.
Proof. destruct o as [[h a]|]; reflexivity. Qed.

Lemma nth_app_old {A} (l r : list A) i : (i < length l)%nat -> nth_error (l ++ r) i = nth_error l i.
Proof. intros H. now apply nth_error_app1. Qed.

Lemma add_box_ok W fi mb s n db : world_ok W -> scan_ok W mb s -> tabs_good W n db -> n <= n_msgs db ->
  n_msgs db + N.of_nat (length (new_msgs s)) <= 63 * 2 ^ 24 ->
  exists mb' part db', add_box W fi mb s db = Ok (mb', db') /\ (length part <= length (new_msgs s))%nat /\
    box_post W (n_msgs db) fi mb s mb' part /\ mboxen db' = mboxen db /\ msgs db' = msgs db ++ part /\ tabs_good W (n_msgs db + N.of_nat (length part)) db' /\
    learns W db db' (fun x r => exists k, (k < length part)%nat /\ x = n_msgs db + N.of_nat k /\ place_says W mb' (old_valid s + N.of_nat k) r).
Proof.
  intros WO SO T LN SM. unfold add_box. destruct (new_msgs s) as [|c cs] eqn:EN.
  - exists mb, [], db. split; [reflexivity|]. split; [cbn; lia|]. split.
    + constructor; try reflexivity; try apply SO; rewrite ?EN; auto; try congruence; [intros [|k] m H; discriminate|]. intros p va _ _. exists []. split; [constructor|]. split; [reflexivity|]. intros [|k] st ln H; discriminate.
    + split; [reflexivity|]. split; [now rewrite app_nil_r|]. split; [eapply tabs_le; [exact T|cbn; lia]|]. apply learns_none; auto. intros x r (k & H & _). cbn in H. lia.
  - destruct (so_new W mb s SO) as (p & va & P1 & P2 & CI & CU); [congruence|]. rewrite P1, P2. rewrite EN in CI, CU.
    destruct (so_level W mb s SO) as [LV1 LV2]. pose proof (so_n W mb s SO) as SN. pose proof (so_le W mb s SO) as SL.
    set (g := grow_mbox W mb (old_valid s + N.of_nat (length (c :: cs)))).
    assert (GS : starts g = starts mb ++ repeat None (N.to_nat (old_valid s + N.of_nat (length (c :: cs)) - N.of_nat (length (starts mb))))) by reflexivity.
    assert (GL : level g) by (split; cbn [g grow_mbox with_arrays starts lens checks]; rewrite !app_length, !repeat_length; congruence).
    assert (GN : old_valid s + N.of_nat (length (c :: cs)) <= N.of_nat (length (starts g))) by (rewrite GS, app_length, repeat_length; lia).
    destruct (add_chunks_ok W fi va WO (S (length (c :: cs))) (c :: cs) (old_valid s) g n db) as (mb' & part & db' & E & A1 & A2 & A3 & A4 & A5 & A6 & A7 & A8 & (places & GP & GLP & GA) & A9); auto.
    rewrite E. cbn [bind]. exists (with_n mb' (old_valid s + N.of_nat (length part))), part, db'.
    assert (PB : mb_path (with_n mb' (old_valid s + N.of_nat (length part))) = Some p) by (cbn; rewrite (fl_path _ _ _ _ _ _ A4); exact P1).
    split; [reflexivity|]. split; [exact A1|]. split; [|split; [exact A5|split; [exact A6|split; [exact A7|]]]].
    + constructor.
      * cbn. rewrite (fl_path _ _ _ _ _ _ A4). reflexivity.
      * cbn. rewrite (fl_cm _ _ _ _ _ _ A4). reflexivity.
      * cbn. rewrite (fl_cs _ _ _ _ _ _ A4). reflexivity.
      * apply A4.
      * cbn. apply (fl_sums _ _ _ _ _ _ A4); [exact (wo_csum W WO)|]. cbn. apply Forall_app. split; [apply SO|]. apply Forall_forall. intros x I. apply repeat_spec in I as ->. exact (wo_sum W WO).
      * cbn. rewrite (fl_len _ _ _ _ _ _ A4). cbn [length] in *. lia.
      * cbn. now rewrite EN.
      * intros H. congruence.
      * intros _. apply A2. discriminate.
      * intros i H. cbn [with_n starts lens checks]. destruct (fl_old _ _ _ _ _ _ A4 (N.to_nat i) ltac:(lia)) as (O1 & O2 & O3). rewrite O1, O2, O3.
        cbn [g grow_mbox with_arrays starts lens checks]. rewrite !nth_app_old by lia. auto.
      * intros k m H. exists p, va. split; [exact PB|]. split; [exact P2|]. apply (A8 k m H).
      * intros p1 va1 Q1 Q2. rewrite P1 in Q1. injection Q1 as <-. rewrite P2 in Q2. injection Q2 as <-. exists places. rewrite EN. split; [exact GP|]. split; [exact GLP|]. intros k st ln H.
        pose proof (GA k st ln H) as [G1 G2]. split; [split; assumption|]. assert (k < length places)%nat by (apply nth_error_Some; congruence).
        destruct (fl_new _ _ _ _ _ _ A4 (old_valid s + N.of_nat k) ltac:(lia)) as (st' & ln' & [X1 X2] & _ & X3). assert (st' = st) by congruence. assert (ln' = ln) by congruence. subst. exact X3.
    + eapply learns_iff; [exact A9|]. cbv beta. intros x r. split.
      * intros (k & K & X & p' & va' & st & ln & Q1 & Q2 & Q3 & Q4 & Q5). rewrite PB in Q1. injection Q1 as <-. rewrite P2 in Q2. injection Q2 as <-. exists k, st, ln. auto.
      * intros (k & st & ln & K & X & Q3 & Q4 & Q5). exists k. split; [exact K|]. split; [exact X|]. exists p, va, st, ln. auto.
Qed.

Inductive adds (W : world) : N -> N -> list (mbox * scan) -> list mbox -> list msg -> Prop :=
| Adds_nil n0 fi : adds W n0 fi [] [] []
| Adds_cons n0 fi mb s bs mb' mbs part more : box_post W n0 fi mb s mb' part -> adds W (n0 + N.of_nat (length part)) (fi + 1) bs mbs more ->
    adds W n0 fi ((mb, s) :: bs) (mb' :: mbs) (part ++ more).
Definition chunk_count (boxes : list (mbox * scan)) : nat := length (flat_map (fun b => new_msgs (snd b)) boxes).

Lemma add_boxes_ok W boxes : world_ok W -> Forall (fun b => scan_ok W (fst b) (snd b)) boxes -> forall fi n db,
  tabs_good W n db -> n <= n_msgs db -> n_msgs db + N.of_nat (chunk_count boxes) <= 63 * 2 ^ 24 ->
  exists mbs more db', add_boxes W fi boxes db = Ok (mbs, db') /\ (length more <= chunk_count boxes)%nat /\ adds W (n_msgs db) fi boxes mbs more /\
    mboxen db' = mboxen db /\ msgs db' = msgs db ++ more /\ tabs_good W (n_msgs db + N.of_nat (length more)) db' /\
    learns W db db' (fun x r => exists k m t mb mi, nth_error more k = Some m /\ x = n_msgs db + N.of_nat k /\ nth_error mbs t = Some mb /\
       src m = S_mbox (fi + N.of_nat t) mi /\ place_says W mb mi r).
Proof.
  intros WO. induction boxes as [|[mb s] boxes IH]; intros F fi n db T LN SM; cbn [add_boxes].
  - exists [], [], db. split; [reflexivity|]. split; [cbn; lia|]. split; [constructor|]. split; [reflexivity|]. split; [now rewrite app_nil_r|]. split; [eapply tabs_le; [exact T|cbn; lia]|].
    apply learns_none; auto. intros x r ([|k] & m & t & mb & mi & H & _); discriminate.
  - inversion F as [|? ? F1 F2]; subst. cbn [fst snd] in F1. unfold chunk_count in SM. cbn [flat_map snd] in SM. rewrite app_length in SM. fold (chunk_count boxes) in SM.
    destruct (add_box_ok W fi mb s n db WO F1 T LN) as (mb' & part & db1 & E1 & P1 & B1 & X1 & M1 & T1 & L1); [lia|]. rewrite E1. cbn [bind].
    assert (N1 : n_msgs db1 = n_msgs db + N.of_nat (length part)) by (unfold n_msgs; rewrite M1, app_length; lia).
    destruct (IH F2 (fi + 1) (n_msgs db1) db1) as (mbs & more & db2 & E2 & P2 & B2 & X2 & M2 & T2 & L2); [rewrite N1; exact T1|lia|lia|].
    rewrite E2. cbn [bind]. exists (mb' :: mbs), (part ++ more), db2. split; [reflexivity|]. rewrite app_length. split; [unfold chunk_count; cbn [flat_map snd]; rewrite app_length; fold (chunk_count boxes); lia|].
    split; [constructor; [exact B1|rewrite <- N1; exact B2]|]. split; [congruence|]. split; [rewrite M2, M1, app_assoc; reflexivity|].
    split; [rewrite N1 in T2; replace (n_msgs db + N.of_nat (length part + length more)) with (n_msgs db + N.of_nat (length part) + N.of_nat (length more)) by lia; exact T2|].
    eapply learns_trans; [exact L1|exact L2|]. cbv beta. rewrite N1. intros x r. split.
    + intros (k & m & t & b & mi & Q1 & Q2 & Q3 & Q4 & Q5). destruct (Nat.lt_ge_cases k (length part)) as [H|H].
      * left. exists k. split; [exact H|]. split; [exact Q2|]. rewrite nth_error_app1 in Q1 by exact H. destruct (bp_part _ _ _ _ _ _ _ B1 k m Q1) as (p & va & _ & _ & st & ln & _ & _ & EM).
        rewrite EM, entry_src in Q4. injection Q4 as Q4 <-. assert (t = O) by lia. subst t. cbn in Q3. injection Q3 as <-. exact Q5.
      * right. exists (k - length part)%nat, m. rewrite nth_error_app2 in Q1 by exact H.
        destruct t as [|t].
        -- exfalso. clear - B2 Q1 Q4. revert Q1 Q4. generalize (k - length part)%nat. replace (fi + N.of_nat 0) with fi by lia. clear -B2.
           assert (G : forall n0 f bs ms mo, adds W n0 f bs ms mo -> forall q m mi, nth_error mo q = Some m -> src m = S_mbox fi mi -> fi < f -> False).
           { clear. intros n0 f bs ms mo A. induction A as [|n0 f mb s bs mb' mbs part more B A IH]; intros q m mi H1 H2 H3; [destruct q; discriminate|].
             destruct (Nat.lt_ge_cases q (length part)) as [H|H].
             - rewrite nth_error_app1 in H1 by exact H. destruct (bp_part _ _ _ _ _ _ _ B q m H1) as (p & va & _ & _ & st & ln & _ & _ & EM). rewrite EM, entry_src in H2. injection H2 as H2 _. lia.
             - rewrite nth_error_app2 in H1 by exact H. eapply IH; [exact H1|exact H2|lia]. }
           intros q H1 H2. eapply (G _ _ _ _ _ B2); [exact H1|exact H2|lia].
        -- cbn in Q3. exists t, b, mi. split; [exact Q1|]. split; [lia|]. split; [exact Q3|]. split; [rewrite Q4; f_equal; lia|exact Q5].
    + intros [(k & K & X & PS)|(k & m & t & b & mi & Q1 & Q2 & Q3 & Q4 & Q5)].
      * destruct (nth_error part k) as [m|] eqn:EK; [|apply nth_error_None in EK; lia]. destruct (bp_part _ _ _ _ _ _ _ B1 k m EK) as (p & va & _ & _ & st & ln & _ & _ & EM).
        exists k, m, O, mb', (old_valid s + N.of_nat k). split; [now rewrite nth_error_app1|]. split; [exact X|]. split; [reflexivity|]. split; [|exact PS].
        rewrite EM, entry_src. f_equal. lia.
      * exists (length part + k)%nat, m, (S t), b, mi. split; [rewrite nth_error_app2 by lia; replace (length part + k - length part)%nat with k by lia; exact Q1|].
        split; [lia|]. split; [exact Q3|]. split; [rewrite Q4; f_equal; lia|exact Q5].
Qed.
