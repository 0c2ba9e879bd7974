(* The hit arrays computed from the tables. *)
From Verif Require Import Base L_Bits M_Encoding M_TokTable S_TokTable M_DbFile S_DbFile M_WuManber S_Match M_Search S_Search
  L_Encoding L_Encoding2 L_TokTable L_TokTable2 L_DbFile L_DbFile2 L_DbFile3 L_DbFile4 L_DbFile5 L_WuManber L_Search.
Local Open Scope N_scope.

(* h has n entries and entry i is set exactly when P i, for the i in question. *)
Definition hv (n : nat) (P : nat -> Prop) (h : hits) : Prop :=
  length h = n /\ forall i, (i < n)%nat -> (nth i h false = true <-> P i).

Lemma hv_ext n P Q h : hv n P h -> (forall i, (i < n)%nat -> P i <-> Q i) -> hv n Q h.
Proof. intros [L H] E. split; [exact L|]. intros i Hi. rewrite (H i Hi). auto. Qed.
Lemma hv_self h : hv (length h) (fun i => nth i h false = true) h.
Proof. split; [reflexivity|tauto]. Qed.
Lemma hv_const n b : hv n (fun _ => b = true) (repeat b n).
Proof.
  split; [apply repeat_length|]. intros i Hi. rewrite (nth_indep _ false b) by (rewrite repeat_length; lia). now rewrite nth_repeat.
Qed.
Lemma hv_zip n P Q f g a b : hv n P a -> hv n Q b -> (forall x y, f x y = true <-> g (x = true) (y = true)) ->
  (forall A A' B B', (A <-> A') -> (B <-> B') -> (g A B <-> g A' B')) ->
  hv n (fun i => g (P i) (Q i)) (zip_with f a b).
Proof.
  intros [LA HA] [LB HB] HF HG. assert (LZ : forall a b, length a = length b -> length (zip_with f a b) = length a).
  { clear. induction a as [|x a IH]; intros [|y b] H; try discriminate; [reflexivity|]. cbn. rewrite IH; auto. }
  assert (NZ : forall a b i, length a = length b -> (i < length a)%nat -> nth i (zip_with f a b) false = f (nth i a false) (nth i b false)).
  { clear. induction a as [|x a IH]; intros [|y b] [|i] H Hi; try discriminate; cbn in *; try lia; [reflexivity|]. apply IH; lia. }
  split; [rewrite LZ; lia|]. intros i Hi. rewrite NZ by lia. rewrite HF. apply HG; auto.
Qed.
Lemma hv_and n P Q a b : hv n P a -> hv n Q b -> hv n (fun i => P i /\ Q i) (zip_with andb a b).
Proof. intros A B. apply (hv_zip n P Q andb and a b A B); [apply andb_true_iff|tauto]. Qed.
Lemma hv_or n P Q a b : hv n P a -> hv n Q b -> hv n (fun i => P i \/ Q i) (zip_with orb a b).
Proof. intros A B. apply (hv_zip n P Q orb or a b A B); [apply orb_true_iff|tauto]. Qed.
Lemma hv_term n P Q ng a b : hv n P a -> hv n Q b ->
  hv n (fun i => P i /\ (if ng : bool then ~ Q i else Q i)) (zip_with (fun a b => a && (if ng then negb b else b)) a b).
Proof.
  intros A B. destruct ng; [|now apply hv_and]. apply (hv_zip n P Q (fun a b => a && negb b) (fun A B => A /\ ~ B) a b A B); [|tauto].
  intros x y. rewrite andb_true_iff, negb_true_iff. destruct y; intuition congruence.
Qed.

Lemma set_nth_len {A} (l : list A) i x : length (set_nth l i x) = length l.
Proof. revert i. induction l as [|y l IH]; intros [|i]; cbn; auto. Qed.
Lemma nth_set_nth (h : hits) j i : (j < length h)%nat -> nth i (set_nth h j true) false = true <-> i = j \/ nth i h false = true.
Proof.
  revert j i. induction h as [|x h IH]; intros [|j] [|i] H; cbn in *; try lia.
  - split; [auto|intros [E|E]; [discriminate|exact E]].
  - split; [auto|intros [E|E]; [discriminate|exact E]].
  - rewrite IH by lia. split; (intros [E|E]; [left; congruence|right; exact E]).
Qed.

Lemma int_small n v : v < n -> n < 2 ^ 31 -> int_of_u32 v = Z.of_N v.
Proof. intros H1 H2. unfold int_of_u32. change (2 ^ 31) with 2147483648 in *. destruct (v <? 2147483648) eqn:E; [reflexivity|apply N.ltb_ge in E; lia]. Qed.
Lemma int_small_n n : n < 2 ^ 31 -> int_of_u32 n = Z.of_N n.
Proof. intros H2. unfold int_of_u32. change (2 ^ 31) with 2147483648 in *. destruct (n <? 2147483648) eqn:E; [reflexivity|apply N.ltb_ge in E; lia]. Qed.

Lemma mark_ok n vs : n < 2 ^ 31 -> Forall (fun x => x < n) vs -> forall P h, hv (N.to_nat n) P h ->
  exists h', mark (Z.of_N n) vs h = Ok h' /\ hv (N.to_nat n) (fun i => P i \/ In (N.of_nat i) vs) h'.
Proof.
  intros HN. induction vs as [|v vs IH]; intros HV P h HH.
  - exists h. split; [reflexivity|]. eapply hv_ext; [exact HH|]. cbn. tauto.
  - inversion HV as [|? ? H1 H2]; subst. cbn [mark]. rewrite (int_small n v H1 HN).
    destruct (Z.of_N n <=? Z.of_N v)%Z eqn:E1; [lia|]. destruct (Z.of_N v <? 0)%Z eqn:E2; [lia|].
    destruct (IH H2 (fun i => P i \/ i = N.to_nat v) (set_nth h (Z.to_nat (Z.of_N v)) true)) as (h' & E & HV').
    { destruct HH as [HL HH]. replace (Z.to_nat (Z.of_N v)) with (N.to_nat v) by lia.
      split; [now rewrite set_nth_len|]. intros i Hi. rewrite nth_set_nth by lia. rewrite (HH i Hi). tauto. }
    exists h'. split; [exact E|]. eapply hv_ext; [exact HV'|]. intros i Hi. cbn [In]. 
    assert (i = N.to_nat v <-> v = N.of_nat i) by lia. tauto.
Qed.
Lemma mark_at_ok F n q m P h : n < 2 ^ 31 -> list_in F q m n -> hv (N.to_nat n) P h ->
  exists h', mark_at F (Z.of_N n) q h = Ok h' /\
    hv (N.to_nat n) (fun i => P i \/ exists xs, lists m xs /\ In (N.of_nat i) xs) h'.
Proof.
  intros HN (xs & pos & R & L & B) HH. unfold mark_at. rewrite R.
  destruct (mark_ok n xs HN B P h HH) as (h' & E & HV). exists h'. split; [exact E|].
  eapply hv_ext; [exact HV|]. intros i Hi. split; (intros [?|X]; [now left|right]).
  - eauto.
  - destruct X as (xs' & L' & I'). now rewrite (lists_fun _ _ _ L L').
Qed.

Definition tok_hits (p : bytes -> bool) (ts : list (token matches)) (i : nat) : Prop :=
  exists tk xs, In tk ts /\ p (text tk) = true /\ lists (pay tk) xs /\ In (N.of_nat i) xs.
Lemma scan_table_ok F n tb p : n < 2 ^ 31 -> forall ts j P h, hv (N.to_nat n) P h ->
  (forall k tk, nth_error ts k = Some tk -> exists a q, ui F (t_tok tb + (j + N.of_nat k)) = Ok a /\
     get_db_token F (N.to_nat a) = T_ok (text tk) /\ ui F (t_enc tb + (j + N.of_nat k)) = Ok q /\ list_in F q (pay tk) n) ->
  exists h', scan_table F (Z.of_N n) tb p (length ts) j h = Ok h' /\ hv (N.to_nat n) (fun i => P i \/ tok_hits p ts i) h'.
Proof.
  intros HN. induction ts as [|tk ts IH]; intros j P h HH H.
  - exists h. split; [reflexivity|]. eapply hv_ext; [exact HH|]. intros i _. split; [tauto|]. intros [?|(tk & xs & [] & _)]. assumption.
  - destruct (H 0%nat tk eq_refl) as (a & q & H1 & H2 & H3 & H4). cbn [length scan_table].
    change (N.of_nat 0) with 0 in *. rewrite N.add_0_r in *. rewrite H1. cbn [bind]. rewrite H2.
    assert (HX : exists h1, (if p (text tk) then (let! e := ui F (t_enc tb + j) in mark_at F (Z.of_N n) e h) else Ok h) = Ok h1 /\
       hv (N.to_nat n) (fun i => P i \/ tok_hits p [tk] i) h1).
    { destruct (p (text tk)) eqn:EP.
      - rewrite H3. cbn [bind]. destruct (mark_at_ok F n q (pay tk) P h HN H4 HH) as (h' & E & HV). exists h'. split; [exact E|].
        eapply hv_ext; [exact HV|]. intros i _. split; (intros [?|X]; [now left|right]).
        + destruct X as (xs & L & I). exists tk, xs. cbn. auto.
        + destruct X as (tk' & xs & [<-|[]] & _ & L & I). eauto.
      - exists h. split; [reflexivity|]. eapply hv_ext; [exact HH|]. intros i _. split; [tauto|]. intros [?|X]; [assumption|].
        destruct X as (tk' & xs & [<-|[]] & E & _). congruence. }
    destruct HX as (h1 & E1 & HV1). rewrite E1. cbn [bind].
    destruct (IH (j + 1) _ h1 HV1) as (h' & E & HV).
    { intros k tk' Hk. destruct (H (S k) tk' Hk) as (a' & q' & X1 & X2 & X3 & X4). exists a', q'.
      replace (j + 1 + N.of_nat k) with (j + N.of_nat (S k)) by lia. auto. }
    exists h'. split; [exact E|]. eapply hv_ext; [exact HV|]. intros i _. unfold tok_hits. split.
    + intros [[?|X]|X]; [now left|right|right]; destruct X as (tk' & xs & I & Y); exists tk', xs; (split; [|exact Y]); cbn in *; tauto.
    + intros [?|(tk' & xs & [<-|I] & Y)]; [tauto|left; right; exists tk, xs; cbn; tauto|right; exists tk', xs; tauto].
Qed.
(* One table of a written index. *)
Lemma scan_view F n t tb p P h : n < 2 ^ 31 -> tab_view F n t tb -> hv (N.to_nat n) P h ->
  exists h', scan_table F (Z.of_N n) tb p (N.to_nat (t_n tb)) 0 h = Ok h' /\
    hv (N.to_nat n) (fun i => P i \/ exists w m xs, In (w, m) (entries t) /\ p w = true /\ lists m xs /\ In (N.of_nat i) xs) h'.
Proof.
  intros HN [TN TV] HH. rewrite TN, Nat2N.id.
  destruct (scan_table_ok F n tb p HN (toks (slots t)) 0 P h HH) as (h' & E & HV).
  { intros k tk Hk. destruct (TV k tk Hk) as (a & q & X1 & X2 & X3 & X4 & X5). exists a, q. rewrite N.add_0_l. auto. }
  exists h'. split; [exact E|]. eapply hv_ext; [exact HV|]. intros i _. unfold tok_hits. split; (intros [?|X]; [now left|right]).
  - destruct X as (tk & xs & I & X1 & X2 & X3). exists (text tk), (pay tk), xs. split; [apply entries_toks; eauto|auto].
  - destruct X as (w & m & xs & I & X1 & X2 & X3). apply entries_toks in I as (k & K1 & <- & <-). exists k, xs. auto.
Qed.

Definition tok_hits2 (p : bytes -> bool) (ts : list (token (matches * matches))) (i : nat) : Prop :=
  exists tk xs, In tk ts /\ p (text tk) = true /\ lists (snd (pay tk)) xs /\ In (N.of_nat i) xs.
Lemma scan_table2_ok F n tb p : n < 2 ^ 31 -> forall ts j P h, hv (N.to_nat n) P h ->
  (forall k tk, nth_error ts k = Some tk -> exists a q, ui F (t2_tok tb + (j + N.of_nat k)) = Ok a /\
     get_db_token F (N.to_nat a) = T_ok (text tk) /\ ui F (t2_enc1 tb + (j + N.of_nat k)) = Ok q /\ list_in F q (snd (pay tk)) n) ->
  exists h', scan_table2 F (Z.of_N n) tb p (length ts) j h = Ok h' /\ hv (N.to_nat n) (fun i => P i \/ tok_hits2 p ts i) h'.
Proof.
  intros HN. induction ts as [|tk ts IH]; intros j P h HH H.
  - exists h. split; [reflexivity|]. eapply hv_ext; [exact HH|]. intros i _. split; [tauto|]. intros [?|(tk & xs & [] & _)]. assumption.
  - destruct (H 0%nat tk eq_refl) as (a & q & H1 & H2 & H3 & H4). cbn [length scan_table2].
    change (N.of_nat 0) with 0 in *. rewrite N.add_0_r in *. rewrite H1. cbn [bind]. rewrite H2.
    assert (HX : exists h1, (if p (text tk) then (let! e := ui F (t2_enc1 tb + j) in mark_at F (Z.of_N n) e h) else Ok h) = Ok h1 /\
       hv (N.to_nat n) (fun i => P i \/ tok_hits2 p [tk] i) h1).
    { destruct (p (text tk)) eqn:EP.
      - rewrite H3. cbn [bind]. destruct (mark_at_ok F n q (snd (pay tk)) P h HN H4 HH) as (h' & E & HV). exists h'. split; [exact E|].
        eapply hv_ext; [exact HV|]. intros i _. split; (intros [?|X]; [now left|right]).
        + destruct X as (xs & L & I). exists tk, xs. cbn. auto.
        + destruct X as (tk' & xs & [<-|[]] & _ & L & I). eauto.
      - exists h. split; [reflexivity|]. eapply hv_ext; [exact HH|]. intros i _. split; [tauto|]. intros [?|X]; [assumption|].
        destruct X as (tk' & xs & [<-|[]] & E & _). congruence. }
    destruct HX as (h1 & E1 & HV1). rewrite E1. cbn [bind].
    destruct (IH (j + 1) _ h1 HV1) as (h' & E & HV).
    { intros k tk' Hk. destruct (H (S k) tk' Hk) as (a' & q' & X1 & X2 & X3 & X4). exists a', q'.
      replace (j + 1 + N.of_nat k) with (j + N.of_nat (S k)) by lia. auto. }
    exists h'. split; [exact E|]. eapply hv_ext; [exact HV|]. intros i _. unfold tok_hits2. split.
    + intros [[?|X]|X]; [now left|right|right]; destruct X as (tk' & xs & I & Y); exists tk', xs; (split; [|exact Y]); cbn in *; tauto.
    + intros [?|(tk' & xs & [<-|I] & Y)]; [tauto|left; right; exists tk, xs; cbn; tauto|right; exists tk', xs; tauto].
Qed.

Lemma bytes_eqb_eq a b : bytes_eqb a b = true <-> a = b.
Proof.
  revert b. induction a as [|x a IH]; intros [|y b]; cbn; try (split; congruence).
  rewrite andb_true_iff, N.eqb_eq, IH. split; [intros [-> ->]; reflexivity|intros [= -> ->]; auto].
Qed.

(* m:id *)
Lemma ids_hits F r db id : view F r db -> exists h, match_string_in_table2 F (int_of_u32 (r_n r)) (r_ids r) id (zeros r) = Ok h /\
  hv (N.to_nat (n_msgs db)) (fun i => has_id db id (N.of_nat i)) h.
Proof.
  intros V. pose proof (v_lim _ _ _ V) as HN. destruct (v_ids _ _ _ V) as [TN TV].
  unfold match_string_in_table2, zeros. rewrite (v_n _ _ _ V), (int_small_n _ HN), TN, Nat2N.id.
  destruct (scan_table2_ok F (n_msgs db) (r_ids r) (bytes_eqb id) HN (toks (slots (d_ids db))) 0 (fun _ => false = true)
     (repeat false (N.to_nat (n_msgs db))) (hv_const _ false)) as (h & E & HV).
  { intros k tk Hk. destruct (TV k tk Hk) as (a & q & X1 & X2 & X3 & X4). exists a, q. rewrite N.add_0_l. auto. }
  exists h. split; [exact E|]. eapply hv_ext; [exact HV|]. intros i _. unfold tok_hits2, has_id. split.
  - intros [?|(tk & xs & I & X1 & X2 & X3)]; [discriminate|]. apply bytes_eqb_eq in X1. exists (fst (pay tk)), (snd (pay tk)), xs.
    split; [apply entries_toks; exists tk; rewrite <- surjective_pairing; auto|auto].
  - intros (m0 & m1 & xs & I & L & X). right. apply entries_toks in I as (k & K1 & <- & K2). exists k, xs. rewrite K2.
    split; [assumption|]. split; [now apply bytes_eqb_eq|auto].
Qed.

(* The word tables selected by a key. *)
Definition parts : list part := [To; Cc; From_; Subject; Body; Attachment].
Lemma tabs_parts db : tabs db = map (table db) parts. Proof. reflexivity. Qed.
Lemma over_tables_gen F n db f p : 
  (forall t tb P h, tab_view F n t tb -> hv (N.to_nat n) P h -> exists h', f tb h = Ok h' /\
     hv (N.to_nat n) (fun i => P i \/ exists w m xs, In (w, m) (entries t) /\ p w = true /\ lists m xs /\ In (N.of_nat i) xs) h') ->
  forall ps ks tbs P h, Forall2 (tab_view F n) (map (table db) ps) tbs -> length ks = length ps -> hv (N.to_nat n) P h ->
  exists h', over_tables f ks tbs h = Ok h' /\
    hv (N.to_nat n) (fun i => P i \/ exists q w, In (true, q) (combine ks ps) /\ recorded db q w (N.of_nat i) /\ p w = true) h'.
Proof.
  intros HF. induction ps as [|q ps IH]; intros [|k ks] tbs P h FV HL HH; try discriminate; inversion FV as [|? tb ? tbs' V1 V2]; subst.
  - exists h. split; [reflexivity|]. eapply hv_ext; [exact HH|]. intros i _. cbn. split; [tauto|]. intros [?|(? & ? & [] & _)]. assumption.
  - cbn [over_tables combine].
    assert (HX : exists h1, (if k : bool then f tb h else Ok h) = Ok h1 /\
       hv (N.to_nat n) (fun i => P i \/ exists w, k = true /\ recorded db q w (N.of_nat i) /\ p w = true) h1).
    { destruct k.
      - destruct (HF _ _ P h V1 HH) as (h1 & E1 & HV1). exists h1. split; [exact E1|]. eapply hv_ext; [exact HV1|]. intros i _.
        unfold recorded. split; (intros [?|X]; [now left|right]).
        + destruct X as (w & m & xs & X1 & X2 & X3 & X4). exists w. split; [reflexivity|]. split; [exists m, xs; auto|assumption].
        + destruct X as (w & _ & (m & xs & X1 & X2 & X3) & X4). exists w, m, xs. auto.
      - exists h. split; [reflexivity|]. eapply hv_ext; [exact HH|]. intros i _. split; [tauto|]. intros [?|(w & ? & _)]; [assumption|discriminate]. }
    destruct HX as (h1 & E1 & HV1). rewrite E1. cbn [bind].
    destruct (IH ks tbs' _ h1 V2 ltac:(cbn in HL; lia) HV1) as (h' & E & HV). exists h'. split; [exact E|].
    eapply hv_ext; [exact HV|]. intros i _. split.
    + intros [[?|X]|X]; [now left|right|right].
      * destruct X as (w & -> & X). exists q, w. split; [now left|exact X].
      * destruct X as (q' & w & I & X). exists q', w. split; [now right|exact X].
    + intros [?|(q' & w & [[= -> <-]|I] & X)]; [tauto|left; right; exists w; tauto|right; exists q', w; tauto].
Qed.

(* Loops over messages. *)
Lemma for_msgs_ok {A} (f : N -> res A) (Q : nat -> A -> Prop) k : forall i,
  (forall j, (j < k)%nat -> exists x, f (i + N.of_nat j) = Ok x /\ Q j x) ->
  exists l, for_msgs f k i = Ok l /\ length l = k /\ forall j x, nth_error l j = Some x -> Q j x.
Proof.
  revert Q. induction k as [|k IH]; intros Q i H.
  - exists []. split; [reflexivity|]. split; [reflexivity|]. intros [|j] x; discriminate.
  - destruct (H 0%nat ltac:(lia)) as (x & E & HQ). change (N.of_nat 0) with 0 in E. rewrite N.add_0_r in E.
    destruct (IH (fun j => Q (S j)) (i + 1)) as (l & EL & LL & HL).
    { intros j Hj. destruct (H (S j) ltac:(lia)) as (y & E' & HQ'). exists y. split; [|exact HQ'].
      replace (i + 1 + N.of_nat j) with (i + N.of_nat (S j)) by lia. exact E'. }
    exists (x :: l). cbn [for_msgs]. rewrite E. cbn [bind]. rewrite EL. cbn [bind]. split; [reflexivity|]. split; [cbn; lia|].
    intros [|j] y; cbn; [intros [= <-]; exact HQ|apply HL].
Qed.
Lemma for_msgs_hv (f : N -> res bool) (P : nat -> Prop) k :
  (forall j, (j < k)%nat -> exists x, f (N.of_nat j) = Ok x /\ (x = true <-> P j)) ->
  exists h, for_msgs f k 0 = Ok h /\ hv k P h.
Proof.
  intros H. destruct (for_msgs_ok f (fun j x => x = true <-> P j) k 0) as (l & E & L & HL).
  { intros j Hj. rewrite N.add_0_l. auto. }
  exists l. split; [exact E|]. split; [exact L|]. intros i Hi. destruct (nth_error l i) as [x|] eqn:EX.
  - rewrite (nth_error_nth _ _ _ EX). auto.
  - apply nth_error_None in EX. lia.
Qed.
Lemma message_some db j : (j < N.to_nat (n_msgs db))%nat -> exists x, nth_error (msgs db) j = Some x.
Proof. intros H. unfold n_msgs in H. destruct (nth_error (msgs db) j) eqn:E; [eauto|]. apply nth_error_None in E. lia. Qed.
Lemma message_nat db j : message db (N.of_nat j) = nth_error (msgs db) j.
Proof. unfold message. now rewrite Nat2N.id. Qed.
