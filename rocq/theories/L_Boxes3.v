(* What an indexing run makes of a mailbox that consists of mails. *)
From Coq Require Import Permutation Sorted.
From Verif Require Import Base M_Encoding M_TokTable S_TokTable M_DbFile S_DbFile M_Search S_Search M_Thread M_Purge S_Purge M_Tokens S_Tokens M_Mbox S_Mbox M_Update S_Update M_Session S_Session S_Boxes
  L_DbFile5 L_Purge L_Purge2 L_Output3 L_Search6 L_Mbox L_Mbox2 L_Mbox3 L_Mbox4 L_Update9 L_Update10 L_Update11 L_Update12 L_Update13 L_Update15 L_Session L_Session2 L_Session3 L_Session4 L_Session5 L_Boxes L_Boxes2.
From Verif Require M_Paths.
Local Open Scope N_scope.

Definition kept (W : world) (va : bytes) (mb : mbox) (pl : list (N * N)) : Prop := mb_n mb = N.of_nat (length pl) /\
  forall i st ln, nth_error pl i = Some (st, ln) -> nth_error (starts mb) i = Some (Some st) /\ nth_error (lens mb) i = Some (Some ln) /\ nth_error (checks mb) i = Some (w_csum W (cut st ln va)).
Definition box_holds (W : world) (p : bytes) (mb : mbox) : Prop :=
  match w_map W p with
  | Mapped va => forall mails, va = box_text mails -> mails_ok W mails -> kept W va mb (places 0 mails)
  | Map_empty => mb_n mb = 0
  | _ => False
  end.
Definition complete (p : bytes) (tm : mbox -> N * N) (ss : list session) (db : database) : Prop :=
  forall mb, In mb (mboxen db) -> mb_path mb = Some p ->
  exists s0 l, In s0 ss /\ In p (s_paths s0) /\ w_lstat (s_world s0) p = Some (l, fst (tm mb), snd (tm mb)) /\ box_holds (s_world s0) p mb.

Lemma same_holds s0 s p mb mb' : same_program s0 s -> w_map (s_world s) p = w_map (s_world s0) p -> mb_n mb' = mb_n mb -> starts mb' = starts mb -> lens mb' = lens mb -> checks mb' = checks mb ->
  box_holds (s_world s0) p mb -> box_holds (s_world s) p mb'.
Proof.
  intros (_ & _ & E1 & E3 & E2) EM En Es El Ec H. unfold box_holds in *. rewrite EM. destruct (w_map (s_world s0) p); auto; try congruence.
  intros mails -> OK. unfold mails_ok in *. rewrite E1, E2 in OK. unfold kept in *. rewrite En, Es, El, Ec, E3. now apply H.
Qed.

Lemma places_len : forall mails p, length (places p mails) = length mails.
Proof. induction mails as [|[l t] mails IH]; intros p; [reflexivity|]. cbn [places length]. now rewrite IH. Qed.
(* the mails from number k on *)
Lemma places_split : forall k mails b, (k <= length mails)%nat -> exists A, box_text mails = A ++ box_text (skipn k mails) /\
  places b mails = firstn k (places b mails) ++ places (b + N.of_nat (length A)) (skipn k mails) /\
  match k with O => A = [] | S j => exists st ln, nth_error (places b mails) j = Some (st, ln) /\ st + ln = b + N.of_nat (length A) end.
Proof.
  induction k as [|k IH]; intros mails b L; [exists []; split; [reflexivity|]; split; [cbn [skipn firstn app length]; f_equal; lia|reflexivity]|].
  destruct mails as [|[l t] mails]; [cbn in L; lia|]. cbn [length] in L. destruct (IH mails (b + N.of_nat (length l) + 6 + N.of_nat (length t)) ltac:(lia)) as (A & E1 & E2 & E3).
  exists (bs "From " ++ l ++ [10] ++ t ++ A). cbn [skipn]. split; [cbn [box_text flat_map fst snd]; fold (box_text mails); rewrite E1, <- !app_assoc; reflexivity|].
  assert (EL : b + N.of_nat (length (bs "From " ++ l ++ [10] ++ t ++ A)) = b + N.of_nat (length l) + 6 + N.of_nat (length t) + N.of_nat (length A)).
  { rewrite !app_length. change (length (bs "From ")) with 5%nat. cbn [length]. lia. }
  rewrite EL. split; [cbn [places firstn app]; f_equal; exact E2|]. destruct k as [|j].
  - subst A. cbn [places nth_error length]. exists (b + N.of_nat (length l) + 6), (N.of_nat (length t)). split; [reflexivity|lia].
  - cbn [places nth_error]. exact E3.
Qed.
Lemma box_mmdf mails : is_mmdf (box_text mails) = false.
Proof. unfold is_mmdf. destruct mails as [|[l t] mails]; [reflexivity|]. apply andb_false_iff. right. reflexivity. Qed.

Lemma run_only W fast symlinks fnd paths db ch db' mb p : runnable W symlinks fnd paths db -> index_run W fast symlinks fnd paths db = Ok (ch, db') -> In mb (mboxen db') -> mb_path mb = Some p -> In p paths.
Proof.
  intros RI E I EP. open RI E E' RA EC. destruct (proj1 (box_paths _ _ _ _ _ _ _ _ _ _ _ _ _ _ _ RA p)) as (mb2 & sc & I2 & E2); [eauto|]. apply (bx_only _ _ _ _ _ (ra_boxes _ _ _ _ _ _ _ _ _ _ _ _ _ _ _ RA) p mb2 sc I2 E2).
Qed.
Lemma run_holds p s file db c db1 ss : fit s file -> get_database s file = Ok db -> good (w_hash (s_world s)) db ->
  index_run (s_world s) (s_fast s) (s_symlinks s) (s_found s) (s_paths s) db = Ok (c, db1) ->
  (forall s0, In s0 ss -> same_program s0 s /\ honest s0 s) -> undisturbed s file -> settled p s file -> complete p tm_file ss db ->
  forall mb', In mb' (mboxen db1) -> mb_path mb' = Some p -> In p (s_paths s) /\ (exists l, w_lstat (s_world s) p = Some (l, c_mtime mb', c_size mb')) /\ box_holds (s_world s) p mb'.
Proof.
  intros FI EG G EI HS UD SE CO mb' IB EP. pose proof (fit_runnable s file db FI EG G) as RI. apply In_nth_error in IB as (b & EB).
  destruct (run_mailboxes _ _ _ _ _ _ _ _ RI EI b mb' p EB EP) as (link & k & EL & WP & BN & _). split; [exact (run_only _ _ _ _ _ _ _ _ mb' p RI EI (nth_error_In _ _ EB) EP)|]. split; [eauto|]. unfold was in *.
  destruct BN as [M1 M2 M3 M4 M5 M6|NS ME M3|va k ms pl NS EM EK EBN GR En OLD NEW].
  - destruct (nth_error (mboxen db) b) as [mb|] eqn:Eb.
    + destruct (CO mb (nth_error_In _ _ Eb) WP) as (s0 & l0 & I0 & _ & L0 & H0). destruct (HS s0 I0) as [SP HO]. unfold tm_file in L0. cbn [fst snd] in L0. rewrite M1, M2 in L0.
      eapply same_holds; [exact SP|exact (ho_boxes _ _ HO p _ _ _ _ L0 EL)|exact M3|exact M4|exact M5|exact M6|exact H0].
    + cbn [blank f_mtime f_size mb_n] in *. unfold box_holds. rewrite <- M1, <- M2 in EL. rewrite (se_empty _ _ _ SE _ EL). exact M3.
  - unfold box_holds. rewrite ME. exact M3.
  - unfold box_holds. rewrite EM. intros mails -> OK.
    assert (K : k <= mb_n (was db b p) /\ forall i, i < k -> exists st ln, nth_error (starts (was db b p)) (N.to_nat i) = Some (Some st) /\ nth_error (lens (was db b p)) (N.to_nat i) = Some (Some ln) /\ nth_error (places 0 mails) (N.to_nat i) = Some (st, ln) /\ nth_error (checks (was db b p)) (N.to_nat i) = Some (w_csum (s_world s) (cut st ln (box_text mails)))).
    { unfold was. destruct (nth_error (mboxen db) b) as [mb|] eqn:Eb.
      - destruct (places_of_tight _ _ _ _ (gd_ok _ _ G) (gd_tight _ _ G) Eb) as [PK _]. pose proof (nth_error_In _ _ Eb) as IM.
        destruct (number_prefix (w_csum (s_world s)) mb (box_text mails) PK (UD db mb p _ EG IM WP EM)) as (k' & EK' & LE & IN & _). rewrite EK in EK'. apply Ok_inj in EK'. subst k'. split; [exact LE|].
        intros i LI. destruct (PK i ltac:(lia)) as (st & ln & _ & S1 & S2 & _). exists st, ln. split; [exact S1|]. split; [exact S2|]. split; [eapply (se_mails _ _ _ SE); eauto; lia|]. destruct (IN i LI) as (st2 & ln2 & T1 & T2 & _ & T3). rewrite S1 in T1. rewrite S2 in T2. injection T1 as <-. injection T2 as <-. exact T3.
      - assert (PK : places_known (blank p)) by (intros i LI; cbn in LI; lia). destruct (number_intact (w_csum (s_world s)) (blank p) (box_text mails) PK) as (k' & EK' & LE & _). rewrite EK in EK'. apply Ok_inj in EK'. subst k'. split; [exact LE|]. intros i LI. cbn in LE. lia. }
    fold (was db b p) in *. destruct K as [LE PRE].
    assert (LK : (N.to_nat k <= length mails)%nat).
    { destruct (N.eq_dec k 0) as [->|D]; [lia|]. destruct (PRE (k - 1) ltac:(lia)) as (st & ln & _ & _ & X & _). assert (Y : (N.to_nat (k - 1) < length (places 0 mails))%nat) by (apply nth_error_Some; congruence). rewrite places_len in Y. lia. }
    destruct (places_split (N.to_nat k) mails 0 LK) as (A & EA & EPL & ELS).
    assert (SS : scan_start (last_kept (was db b p) k) = N.of_nat (length A)).
    { unfold last_kept. destruct (N.eqb_spec k 0) as [->|D]; [change (A = []) in ELS; rewrite ELS; reflexivity|]. destruct (N.to_nat k) as [|j] eqn:EJ; [lia|]. destruct ELS as (st & ln & E1 & E2).
      destruct (PRE (k - 1) ltac:(lia)) as (st' & ln' & S1 & S2 & X & _). rewrite S1, S2. replace (N.to_nat (k - 1)) with j in X by lia. rewrite E1 in X. injection X as <- <-. cbn [scan_start]. lia. }
    destruct (split_mbox (w_from_ok (s_world s)) (box_text mails) (last_kept (was db b p) k) (box_mmdf mails)) as (ms2 & E2 & IN2 & OR2 & _). rewrite EBN in E2. apply Ok_inj in E2. subst ms2. rewrite SS in IN2.
    assert (OK2 : mails_ok (s_world s) (skipn (N.to_nat k) mails)).
    { unfold mails_ok in *. rewrite Forall_forall in *. intros x I. apply OK. rewrite <- (firstn_skipn (N.to_nat k) mails). apply in_or_app. now right. }
    destruct (mails_parted (s_world s) (skipn (N.to_nat k) mails) A (box_text mails) OK2 EA) as (ms2 & PA & GR2).
    assert (ms2 = ms) by (eapply parted_eq; [exact PA|split; [exact IN2|exact OR2]]). subst ms2. pose proof (grouped_det _ _ _ _ _ GR GR2) as ->. rewrite N.add_0_l in EPL.
    assert (EN : mb_n mb' = N.of_nat (length (places 0 mails))).
    { rewrite places_len, En. destruct ms as [|m0 ms0].
      - inversion GR2 as [EY EX| |]. assert (LX : length (skipn (N.to_nat k) mails) = 0%nat) by (rewrite <- (places_len _ (N.of_nat (length A))), <- EX; reflexivity). rewrite skipn_length in LX.
        destruct (N.eq_dec k (mb_n (was db b p))) as [<-|D]; [lia|]. exfalso. unfold was in *. destruct (nth_error (mboxen db) b) as [mb|] eqn:Eb; [|cbn [blank mb_n] in *; lia].
        apply (fi_shrunk _ _ FI db mb EG (nth_error_In _ _ Eb)). exists p, (box_text mails), k. repeat split; auto. lia.
      - rewrite places_len, skipn_length. lia. }
    split; [exact EN|]. intros i st ln EI'. destruct (Nat.lt_ge_cases i (N.to_nat k)) as [LT|GE].
    + destruct (PRE (N.of_nat i) ltac:(lia)) as (st' & ln' & S1 & S2 & X & S3). rewrite Nat2N.id in S1, S2, X, S3. rewrite X in EI'. injection EI' as <- <-. destruct (OLD (N.of_nat i) ltac:(lia)) as (O1 & O2 & O3). rewrite Nat2N.id in O1, O2, O3. rewrite O1, O2, O3. auto.
    + rewrite EPL, nth_error_app2 in EI' by (rewrite firstn_length, places_len; lia). rewrite firstn_length, places_len in EI'. replace (i - Nat.min (N.to_nat k) (length mails))%nat with (i - N.to_nat k)%nat in EI' by lia.
      destruct (NEW _ _ _ EI') as (X1 & X2 & X3). replace (N.to_nat k + (i - N.to_nat k))%nat with i in * by lia. auto.
Qed.
