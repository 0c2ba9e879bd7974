(* Mailboxes to which mails are only appended. *)
From Coq Require Import Permutation Sorted.
From Verif Require Import Base M_Encoding M_TokTable S_TokTable M_DbFile S_DbFile M_Search S_Search M_Thread M_Purge S_Purge M_Tokens S_Tokens M_Mbox S_Mbox M_Update S_Update M_Session S_Session S_Boxes
  L_DbFile5 L_Purge L_Purge2 L_Output3 L_Search6 L_Update9 L_Update13 L_Update15 L_Session L_Session2 L_Session3 L_Session4 L_Session5 L_Boxes L_Boxes2 L_Boxes3 L_Boxes4.
From Verif Require M_Paths.
Local Open Scope N_scope.

Lemma places_det W mails mails' : mails_ok W mails -> mails_ok W mails' -> box_text mails = box_text mails' -> places 0 mails = places 0 mails'.
Proof.
  intros OK OK' E. destruct (mails_parted W mails [] (box_text mails) OK eq_refl) as (ms & PA & GR). destruct (mails_parted W mails' [] (box_text mails) OK' E) as (ms' & PA' & GR').
  rewrite (parted_eq _ _ _ _ _ PA' PA) in GR'. exact (grouped_det _ _ _ _ _ GR GR').
Qed.
Lemma box_app a b : box_text (a ++ b) = box_text a ++ box_text b.
Proof. apply flat_map_app. Qed.
Lemma places_app : forall a b p, places p (a ++ b) = places p a ++ places (p + N.of_nat (length (box_text a))) b.
Proof.
  induction a as [|[l t] a IH]; intros b p; [cbn [app places box_text flat_map length]; f_equal; lia|]. cbn [app places]. rewrite IH. cbn [app]. do 2 f_equal. f_equal.
  cbn [box_text flat_map fst snd]. fold (box_text a). rewrite !app_length. change (length (bs "From ")) with 5%nat. cbn [length]. lia.
Qed.
Lemma places_within mails i st ln : nth_error (places 0 mails) i = Some (st, ln) -> st + ln <= N.of_nat (length (box_text mails)).
Proof.
  intros E. assert (L : (i < length mails)%nat) by (rewrite <- (places_len mails 0); apply nth_error_Some; congruence).
  destruct (places_split (S i) mails 0 ltac:(lia)) as (A & EA & _ & st' & ln' & E' & EE). rewrite E in E'. injection E' as <- <-. rewrite EA, app_length. lia.
Qed.
Lemma cut_app st ln (a b : bytes) : st + ln <= N.of_nat (length a) -> cut st ln (a ++ b) = cut st ln a.
Proof. intros L. unfold cut. rewrite skipn_app, firstn_app, skipn_length. replace (N.to_nat ln - (length a - N.to_nat st))%nat with 0%nat by lia. cbn [firstn]. apply app_nil_r. Qed.
Lemma mails_ok_prog s0 s mails : same_program s0 s -> mails_ok (s_world s) mails -> mails_ok (s_world s0) mails.
Proof. intros (_ & _ & E1 & _ & E2) OK. unfold mails_ok in *. now rewrite <- E1, <- E2. Qed.

Lemma growing_step h s file : (forall p, box_step h p (w_hash (s_world s)) file) -> fit s file ->
  (forall s0, In s0 (map fst h) -> same_program s0 s /\ forall p, In p (s_paths s0) -> appended p s0 s) ->
  (forall p l, w_lstat (s_world s) p = Some (l, 0, 0) -> w_map (s_world s) p = Map_empty) ->
  undisturbed s file /\ forall p, settled p s file.
Proof.
  intros BS FI HS EM.
  assert (MAIN : forall db mb p va, get_database s file = Ok db -> In mb (mboxen db) -> mb_path mb = Some p -> w_map (s_world s) p = Mapped va ->
    (forall i, intact (w_csum (s_world s)) mb va i <-> i < mb_n mb) /\
    (mb_n mb = 0 \/ exists mails more, va = box_text (mails ++ more) /\ mails_ok (s_world s) (mails ++ more) /\ kept (s_world s) va mb (places 0 mails))).
  { intros db mb p va EG IB EP EW. destruct file as [F|]; [|cbn in EG; apply Ok_inj in EG; subst db; destruct IB].
    destruct (BS p F eq_refl) as (dbF & old & EWR & SZ & BO). destruct (loads s F dbF old FI EWR (bo_good _ _ _ _ BO) SZ) as (d & EG' & SD & GD). rewrite EG in EG'. apply Ok_inj in EG'. subst d.
    destruct (load_complete _ _ _ _ _ (bo_good _ _ _ _ BO) SD (bo_complete _ _ _ _ BO) mb IB EP) as (s0 & l & I0 & P0 & _ & BH). destruct (HS s0 I0) as [SP AP].
    apply In_nth_error in IB as (b & EB). pose proof SD as (_ & _ & FB & _). destruct (F2_nth' _ _ _ FB _ _ EB) as (mb0 & _ & _ & _ & _ & YN & YC).
    assert (CH : forall i, nth_error (checks mb) (N.to_nat i) <> None -> i < mb_n mb).
    { intros i NN. apply nth_error_Some in NN. rewrite YC, firstn_length in NN. lia. }
    assert (LT : forall i, intact (w_csum (s_world s)) mb va i -> i < mb_n mb) by (intros i (st & ln & _ & _ & _ & X); apply CH; congruence).
    unfold box_holds in BH. destruct (w_map (s_world s0) p) as [va0| | |] eqn:EW0; [|  |contradiction|contradiction].
    - destruct (AP p P0 va0 va EW0 EW) as (mails & more & E0 & E1 & OK). assert (OK0 : mails_ok (s_world s0) mails).
      { apply (mails_ok_prog s0 s mails SP). unfold mails_ok in *. apply Forall_app in OK. apply OK. }
      destruct (BH mails E0 OK0) as [K1 K2]. assert (KE : kept (s_world s) va mb (places 0 mails)).
      { split; [exact K1|]. intros i st ln EI. destruct (K2 i st ln EI) as (A & B & C). split; [exact A|]. split; [exact B|]. rewrite C. f_equal. destruct SP as (_ & _ & _ & EC & _). rewrite EC. f_equal. rewrite E1, E0, box_app, cut_app by (now apply places_within in EI). reflexivity. }
      split; [|right; exists mails, more; auto]. intros i. split; [apply LT|]. intros L. destruct (nth_error (places 0 mails) (N.to_nat i)) as [[st ln]|] eqn:EI; [|apply nth_error_None in EI; lia].
      destruct KE as [_ KE]. destruct (KE _ _ _ EI) as (A & B & C). exists st, ln. split; [exact A|]. split; [exact B|]. split; [|exact C]. apply places_within in EI. rewrite E1, box_app, app_length. lia.
    - split; [|now left]. intros i. split; [apply LT|lia]. }
  split.
  - intros db mb p va EG IB EP EW i j L IJ. destruct (MAIN db mb p va EG IB EP EW) as [IT _]. apply IT. apply IT in IJ. lia.
  - intros p. constructor; [|apply EM]. intros db mb mails i st ln EG IB EP EW OK L _ S1 S2. destruct (MAIN db mb p _ EG IB EP EW) as [_ [Z|(m0 & more & E & OK' & K1 & K2)]]; [lia|].
    rewrite (places_det (s_world s) mails (m0 ++ more) OK OK' E), places_app. destruct (nth_error (places 0 m0) (N.to_nat i)) as [[st' ln']|] eqn:EI; [|apply nth_error_None in EI; lia].
    rewrite nth_error_app1 by (apply nth_error_Some; congruence). destruct (K2 _ _ _ EI) as (A & B & _). rewrite S1 in A. rewrite S2 in B. injection A as <-. injection B as <-. exact EI.
Qed.
Lemma growing_orderly h file : history h file -> growing h -> orderly h /\ forall p, Forall (fun x => settled p (fst x) (snd x)) h.
Proof.
  induction 1 as [|h fuel s file file' H IH FI SP E]; intros [GO GE].
  - split; [split; constructor|intros p; constructor].
  - inversion GO as [|? ? G1 G2]; subst. inversion GE as [|? ? G3 G4]; subst. destruct IH as [OR SE]; [split; assumption|]. rewrite Forall_forall in G1.
    destruct (growing_step h s file) as [UD ST]; auto.
    + intros p. apply (history_boxes h file p H OR (SE p) s SP).
    + intros s0 I. apply in_map_iff in I as (x & <- & I). rewrite Forall_forall in SP. split; [now apply SP|apply (G1 x I)].
    + destruct OR as [OR1 OR2]. split; [split|]; [constructor; [|exact OR1]|constructor; assumption|intros p; constructor; [apply ST|apply SE]].
      apply Forall_forall. intros x I. apply (G1 x I).
Qed.
Lemma growing_main s file h F db p mails : history ((s, file) :: h) (Some F) -> growing ((s, file) :: h) -> holds_index (s_world s) F db ->
  (forall q, In q (s_paths s) -> w_map (s_world s) q <> Map_failed) -> eligible (s_world s) (s_symlinks s) (s_paths s) p ->
  w_map (s_world s) p = Mapped (box_text mails) -> mails_ok (s_world s) mails -> enters db p mails.
Proof. intros H G E. destruct (growing_orderly _ _ H G) as [O SE]. apply (boxes_main s file h F db p mails H O (SE p) E). Qed.
