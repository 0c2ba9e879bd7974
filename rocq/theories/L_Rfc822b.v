(* What header_entry does to each field. *)
From Verif Require Import Base M_Tokens M_Decode M_Header M_Words M_Nvp M_Rfc822 S_Words S_Rfc822 L_TokTable L_Words3 L_Multipart2 L_Output3 L_Rfc822.
Local Open Scope N_scope.
Ltac eqs := repeat match goal with
  | |- context [bytes_eqb (bs ?a) (bs ?b)] => let r := eval vm_compute in (bytes_eqb (bs a) (bs b)) in change (bytes_eqb (bs a) (bs b)) with r
  | H : context [bytes_eqb (bs ?a) (bs ?b)] |- _ => let r := eval vm_compute in (bytes_eqb (bs a) (bs b)) in change (bytes_eqb (bs a) (bs b)) with r in H
  end.
Section Lines.
Variable isspc : N -> bool.
Variable mktime : Z -> Z -> Z -> Z.

Ltac same := first
  [ apply newN_nil | apply new1_same | apply newD_same | apply flags_same | apply pick_same; reflexivity | exact (newN_nil _) ].
Ltac rest := repeat (split; [same|]); try same.
Lemma step_same : forall st x, cut_colon x = None -> step isspc mktime st x st.
Proof.
  intros st x C. unfold step. assert (V : forall k, value_of k x = []) by (intros; unfold value_of; rewrite C; reflexivity).
  rewrite !V. cbn [concat app]. repeat (split; [first [apply newN_nil|apply new1_same|apply newD_same|apply flags_same|apply pick_same; apply V]|]).
  apply pick_same, V.
Qed.
Lemma cat_ok : forall o x v' n v, copy_or_concat_header_value o x = Ok v' -> cut_colon x = Some (n, v) -> newN o [v] v'.
Proof.
  intros o x v' n v H C. unfold copy_or_concat_header_value in H. destruct (copy_header_value x) as [p|] eqn:P; [|discriminate].
  destruct (copy_ok _ _ P _ _ C) as (r & -> & D). cbn [bind] in H. destruct o; injection H as <-; exact (newN_cons _ _ _ _ _ D (newN_nil _)).
Qed.
Lemma step_ok : forall st x st', header_entry isspc mktime st x = Ok st' -> step isspc mktime st x st'.
Proof.
  intros st x st' H. rewrite entry_view in H. cbv zeta in H. destruct (cut_colon x) as [[n v]|] eqn:C.
  2:{ assert (M : forall k, ~ In 58 (bs k) -> forall slot, try_nvp isspc slot x (bs k ++ [58]) = Ok None)
        by (intros k K slot; unfold try_nvp, make_nvp; rewrite match_cut, C by exact K; destruct (unset slot); reflexivity).
      rewrite !andb_false_r, !M in H by (cbn; intuition discriminate). cbn [bind] in H. rewrite ?andb_false_r in H. injection H as <-. exact (step_same _ _ C). }
  assert (V : forall k, value_of k x = if bytes_eqb (map tolower n) (bs k) then [v] else []) by (intros; unfold value_of; rewrite C; reflexivity).
  assert (SK : forall k, map tolower n = bs k -> skipn (S (length (bs k))) x = v) by (intros k K; rewrite <- K, map_length; exact (skip_cut _ _ _ C)).
  assert (M : forall k, ~ In 58 (bs k) -> bytes_eqb (map tolower n) (bs k) = false -> forall slot, try_nvp isspc slot x (bs k ++ [58]) = Ok None)
    by (intros k K K2 slot; exact (nvp_no _ _ _ _ _ _ K C K2)).
  assert (P : forall k slot, bytes_eqb (map tolower n) (bs k) = false -> pick isspc k slot [x] = Ok slot)
    by (intros k slot K; apply pick_same; rewrite V, K; reflexivity).
  unfold step. rewrite !V. generalize dependent (map tolower n). intros nm H V SK M P.
  Ltac hit E nm := apply eqb_true in E; subst nm; eqs; cbn [andb] in *; rewrite ?andb_true_r, ?andb_false_r in *.
  Ltac nvps M H := rewrite ?M in H by (first [vm_compute; reflexivity | cbn; intuition discriminate]); cbn [bind] in H; eqs; cbn [andb] in H; rewrite ?andb_false_r, ?andb_true_r in H.
  Ltac fin P := cbn [hs hs_ct hs_cte hs_cd with_hs with_to with_cc with_from with_subject with_date with_message_id with_in_reply_to with_references h_to h_cc h_from h_subject h_message_id h_in_reply_to h_references h_seen h_replied h_flagged h_date concat app];
    repeat (split; [first [apply newN_nil|apply new1_same|apply newD_same|apply flags_same|apply P; vm_compute; reflexivity|assumption|exact eq_refl]|]); first [apply newN_nil|apply new1_same|apply newD_same|apply flags_same|apply P; vm_compute; reflexivity|assumption|exact eq_refl|idtac].
  destruct (bytes_eqb nm (bs "to")) eqn:E1; [hit E1 nm|].
  { destruct (copy_or_concat_header_value (h_to (hs st)) x) as [v'|] eqn:Q; [|discriminate]. cbn [bind] in H. injection H as <-. pose proof (cat_ok _ _ _ _ _ Q C). fin P. }
  destruct (bytes_eqb nm (bs "cc")) eqn:E2; [hit E2 nm|].
  { destruct (copy_or_concat_header_value (h_cc (hs st)) x) as [v'|] eqn:Q; [|discriminate]. cbn [bind] in H. injection H as <-. pose proof (cat_ok _ _ _ _ _ Q C). fin P. }
  destruct (bytes_eqb nm (bs "from")) eqn:E3; [hit E3 nm|].
  { destruct (h_from (hs st)) as [o|] eqn:O; cbn [unset] in H.
    - nvps M H. injection H as <-. rewrite O. fin P.
    - destruct (copy_header_value x) as [v'|] eqn:Q; [|discriminate]. cbn [bind] in H. injection H as <-. pose proof (copy_ok _ _ Q _ _ C). fin P. }
  destruct (bytes_eqb nm (bs "subject")) eqn:E4; [hit E4 nm|].
  { destruct (h_subject (hs st)) as [o|] eqn:O; cbn [unset] in H.
    - nvps M H. injection H as <-. rewrite O. fin P.
    - destruct (copy_header_value x) as [v'|] eqn:Q; [|discriminate]. cbn [bind] in H. injection H as <-. pose proof (copy_ok _ _ Q _ _ C). fin P. }
  rewrite !andb_false_r in H.
  assert (PK : forall k slot, bytes_eqb nm (bs k) = true -> pick isspc k slot [x] = match slot with Some _ => Ok slot | None => make_nvp isspc x (bs k ++ [58]) end).
  { intros k [e|] K; [reflexivity|]. cbn [pick]. rewrite V, K. destruct (make_nvp isspc x (bs k ++ [58])) as [[r|]|]; reflexivity. }
  destruct (bytes_eqb nm (bs "content-type")) eqn:E5; [hit E5 nm|].
  { unfold try_nvp in H at 1. destruct (hs_ct st) as [es|] eqn:O; cbn [unset bind] in H.
    - nvps M H. injection H as <-. rewrite O. fin P.
    - specialize (PK "content-type"%string None eq_refl). cbv beta iota in PK. rewrite PK. destruct (make_nvp isspc x (bs "content-type" ++ [58])) as [[r|]|] eqn:Q; [| |discriminate]; cbn [bind] in H.
      + injection H as <-. fin P.
      + nvps M H. injection H as <-. rewrite O. fin P. }
  rewrite (M "content-type"%string) in H by (first [exact E5 | cbn; intuition discriminate]). cbn [bind] in H.
  destruct (bytes_eqb nm (bs "content-transfer-encoding")) eqn:E6; [hit E6 nm|].
  { unfold try_nvp in H at 1. destruct (hs_cte st) as [es|] eqn:O; cbn [unset bind] in H.
    - nvps M H. injection H as <-. rewrite O. fin P.
    - specialize (PK "content-transfer-encoding"%string None eq_refl). cbv beta iota in PK. rewrite PK. destruct (make_nvp isspc x (bs "content-transfer-encoding" ++ [58])) as [[r|]|] eqn:Q; [| |discriminate]; cbn [bind] in H.
      + injection H as <-. fin P.
      + nvps M H. injection H as <-. rewrite O. fin P. }
  rewrite (M "content-transfer-encoding"%string) in H by (first [exact E6 | cbn; intuition discriminate]). cbn [bind] in H.
  destruct (bytes_eqb nm (bs "content-disposition")) eqn:E7; [hit E7 nm|].
  { unfold try_nvp in H at 1. destruct (hs_cd st) as [es|] eqn:O; cbn [unset bind] in H.
    - nvps M H. injection H as <-. rewrite O. fin P.
    - specialize (PK "content-disposition"%string None eq_refl). cbv beta iota in PK. rewrite PK. destruct (make_nvp isspc x (bs "content-disposition" ++ [58])) as [[r|]|] eqn:Q; [| |discriminate]; cbn [bind] in H.
      + injection H as <-. fin P.
      + nvps M H. injection H as <-. rewrite O. fin P. }
  rewrite (M "content-disposition"%string) in H by (first [exact E7 | cbn; intuition discriminate]). cbn [bind] in H.
  destruct (bytes_eqb nm (bs "date")) eqn:E8; [hit E8 nm|].
  { destruct (h_date (hs st) =? 0)%Z eqn:O.
    - destruct (copy_header_value x) as [v'|] eqn:Q; [|discriminate]. destruct (copy_ok _ _ Q _ _ C) as (r & -> & D). cbn [bind] in H.
      destruct (parse_rfc822_date isspc mktime r) as [d|] eqn:R; [|discriminate]. cbn [bind] in H. injection H as <-. fin P.
      split; [|repeat split; apply P; vm_compute; reflexivity]. split; [intros G; apply Z.eqb_eq in O; contradiction|]. intros _. exists r, d. auto.
    - injection H as <-. apply Z.eqb_neq in O. fin P. split; [|repeat split; apply P; vm_compute; reflexivity]. split; [reflexivity|]. intros G. contradiction. }
  rewrite andb_false_r in H.
  destruct (bytes_eqb nm (bs "message-id")) eqn:E9; [hit E9 nm|].
  { destruct (h_message_id (hs st)) as [o|] eqn:O; cbn [unset] in H.
    - injection H as <-. rewrite O. fin P.
    - destruct (copy_header_value x) as [v'|] eqn:Q; [|discriminate]. cbn [bind] in H. injection H as <-. pose proof (copy_ok _ _ Q _ _ C). fin P. }
  rewrite andb_false_r in H.
  destruct (bytes_eqb nm (bs "in-reply-to")) eqn:E10; [hit E10 nm|].
  { destruct (h_in_reply_to (hs st)) as [o|] eqn:O; cbn [unset] in H.
    - injection H as <-. rewrite O. fin P.
    - destruct (copy_header_value x) as [v'|] eqn:Q; [|discriminate]. cbn [bind] in H. injection H as <-. pose proof (copy_ok _ _ Q _ _ C). fin P. }
  rewrite andb_false_r in H.
  destruct (bytes_eqb nm (bs "references")) eqn:E11; [hit E11 nm|].
  { destruct (h_references (hs st)) as [o|] eqn:O; cbn [unset] in H.
    - injection H as <-. rewrite O. fin P.
    - destruct (copy_header_value x) as [v'|] eqn:Q; [|discriminate]. cbn [bind] in H. injection H as <-. pose proof (copy_ok _ _ Q _ _ C). fin P. }
  rewrite andb_false_r in H.
  assert (CAT : forall w : bytes, w ++ [] = w) by (intros; apply app_nil_r).
  destruct (bytes_eqb nm (bs "status")) eqn:E12; [hit E12 nm|].
  { change (skipn 7 x) with (skipn (S (length (bs "status"))) x) in H. rewrite (SK "status"%string eq_refl) in H. apply Ok_inj in H. subst st'. cbn [hs with_hs hs_ct hs_cte hs_cd]. cbn [app concat].
    destruct (scan_flags v (hs st)) as (A1 & A2 & A3 & A4 & A5 & A6 & A7 & A8 & A9 & A10 & A11). rewrite A1, A2, A3, A4, A5, A6, A7, A8.
    repeat (split; [first [apply newN_nil|apply new1_same|apply newD_same]|]). split; [|fin P]. intros c [<-|[<-|[<-|[]]]]; cbn [fst snd]; rewrite CAT; assumption. }
  destruct (bytes_eqb nm (bs "x-status")) eqn:E13; [hit E13 nm|].
  { change (skipn 9 x) with (skipn (S (length (bs "x-status"))) x) in H. rewrite (SK "x-status"%string eq_refl) in H. apply Ok_inj in H. subst st'. cbn [hs with_hs hs_ct hs_cte hs_cd]. cbn [app concat].
    destruct (scan_flags v (hs st)) as (A1 & A2 & A3 & A4 & A5 & A6 & A7 & A8 & A9 & A10 & A11). rewrite A1, A2, A3, A4, A5, A6, A7, A8.
    repeat (split; [first [apply newN_nil|apply new1_same|apply newD_same]|]). split; [|fin P]. intros c [<-|[<-|[<-|[]]]]; cbn [fst snd]; rewrite CAT; assumption. }
  injection H as <-. cbn [app concat]. repeat (split; [first [apply newN_nil|apply new1_same|apply newD_same|apply flags_same|apply P; assumption]|]). apply P; assumption.
Qed.
End Lines.
