(* A message in parts whose last boundary is missing. *)
From Verif Require Import Base M_Tokens M_Decode M_Header M_Words M_Nvp M_Rfc822 S_Decode S_Header S_Words S_Nvp S_Rfc822 S_Multipart S_Mime
  L_Decode L_Header L_TokTable L_Words3 L_Nvp4 L_Multipart L_Multipart2 L_Output3 L_Rfc822 L_Rfc822b L_Rfc822c L_Rfc822d L_Mime L_Mime2 L_Mime3 L_Mime4 L_Mime5.
Local Open Scope N_scope.

Lemma told_main : forall isspc mktime, (forall c, c < 128 -> isspc c = isspace c) ->
  forall data after m e, open_ended isspc data -> Forall (fun c => c < 256) data ->
  data_to_rfc822 isspc mktime (data ++ after) (length data) = Ok (m, e) -> m <> None /\ e = DTR8_MISSING_END.
Proof.
  intros isspc mktime A data after m e (lines & body & ct & cte & d & b & HD & CT & CTE & TR & (a & mi & r & E & SN & _) & PB & W & Z & NC) B H.
  destruct (headed_view isspc A _ _ _ HD) as (S & pre & PE & C & NE). specialize (C B).
  unfold data_to_rfc822, data_to_rfc822_by in H. rewrite firstn_app, firstn_all, Nat.sub_diag, app_nil_r, S in H. cbn [bind] in H.
  destruct (header_entries _ _ _ lines) as [st|] eqn:ST in H; [|discriminate]. cbn [bind] in H. cbv zeta in H.
  pose proof (steps_ok _ _ _ _ _ ST) as SO. destruct SO as (_ & _ & _ & _ & _ & _ & _ & _ & _ & P1 & P2 & P3). cbn [hs_ct hs_cte hs_cd] in P1, P2, P3.
  assert (L : (length data - length body = length pre)%nat) by (rewrite PE, app_length; lia). rewrite L in H.
  assert (K : skipn (length pre) (data ++ after) = body ++ after) by (rewrite PE, <- app_assoc, skipn_app, skipn_all, Nat.sub_diag; reflexivity). rewrite K in H.
  assert (L2 : (length data - length pre = length body)%nat) by (rewrite PE, app_length; lia). rewrite L2 in H.
  pose proof (pick_slot isspc A _ _ _ C P1 _ CT) as S1. pose proof (pick_slot isspc A _ _ _ C P2 _ CTE) as S2.
  rewrite (body_view isspc mktime A _ body after _ _ cte _ d S2 TR) in H. destruct (hs_ct st) as [es|]; [|contradiction]. cbn [read_as] in S1. cbv zeta in H.
  rewrite (typed _ _ _ _ _ E S1) in H. cbn [ct_major ct_minor ct_boundary] in H. rewrite (is_yes _ _ SN), (param_read _ _ _ _ S1 PB) in H. unfold do_multipart_by in H.
  destruct (reported_main b d W Z NC) as [ps R]. rewrite R in H. cbn [bind] in H.
  destruct (do_parts _ _ _ _) as [atts|] in H; [|discriminate]. cbn [bind] in H. apply Ok_inj in H. injection H as <- <-. split; [discriminate|reflexivity].
Qed.
Definition ex_cut : bytes := hd_of ex_fs (nl "intro" ++ nl "--X X" ++ ex_p1 ++ nl "--X X" ++ ex_p2).
Lemma ex_cut_ok : open_ended isspace ex_cut /\ Forall (fun c => c < 256) ex_cut /\ exists m, data_to_rfc822 isspace ex_mktime ex_cut (length ex_cut) = Ok (m, DTR8_MISSING_END).
Proof.
  split; [|split; [apply small_by; vm_compute; reflexivity|eexists; vm_compute; reflexivity]].
  exists (map unfolded ex_fs), (nl "intro" ++ nl "--X X" ++ ex_p1 ++ nl "--X X" ++ ex_p2), [Type_of (bs "multipart") (bs "mixed"); Param (bs "boundary") (bs "X X")], None,
    (nl "intro" ++ nl "--X X" ++ ex_p1 ++ nl "--X X" ++ ex_p2), (bs "X X").
  split; [apply hd_ok; vm_compute; reflexivity|]. split.
  { exists (bs " multipart/mixed; boundary=""X X"""). split; [vm_compute; reflexivity|].
    apply (listed_two _ _ (bs "multipart/mixed") (bs "boundary=""X X""")); [apply (spelled_type (bs "multipart") (bs "mixed")); [discriminate|discriminate|reflexivity]|]. apply (sp_param (bs "boundary") (bs "X X") [] (34 :: bs "X X" ++ [34])); [apply name_by; reflexivity|constructor|]. apply v_quoted. split; [discriminate|]. now apply quoted_by. }
  split; [vm_compute; reflexivity|]. split; [constructor|]. split.
  { exists (bs "multipart"), (bs "mixed"), [Param (bs "boundary") (bs "X X")]. split; [reflexivity|]. split; [reflexivity|exact Logic.I]. }
  split; [exists [Type_of (bs "multipart") (bs "mixed")], (bs "boundary"), []; split; [reflexivity|]; split; [reflexivity|]; none_of|].
  split; [apply starts_ok; vm_compute; reflexivity|]. split; [intros I; assert (F : forallb (fun c => negb (c =? 0)) (nl "intro" ++ nl "--X X" ++ ex_p1 ++ nl "--X X" ++ ex_p2) = true) by (vm_compute; reflexivity); rewrite forallb_forall in F; specialize (F _ I); discriminate|].
  intros x y Q _ [r R]. apply (nowhere_ok (mark (bs "X X") ++ bs "--") (nl "intro" ++ nl "--X X" ++ ex_p1 ++ nl "--X X" ++ ex_p2) ltac:(vm_compute; reflexivity) x r). rewrite Q, R, <- app_assoc. reflexivity.
Qed.
