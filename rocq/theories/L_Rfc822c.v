(* The header fields of a message. *)
From Verif Require Import Base M_Tokens M_Decode M_Header M_Words M_Nvp M_Rfc822 S_Header S_Words S_Rfc822 L_Header L_TokTable L_Words3 L_Multipart2 L_Output3 L_Rfc822 L_Rfc822b.
Local Open Scope N_scope.

Lemma cstr_cut : forall r s, ~ In 0 r -> cstr (r ++ 0 :: s) = r.
Proof.
  induction r as [|c r IH]; intros s H; [reflexivity|]. cbn [app cstr]. destruct (c =? 0) eqn:E; [apply N.eqb_eq in E; subst c; exfalso; apply H; left; reflexivity|].
  rewrite IH; [reflexivity|]. intros G. apply H. right. exact G.
Qed.
Lemma decoded_shown : forall v r, c_string v -> decoded v r -> shown v r.
Proof.
  intros v r C (m & D & ->) r' R Z. destruct (reads_main v r' [] C R) as (junk & E & _). rewrite E in D. apply Ok_inj in D. subst m. apply cstr_cut. exact Z.
Qed.
Lemma new1_first : forall vs o, Forall c_string vs -> new1 None vs o -> first_value vs o.
Proof.
  intros [|v vs] o C H; [exact H|]. destruct H as (r & -> & D). exists r. split; [reflexivity|]. apply decoded_shown; [exact (Forall_inv C)|exact D].
Qed.
Lemma newN_glue : forall vs a o, Forall c_string vs -> newN (Some a) vs o -> exists rs, o = Some (commas (a :: rs)) /\ Forall2 shown vs rs.
Proof.
  induction vs as [|v vs IH]; intros a o C H; inversion H; subst.
  - exists []. split; [reflexivity|constructor].
  - destruct (IH _ _ (Forall_inv_tail C) H5) as (rs & A & B). exists (r :: rs). split.
    + rewrite A. apply (f_equal Some). cbn [glue commas]. destruct rs; [reflexivity|]. rewrite <- !app_assoc. reflexivity.
    + constructor; [apply decoded_shown; [exact (Forall_inv C)|exact H3]|exact B].
Qed.
Lemma newN_all : forall vs o, Forall c_string vs -> newN None vs o -> all_values vs o.
Proof.
  intros [|v vs] o C H; inversion H; subst; [reflexivity|]. destruct (newN_glue _ _ _ (Forall_inv_tail C) H5) as (rs & A & B).
  exists (r :: rs). split; [exact A|]. constructor; [apply decoded_shown; [exact (Forall_inv C)|exact H3]|exact B].
Qed.
Lemma values_cons : forall k x ls, values k (x :: ls) = value_of k x ++ values k ls.
Proof. reflexivity. Qed.

Section Entries.
Variable isspc : N -> bool.
Variable mktime : Z -> Z -> Z -> Z.
Definition steps (st : hstate) (ls : list bytes) (st' : hstate) : Prop :=
  let h := hs st in let h' := hs st' in
  newN (h_to h) (values "to" ls) (h_to h') /\ newN (h_cc h) (values "cc" ls) (h_cc h') /\
  new1 (h_from h) (values "from" ls) (h_from h') /\ new1 (h_subject h) (values "subject" ls) (h_subject h') /\
  new1 (h_message_id h) (values "message-id" ls) (h_message_id h') /\ new1 (h_in_reply_to h) (values "in-reply-to" ls) (h_in_reply_to h') /\
  new1 (h_references h) (values "references" ls) (h_references h') /\
  (forall c, In c [(h_seen h, 82, h_seen h'); (h_replied h, 65, h_replied h'); (h_flagged h, 70, h_flagged h')] ->
    exists marks, flag (fst (fst c)) (snd (fst c)) marks (snd c) /\ forall m, In m marks <-> In m (concat (values "status" ls ++ values "x-status" ls))) /\
  newD isspc mktime (h_date h) (values "date" ls) (h_date h') /\
  pick isspc "content-type" (hs_ct st) ls = Ok (hs_ct st') /\ pick isspc "content-transfer-encoding" (hs_cte st) ls = Ok (hs_cte st') /\ pick isspc "content-disposition" (hs_cd st) ls = Ok (hs_cd st').
Lemma steps_ok : forall ls st st', header_entries isspc mktime st ls = Ok st' -> steps st ls st'.
Proof.
  induction ls as [|x ls IH]; intros st st' H.
  - injection H as <-. unfold steps. cbn [values concat map app]. repeat (split; [first [apply newN_nil|apply new1_same|apply newD_same]|]). split.
    + intros c I. exists []. split; [exact (flags_same _ c I)|tauto].
    + split; [apply newD_same|]. assert (P : forall k o, pick isspc k o [] = Ok o) by (intros k [e|]; reflexivity). rewrite !P. auto.
  - cbn [header_entries] in H. destruct (header_entry isspc mktime st x) as [st1|] eqn:E; [|discriminate]. cbn [bind] in H.
    destruct (step_ok _ _ _ _ _ E) as (A1 & A2 & A3 & A4 & A5 & A6 & A7 & A8 & A9 & A10 & A11 & A12).
    destruct (IH _ _ H) as (B1 & B2 & B3 & B4 & B5 & B6 & B7 & B8 & B9 & B10 & B11 & B12). unfold steps. rewrite !values_cons.
    split; [exact (newN_app _ _ _ _ _ A1 B1)|]. split; [exact (newN_app _ _ _ _ _ A2 B2)|]. split; [exact (new1_app _ _ _ _ _ A3 B3)|]. split; [exact (new1_app _ _ _ _ _ A4 B4)|].
    split; [exact (new1_app _ _ _ _ _ A5 B5)|]. split; [exact (new1_app _ _ _ _ _ A6 B6)|]. split; [exact (new1_app _ _ _ _ _ A7 B7)|]. split.
    + assert (F : forall a b c d, flag a d (concat (value_of "status" x ++ value_of "x-status" x)) b ->
        (exists marks, flag b d marks c /\ forall m, In m marks <-> In m (concat (values "status" ls ++ values "x-status" ls))) ->
        exists marks, flag a d marks c /\ forall m, In m marks <-> In m (concat ((value_of "status" x ++ values "status" ls) ++ value_of "x-status" x ++ values "x-status" ls))).
      { intros a b c d Q (marks & R1 & R2). eexists. split; [exact (flag_app _ _ _ _ _ _ Q R1)|]. intros m. rewrite !concat_app, !in_app_iff, R2, !concat_app, !in_app_iff. tauto. }
      intros c [<-|[<-|[<-|[]]]]; cbn [fst snd].
      * refine (F _ _ _ _ (A8 _ (or_introl eq_refl)) (B8 _ (or_introl eq_refl))).
      * refine (F _ _ _ _ (A8 _ (or_intror (or_introl eq_refl))) (B8 _ (or_intror (or_introl eq_refl)))).
      * refine (F _ _ _ _ (A8 _ (or_intror (or_intror (or_introl eq_refl)))) (B8 _ (or_intror (or_intror (or_introl eq_refl))))).
    + split; [exact (newD_app _ _ _ _ _ _ _ A9 B9)|]. split; [exact (pick_cons _ _ _ _ _ _ _ A10 B10)|]. split; [exact (pick_cons _ _ _ _ _ _ _ A11 B11)|exact (pick_cons _ _ _ _ _ _ _ A12 B12)].
Qed.
Definition start : hstate := {| hs := init_headers; hs_ct := None; hs_cte := None; hs_cd := None |}.
Lemma value_c : forall k x, c_string x -> Forall c_string (value_of k x).
Proof.
  intros k x C. unfold value_of. destruct (cut_colon x) as [[n v]|] eqn:E; [|apply Forall_nil]. destruct (bytes_eqb _ _); [|apply Forall_nil]. apply Forall_cons; [|apply Forall_nil].
  revert n v E C. induction x as [|c x IH]; intros n v E C; [discriminate|]. cbn [cut_colon] in E. destruct (c =? 58); [injection E as _ <-; exact (Forall_inv_tail C)|].
  destruct (cut_colon x) as [[n' v']|]; [|discriminate]. injection E as _ <-. exact (IH _ _ eq_refl (Forall_inv_tail C)).
Qed.
Lemma values_c : forall k ls, Forall c_string ls -> Forall c_string (values k ls).
Proof. intros k ls H. induction H; [apply Forall_nil|]. rewrite values_cons. apply Forall_app. split; [apply value_c; assumption|assumption]. Qed.
Lemma flag_in : forall c marks b, flag false c marks b -> (b = true <-> In c marks).
Proof.
  intros c marks b ->. cbn [orb]. rewrite existsb_exists. split.
  - intros (x & A & B). apply N.eqb_eq in B. subst x. exact A.
  - intros A. exists c. split; [exact A|apply N.eqb_refl].
Qed.
Lemma entries_headers : forall ls st, Forall c_string ls -> header_entries isspc mktime start ls = Ok st -> headers_of ls (hs st).
Proof.
  intros ls st C H. destruct (steps_ok _ _ _ H) as (A1 & A2 & A3 & A4 & A5 & A6 & A7 & A8 & _). unfold headers_of.
  split; [exact (newN_all _ _ (values_c _ _ C) A1)|]. split; [exact (newN_all _ _ (values_c _ _ C) A2)|].
  split; [exact (new1_first _ _ (values_c _ _ C) A3)|]. split; [exact (new1_first _ _ (values_c _ _ C) A4)|]. split; [exact (new1_first _ _ (values_c _ _ C) A5)|].
  split; [exact (new1_first _ _ (values_c _ _ C) A6)|]. split; [exact (new1_first _ _ (values_c _ _ C) A7)|]. cbv zeta.
  destruct (A8 _ (or_introl eq_refl)) as (m1 & M1 & N1). destruct (A8 _ (or_intror (or_introl eq_refl))) as (m2 & M2 & N2). destruct (A8 _ (or_intror (or_intror (or_introl eq_refl)))) as (m3 & M3 & N3).
  cbn [fst snd hs start init_headers h_seen h_replied h_flagged] in *. rewrite (flag_in _ _ _ M1), (flag_in _ _ _ M2), (flag_in _ _ _ M3). auto.
Qed.
End Entries.
