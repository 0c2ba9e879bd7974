(* The header lines of a message. *)
From Verif Require Import Base M_Tokens M_Decode M_Header M_Words M_Nvp M_Rfc822 S_Words S_Rfc822 L_TokTable L_Words3 L_Multipart2.
Local Open Scope N_scope.

Definition decoded (v r : bytes) : Prop := exists m, decode_header_value (v ++ [0]) = Ok m /\ r = cstr m.
Lemma copy_ok : forall x o, copy_header_value x = Ok o -> forall n v, cut_colon x = Some (n, v) -> exists r, o = Some r /\ decoded v r.
Proof.
  intros x o H n v C. unfold copy_header_value in H. assert (E : after_colon x = Some v).
  { clear H. revert n v C. induction x as [|c x IH]; intros n v C; [discriminate|]. cbn [cut_colon after_colon] in *. destruct (c =? 58); [injection C as _ <-; reflexivity|].
    destruct (cut_colon x) as [[n' v']|]; [|discriminate]. injection C as <- <-. exact (IH _ _ eq_refl). }
  rewrite E in H. destruct (decode_header_value (v ++ [0])) as [m|] eqn:D; [|discriminate]. injection H as <-. exists (cstr m). split; [reflexivity|]. exists m. auto.
Qed.
Lemma tolower_colon : forall c, tolower c = 58 -> c = 58.
Proof.
  intros c H. unfold tolower, isupper in H. destruct ((65 <=? c) && (c <=? 90)) eqn:E; [|exact H].
  apply andb_true_iff in E. destruct E as [A B]. apply N.leb_le in A, B. lia.
Qed.
Lemma match_cut : forall k x, ~ In 58 k -> match_string (k ++ [58]) x = match cut_colon x with Some (n, _) => bytes_eqb (map tolower n) k | None => false end.
Proof.
  induction k as [|a k IH]; intros x H; destruct x as [|c x]; try reflexivity.
  - cbn [app match_string cut_colon]. destruct (c =? 58) eqn:E.
    + apply N.eqb_eq in E. subst c. reflexivity.
    + destruct (tolower c =? 58) eqn:F; [apply N.eqb_eq, tolower_colon in F; subst c; discriminate|]. cbn. destruct (cut_colon x) as [[n v]|]; reflexivity.
  - cbn [app match_string cut_colon]. rewrite IH by (intros G; apply H; right; exact G). destruct (c =? 58) eqn:E.
    + apply N.eqb_eq in E. subst c. cbn [map]. change (tolower 58) with 58. destruct (58 =? a) eqn:F; [apply N.eqb_eq in F; subst a; exfalso; apply H; left; reflexivity|]. reflexivity.
    + destruct (cut_colon x) as [[n v]|]; [|apply andb_false_r]. cbn [map bytes_eqb]. reflexivity.
Qed.
Lemma skip_cut : forall x n v, cut_colon x = Some (n, v) -> skipn (S (length n)) x = v.
Proof.
  induction x as [|c x IH]; intros n v C; [discriminate|]. cbn [cut_colon] in C. destruct (c =? 58); [injection C as <- <-; reflexivity|].
  destruct (cut_colon x) as [[n' v']|] eqn:E; [|discriminate]. injection C as <- <-. cbn [length]. exact (IH _ _ eq_refl).
Qed.

(* how each field changes *)
Definition new1 (old : option bytes) (vs : list bytes) (new : option bytes) : Prop :=
  match old, vs with
  | Some _, _ => new = old
  | None, [] => new = None
  | None, v :: _ => exists r, new = Some r /\ decoded v r
  end.
Definition glue (old : option bytes) (r : bytes) : bytes := match old with Some a => a ++ bs ", " ++ r | None => r end.
Inductive newN : option bytes -> list bytes -> option bytes -> Prop :=
| newN_nil o : newN o [] o
| newN_cons o v r vs o' : decoded v r -> newN (Some (glue o r)) vs o' -> newN o (v :: vs) o'.
Definition flag (old : bool) (c : N) (marks : bytes) (new : bool) : Prop := new = old || existsb (fun x => x =? c) marks.
Lemma new1_app : forall a u b v c, new1 a u b -> new1 b v c -> new1 a (u ++ v) c.
Proof.
  intros [a|] u b v c A B; cbn [new1] in *.
  - subst b. exact B.
  - destruct u as [|x u]; cbn [app].
    + subst b. exact B.
    + destruct A as (r & -> & D). cbn [new1] in B. subst c. exists r. auto.
Qed.
Lemma newN_app : forall a u b v c, newN a u b -> newN b v c -> newN a (u ++ v) c.
Proof. intros a u b v c A B. induction A as [|o x r vs o' D A IH]; [exact B|]. exact (newN_cons _ _ _ _ _ D (IH B)). Qed.
Lemma flag_app : forall a c u b v d, flag a c u b -> flag b c v d -> flag a c (u ++ v) d.
Proof. unfold flag. intros. subst. rewrite existsb_app, orb_assoc. reflexivity. Qed.

Section Lines.
Variable isspc : N -> bool.
Variable mktime : Z -> Z -> Z -> Z.
Definition newD (old : Z) (vs : list bytes) (new : Z) : Prop := 
  (old <> 0%Z -> new = old) /\ (old = 0%Z -> match vs with [] => new = 0%Z | v :: _ => exists r d, decoded v r /\ parse_rfc822_date isspc mktime r = Ok d /\ (d <> 0%Z -> new = d) end).
Lemma newD_app : forall a u b v c, newD a u b -> newD b v c -> newD a (u ++ v) c.
Proof.
  intros a u b v c [A1 A2] [B1 B2]. split.
  - intros N. specialize (A1 N). subst b. auto.
  - intros Y. specialize (A2 Y). destruct u as [|x u]; cbn [app]; [exact (B2 A2)|]. destruct A2 as (r & d & D1 & D2 & D3). exists r, d. split; [exact D1|]. split; [exact D2|].
    intros N. specialize (D3 N). subst b. auto.
Qed.
(* the first line of the name that can be read *)
Fixpoint pick (name : string) (old : hdr) (lines : list bytes) : res hdr :=
  match old with
  | Some _ => Ok old
  | None =>
    match lines with
    | [] => Ok None
    | x :: lines' =>
      match value_of name x with
      | [] => pick name None lines'
      | _ => let! r := make_nvp isspc x (bs name ++ [58]) in pick name r lines'
      end
    end
  end.
Lemma pick_some : forall name e lines, pick name (Some e) lines = Ok (Some e).
Proof. destruct lines; reflexivity. Qed.
Lemma pick_cons : forall name old x lines mid new, pick name old [x] = Ok mid -> pick name mid lines = Ok new -> pick name old (x :: lines) = Ok new.
Proof.
  intros name [e|] x lines mid new A B.
  - rewrite pick_some in *. injection A as <-. rewrite pick_some in B. exact B.
  - cbn [pick] in *. destruct (value_of name x) as [|v vs].
    + injection A as <-. exact B.
    + destruct (make_nvp isspc x (bs name ++ [58])) as [[r|]|]; cbn [bind] in *; try discriminate; injection A as <-; exact B.
Qed.
Definition step (st : hstate) (x : bytes) (st' : hstate) : Prop :=
  let h := hs st in let h' := hs st' in
  newN (h_to h) (value_of "to" x) (h_to h') /\ newN (h_cc h) (value_of "cc" x) (h_cc h') /\
  new1 (h_from h) (value_of "from" x) (h_from h') /\ new1 (h_subject h) (value_of "subject" x) (h_subject h') /\
  new1 (h_message_id h) (value_of "message-id" x) (h_message_id h') /\ new1 (h_in_reply_to h) (value_of "in-reply-to" x) (h_in_reply_to h') /\
  new1 (h_references h) (value_of "references" x) (h_references h') /\
  (forall c, In c [(h_seen h, 82, h_seen h'); (h_replied h, 65, h_replied h'); (h_flagged h, 70, h_flagged h')] ->
    flag (fst (fst c)) (snd (fst c)) (concat (value_of "status" x ++ value_of "x-status" x)) (snd c)) /\
  newD (h_date h) (value_of "date" x) (h_date h') /\
  pick "content-type" (hs_ct st) [x] = Ok (hs_ct st') /\ pick "content-transfer-encoding" (hs_cte st) [x] = Ok (hs_cte st') /\ pick "content-disposition" (hs_cd st) [x] = Ok (hs_cd st').
Lemma eqb_true : forall a b, bytes_eqb a b = true -> a = b.
Proof. intros a b H. apply bytes_eqb_eq. exact H. Qed.
Lemma scan_flags : forall s h, let h' := scan_status_flags s h in
  h_to h' = h_to h /\ h_cc h' = h_cc h /\ h_from h' = h_from h /\ h_subject h' = h_subject h /\ h_message_id h' = h_message_id h /\ h_in_reply_to h' = h_in_reply_to h /\
  h_references h' = h_references h /\ h_date h' = h_date h /\ flag (h_seen h) 82 s (h_seen h') /\ flag (h_replied h) 65 s (h_replied h') /\ flag (h_flagged h) 70 s (h_flagged h').
Proof.
  induction s as [|c s IH]; intros h; cbn zeta.
  - cbn. unfold flag. cbn. rewrite !orb_false_r. repeat split; reflexivity.
  - unfold scan_status_flags. cbn [fold_left]. match goal with |- context [fold_left _ s ?g] => specialize (IH g) end. cbn zeta in IH. unfold scan_status_flags in IH. cbn [h_to h_cc h_from h_subject h_message_id h_in_reply_to h_references h_date h_seen h_replied h_flagged] in IH.
    destruct IH as (A & B & C & D & E & F & G & H & I1 & J & K). unfold flag in *. cbn [existsb]. rewrite !orb_assoc. auto 12.
Qed.
Lemma newD_same : forall d, newD d [] d.
Proof. intros d. split; auto. Qed.
Lemma new1_same : forall o, new1 o [] o.
Proof. intros [a|]; reflexivity. Qed.
Lemma flags_same : forall h, forall c, In c [(h_seen h, 82, h_seen h); (h_replied h, 65, h_replied h); (h_flagged h, 70, h_flagged h)] -> flag (fst (fst c)) (snd (fst c)) [] (snd c).
Proof. intros h c [<-|[<-|[<-|[]]]]; unfold flag; cbn; rewrite orb_false_r; reflexivity. Qed.
Lemma pick_same : forall o, forall k x, value_of k x = [] -> pick k o [x] = Ok o.
Proof. intros [e|] k x H; [reflexivity|]. cbn [pick]. rewrite H. reflexivity. Qed.

Lemma nvp_no : forall slot x k n v, ~ In 58 (bs k) -> cut_colon x = Some (n, v) -> bytes_eqb (map tolower n) (bs k) = false -> try_nvp isspc slot x (bs k ++ [58]) = Ok None.
Proof.
  intros slot x k n v H C E. unfold try_nvp, make_nvp. rewrite match_cut by exact H. rewrite C, E. destruct (unset slot); reflexivity.
Qed.

(* which lines header_entry looks at *)
Lemma entry_view : forall st x, header_entry isspc mktime st x =
  let h := hs st in
  let is k := match cut_colon x with Some (n, _) => bytes_eqb (map tolower n) (bs k) | None => false end in
  if is "to"%string then let! v := copy_or_concat_header_value (h_to h) x in Ok (with_hs st (with_to v h))
  else if is "cc"%string then let! v := copy_or_concat_header_value (h_cc h) x in Ok (with_hs st (with_cc v h))
  else if unset (h_from h) && is "from"%string then let! v := copy_header_value x in Ok (with_hs st (with_from v h))
  else if unset (h_subject h) && is "subject"%string then let! v := copy_header_value x in Ok (with_hs st (with_subject v h))
  else
    let! ct := try_nvp isspc (hs_ct st) x (bs "content-type" ++ [58]) in
    match ct with Some _ => Ok {| hs := h; hs_ct := ct; hs_cte := hs_cte st; hs_cd := hs_cd st |} | None =>
    let! cte := try_nvp isspc (hs_cte st) x (bs "content-transfer-encoding" ++ [58]) in
    match cte with Some _ => Ok {| hs := h; hs_ct := hs_ct st; hs_cte := cte; hs_cd := hs_cd st |} | None =>
    let! cd := try_nvp isspc (hs_cd st) x (bs "content-disposition" ++ [58]) in
    match cd with Some _ => Ok {| hs := h; hs_ct := hs_ct st; hs_cte := hs_cte st; hs_cd := cd |} | None =>
    if (h_date h =? 0)%Z && is "date"%string then
      let! v := copy_header_value x in
      match v with None => Err E_ub | Some v => let! d := parse_rfc822_date isspc mktime v in Ok (with_hs st (with_date d h)) end
    else if unset (h_message_id h) && is "message-id"%string then let! v := copy_header_value x in Ok (with_hs st (with_message_id v h))
    else if unset (h_in_reply_to h) && is "in-reply-to"%string then let! v := copy_header_value x in Ok (with_hs st (with_in_reply_to v h))
    else if unset (h_references h) && is "references"%string then let! v := copy_header_value x in Ok (with_hs st (with_references v h))
    else if is "status"%string then Ok (with_hs st (scan_status_flags (skipn 7 x) h))
    else if is "x-status"%string then Ok (with_hs st (scan_status_flags (skipn 9 x) h))
    else Ok st
    end end end.
Proof.
  intros. unfold header_entry. cbv zeta.
  change (bs "to:") with (bs "to" ++ [58]). change (bs "cc:") with (bs "cc" ++ [58]). change (bs "from:") with (bs "from" ++ [58]). change (bs "subject:") with (bs "subject" ++ [58]).
  change (bs "content-type:") with (bs "content-type" ++ [58]). change (bs "content-transfer-encoding:") with (bs "content-transfer-encoding" ++ [58]). change (bs "content-disposition:") with (bs "content-disposition" ++ [58]).
  change (bs "date:") with (bs "date" ++ [58]). change (bs "message-id:") with (bs "message-id" ++ [58]). change (bs "in-reply-to:") with (bs "in-reply-to" ++ [58]). change (bs "references:") with (bs "references" ++ [58]).
  change (bs "status:") with (bs "status" ++ [58]). change (bs "x-status:") with (bs "x-status" ++ [58]).
  rewrite !match_cut by (cbn; intuition discriminate). reflexivity.
Qed.
End Lines.
