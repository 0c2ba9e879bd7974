(* A MIME message is read as the tree that it is. *)
From Verif Require Import Base M_Tokens M_Decode M_Header M_Words M_Nvp M_Rfc822 S_Decode S_Header S_Words S_Nvp S_Rfc822 S_Multipart S_Mime
  L_Decode L_Header L_TokTable L_Words3 L_Nvp4 L_Multipart L_Multipart2 L_Output3 L_Rfc822 L_Rfc822b L_Rfc822c L_Rfc822d L_Mime L_Mime2.
Local Open Scope N_scope.

Lemma depict_app : forall ns atts, depict ns atts -> forall ms btts, depict ms btts -> depict (ns ++ ms) (atts ++ btts).
Proof. induction ns as [|n ns IH]; intros atts D ms btts E; inversion D; subst; [exact E|]. cbn [app]. constructor; [assumption|]. apply IH; assumption. Qed.
Lemma value_plain : forall v t, value_spelled v t -> ~ In 10 v /\ ~ In 0 v.
Proof.
  assert (Q : forall v, some_of quoted_char v -> ~ In 10 v /\ ~ In 0 v).
  { intros v [_ F]. rewrite Forall_forall in F. split; intros I; specialize (F _ I); unfold quoted_char, value_char in F; cbn in F; intuition lia. }
  intros v t H. destruct H as [v [N F]|v F]; apply Q; [|exact F]. split; [exact N|]. eapply Forall_impl; [|exact F]. intros c C. left. exact C.
Qed.
Lemma param_plain : forall cs t, listed cs t -> forall n v, In (Param n v) cs -> boundary_string v.
Proof.
  assert (S : forall n v t, spelled (Param n v) t -> boundary_string v) by (intros n v t H; inversion H; subst; eapply value_plain; eassumption).
  intros cs t L. induction L as [c w1 t w2 W1 C W2|c w1 t w2 w3 W1 C W2 W3|c cs w1 t w2 r W1 C W2 L IH]; intros n v I; (destruct I as [->|I]; [exact (S _ _ _ C)|]); try contradiction. exact (IH _ _ I).
Qed.
Scheme entity_mut := Minimality for entity Sort Prop with entities_mut := Minimality for entities Sort Prop.

Section Tree.
Variable isspc : N -> bool.
Variable mktime : Z -> Z -> Z -> Z.
Hypothesis A : forall c, c < 128 -> isspc c = isspace c.

Lemma headed_view : forall p lines body, headed isspc p lines body -> split_and_splice_header isspc p = Ok (Some (lines, body)) /\
  exists pre, p = pre ++ body /\ (Forall (fun c => c < 256) p -> Forall c_string lines) /\ (lines <> [] -> pre <> []).
Proof.
  intros p lines body H. destruct H as [fs e body HO EN]. split; [apply (header_main isspc A); exists fs, e; auto|].
  assert (E : exists x, e = x ++ body) by (destruct EN as [w body W N| |r]; [exists (w ++ [10]); rewrite <- app_assoc; reflexivity|exists []; reflexivity|exists []; reflexivity]).
  destruct E as [x ->]. exists (concat (map folded fs) ++ x). rewrite app_assoc. split; [reflexivity|]. split.
  - intros B. rewrite <- app_assoc in B. exact (lines_c isspc _ _ (proj1 HO) B).
  - intros NN. destruct fs as [|f fs]; [contradiction|]. cbn [map concat]. unfold folded at 1. intros Z. apply (f_equal (@length _)) in Z. rewrite !app_length in Z. cbn [length] in Z. lia.
Qed.
Definition slot (k : string) (lines : list bytes) (h : hdr) : Prop := forall o, content k lines o -> read_as o h.
Definition enough (lines : list bytes) (raw : bytes) (fuel : nat) : Prop := (1 <= fuel)%nat /\ (values "content-type" lines <> [] -> (S (S (length raw)) <= fuel)%nat).
Definition fine (e : option dtr8) : Prop := e = None \/ e = Some DTR8_OK.
Definition body_ok (lines : list bytes) (raw : bytes) (ns : list node) : Prop :=
  forall fuel after ct cte cd, slot "content-type" lines ct -> slot "content-transfer-encoding" lines cte -> slot "content-disposition" lines cd ->
    enough lines raw fuel -> Forall (fun c => c < 256) raw -> exists atts e, do_body isspc mktime fuel (raw ++ after) (length raw) ct cte cd = Ok (atts, e) /\ depict ns atts /\ fine e.
Definition parts_ok (ps : list bytes) (ns : list node) : Prop :=
  forall f d offs, map (piece d) offs = ps -> Forall (fun o => (fst o <= snd o < length d)%nat) offs -> (length d < f)%nat -> Forall (fun c => c < 256) d ->
    exists atts, do_parts isspc (do_body isspc mktime f) d offs = Ok atts /\ depict ns atts.

Lemma pick_slot : forall k lines h, Forall c_string lines -> pick isspc k None lines = Ok h -> slot k lines h.
Proof. intros k lines h C P o O. destruct (pick_content isspc A k lines o O C) as (h' & P' & R). rewrite P in P'. apply Ok_inj in P'. subst h'. exact R. Qed.
Lemma enough_inner : forall p pre lines body f, p = pre ++ body -> (lines <> [] -> pre <> []) -> (length p < f)%nat -> enough lines body f.
Proof.
  intros p pre lines body f -> N L. rewrite app_length in L. split; [lia|]. intros V. assert (Z : lines <> []) by (intros ->; apply V; reflexivity). specialize (N Z). destruct pre; [contradiction|]. cbn [length] in L. lia.
Qed.
Lemma message_by : forall d lines body ns f after, headed isspc d lines body -> dates_ok isspc lines -> body_ok lines body ns -> Forall (fun c => c < 256) d -> enough lines body f ->
  exists h atts, data_to_rfc822_by isspc mktime (do_body isspc mktime f) (d ++ after) (length d) = Ok (Some (Rfc822 h atts), DTR8_OK) /\ headers_of lines h /\ depict ns atts.
Proof.
  intros d lines body ns f after H D IH B EN. destruct (headed_view _ _ _ H) as (S & pre & E & C & _). specialize (C B).
  unfold data_to_rfc822_by. rewrite firstn_app, firstn_all, Nat.sub_diag, app_nil_r, S. cbn [bind].
  destruct (entries_total isspc mktime A lines {| hs := init_headers; hs_ct := None; hs_cte := None; hs_cd := None |} C D) as [st ST]. rewrite ST. cbn [bind]. cbv zeta.
  pose proof (steps_ok _ _ _ _ _ ST) as SO. destruct SO as (_ & _ & _ & _ & _ & _ & _ & _ & _ & SO). 
  destruct SO as (P1 & P2 & P3). cbn [hs_ct hs_cte hs_cd] in P1, P2, P3.
  assert (L : (length d - length body = length pre)%nat) by (rewrite E, app_length; lia). rewrite L. 
  assert (K : skipn (length pre) (d ++ after) = body ++ after) by (rewrite E, <- app_assoc, skipn_app, skipn_all, Nat.sub_diag; reflexivity). rewrite K.
  assert (L2 : (length d - length pre = length body)%nat) by (rewrite E, app_length; lia). rewrite L2.
  destruct (IH f after (hs_ct st) (hs_cte st) (hs_cd st)) as (atts & e & R & DE & F).
  - exact (pick_slot _ _ _ C P1).
  - exact (pick_slot _ _ _ C P2).
  - exact (pick_slot _ _ _ C P3).
  - exact EN.
  - rewrite E in B. apply Forall_app in B. tauto.
  - rewrite R. cbn [bind]. exists (hs st), atts. split; [destruct F as [->| ->]; reflexivity|]. split; [exact (entries_headers isspc mktime _ _ C ST)|exact DE].
Qed.
Lemma part_by : forall p lines body ns f after, headed isspc p lines body -> body_ok lines body ns -> Forall (fun c => c < 256) p -> enough lines body f ->
  exists atts, do_attachment_by isspc (do_body isspc mktime f) (p ++ after) (length p) = Ok atts /\ depict ns atts.
Proof.
  intros d lines body ns f after H IH B EN. destruct (headed_view _ _ _ H) as (S & pre & E & C & _). specialize (C B).
  unfold do_attachment_by. rewrite firstn_app, firstn_all, Nat.sub_diag, app_nil_r, S. cbn [bind]. rewrite (part_view isspc A lines C). cbn [bind]. cbv zeta.
  assert (L : (length d - length body = length pre)%nat) by (rewrite E, app_length; lia). rewrite L. 
  assert (K : skipn (length pre) (d ++ after) = body ++ after) by (rewrite E, <- app_assoc, skipn_app, skipn_all, Nat.sub_diag; reflexivity). rewrite K.
  assert (L2 : (length d - length pre = length body)%nat) by (rewrite E, app_length; lia). rewrite L2.
  destruct (IH f after (finally isspc "content-type" lines None) (finally isspc "content-transfer-encoding" lines None) (finally isspc "content-disposition" lines None)) as (atts & e & R & DE & F).
  - intros o O. exact (finally_content isspc A _ _ _ O C).
  - intros o O. exact (finally_content isspc A _ _ _ O C).
  - intros o O. exact (finally_content isspc A _ _ _ O C).
  - exact EN.
  - rewrite E in B. apply Forall_app in B. tauto.
  - rewrite R. cbn [bind]. eauto.
Qed.
(* opening do_body *)
Lemma body_view : forall f raw after ct cte ctes cd d, read_as ctes cte -> transfer isspc ctes raw d ->
  do_body isspc mktime (S f) (raw ++ after) (length raw) ct cte cd =
  match ct with
  | None => Ok ([(None, B_plain d)], None)
  | Some ct =>
    let t := parse_content_type ct in
    if is (ct_major t) (bs "multipart") then do_multipart_by isspc (do_body isspc mktime f) d (ct_boundary t)
    else
      let name := file_name ct cd in
      if is (ct_major t) (bs "text") then
        Ok ([(name, if is (ct_minor t) (bs "plain") then B_plain d else if is (ct_minor t) (bs "html") then B_html d else B_other d)], None)
      else if is (ct_major t) (bs "message") && is (ct_minor t) (bs "rfc822") then
        let! (m, e) := data_to_rfc822_by isspc mktime (do_body isspc mktime f) (d ++ [0]) (length d) in
        Ok ([(name, B_message m)], Some e)
      else Ok ([(name, B_other d)], None)
  end.
Proof.
  intros f raw after ct cte ctes cd d R T. destruct (transfer_read isspc A _ _ _ _ after R T) as [E U]. cbn [do_body].
  destruct E as [->|(es & e & -> & F)]; cbn [encoding] in U.
  - rewrite U. cbn [bind]. reflexivity.
  - rewrite F in U |- *. rewrite U. cbn [bind]. reflexivity.
Qed.
Lemma is_true : forall a b k, same_name a b -> same_name b k -> is (Some a) k = true.
Proof. intros a b k S T. cbn [is]. apply case_eqb_iff. unfold same_name in *. congruence. Qed.
Lemma is_yes : forall a k, same_name a k -> is (Some a) k = true.
Proof. intros a k S. cbn [is]. apply case_eqb_iff. exact S. Qed.
Lemma is_no : forall a k, ~ same_name a k -> is (Some a) k = false.
Proof. intros a k S. cbn [is]. apply case_refuse. exact S. Qed.
Lemma is_other : forall a j k, same_name a j -> map tolower j <> map tolower k -> is (Some a) k = false.
Proof. intros a j k S N. apply is_no. unfold same_name in *. congruence. Qed.
Lemma typed : forall ct es a b r, ct = Type_of a b :: r -> stands ct [] es -> parse_content_type es = {| ct_major := Some a; ct_minor := Some b; ct_boundary := nvp_lookupcase es (bs "boundary") |}.
Proof. intros ct es a b r -> ST. destruct (type_ok _ _ _ _ ST) as [T1 T2]. unfold parse_content_type. rewrite T1, T2. reflexivity. Qed.
Lemma need_more : forall lines raw fuel cs, enough lines raw fuel -> content "content-type" lines (Some cs) -> exists f, fuel = S f /\ (length raw < f)%nat.
Proof. intros lines raw fuel cs [E1 E2] (v & V & _). rewrite V in E2. specialize (E2 ltac:(discriminate)). destruct fuel as [|f]; [lia|]. exists f. split; [reflexivity|lia]. Qed.

Lemma tree_ok : forall lines raw ns, entity isspc lines raw ns -> body_ok lines raw ns.
Proof.
  apply (entity_mut isspc body_ok parts_ok).
  - intros lines cte raw d CT CTE TR _ fuel after h1 h2 h3 S1 S2 S3 [E1 _] B. destruct fuel as [|f]; [lia|]. rewrite (body_view f raw after h1 h2 cte h3 d (S2 _ CTE) TR).
    specialize (S1 _ CT). destruct h1; [contradiction|]. eexists. eexists. split; [reflexivity|]. split; [repeat constructor|left; reflexivity].
  - intros lines ct cte cd raw d k name CT CTE CD TR LT FN fuel after h1 h2 h3 S1 S2 S3 EN B. destruct (need_more _ _ _ _ EN CT) as (f & -> & L).
    rewrite (body_view f raw after h1 h2 cte h3 d (S2 _ CTE) TR). specialize (S1 _ CT). destruct h1 as [es|]; [|contradiction]. cbn [read_as] in S1. cbv zeta.
    rewrite (named_read _ _ _ _ _ S1 (S3 _ CD) FN). destruct LT as [(a & b & r & E & SN & TX)|(-> & a & b & r & E & N1 & N2 & N3)]; rewrite (typed _ _ _ _ _ E S1); cbn [ct_major ct_minor].
    + rewrite (is_other a (bs "text") (bs "multipart") SN) by discriminate. rewrite (is_yes _ _ SN). eexists. eexists. split; [reflexivity|]. split; [|left; reflexivity].
      apply de_cons; [|constructor]. destruct k; cbn [is_text] in TX.
      * rewrite (is_yes _ _ TX). constructor.
      * rewrite (is_other b (bs "html") (bs "plain") TX) by discriminate. rewrite (is_yes _ _ TX). constructor.
      * rewrite (is_no _ _ (proj1 TX)), (is_no _ _ (proj2 TX)). constructor.
    + rewrite (is_no _ _ N1), (is_no _ _ N2). assert (Z : is (Some a) (bs "message") && is (Some b) (bs "rfc822") = false).
      { apply andb_false_iff. cbn [is]. destruct (case_eqb a (bs "message")) eqn:Q1; [|left; reflexivity]. right. destruct (case_eqb b (bs "rfc822")) eqn:Q2; [|reflexivity]. exfalso. apply N3. split; apply case_eqb_iff; assumption. }
      rewrite Z. eexists. eexists. split; [reflexivity|]. split; [repeat constructor|left; reflexivity].
  - intros lines ct cte cd raw d name inner body ns CT CTE CD TR (a & b & r & E & SN & RF) FN HD DT _ IH fuel after h1 h2 h3 S1 S2 S3 EN B. destruct (need_more _ _ _ _ EN CT) as (f & -> & L).
    rewrite (body_view f raw after h1 h2 cte h3 d (S2 _ CTE) TR). specialize (S1 _ CT). destruct h1 as [es|]; [|contradiction]. cbn [read_as] in S1. cbv zeta.
    rewrite (named_read _ _ _ _ _ S1 (S3 _ CD) FN). rewrite (typed _ _ _ _ _ E S1); cbn [ct_major ct_minor].
    rewrite (is_other a (bs "message") (bs "multipart") SN), (is_other a (bs "message") (bs "text") SN) by discriminate. rewrite (is_yes _ _ SN), (is_yes _ _ RF). cbn [andb].
    destruct (transfer_small isspc mktime A _ _ _ TR) as [LE SM]. destruct (headed_view _ _ _ HD) as (_ & pre & PE & _ & NE).
    destruct (message_by d inner body ns f [0] HD DT IH (SM B)) as (h & atts & R & HO & DE); [apply (enough_inner d pre); [exact PE|exact NE|lia]|].
    rewrite R. cbn [bind]. eexists. eexists. split; [reflexivity|]. split; [|right; reflexivity]. apply de_cons; [constructor; assumption|constructor].
  - intros lines ct cte cd raw d b parts ns CT CTE CD TR (a & m & r & E & SN & _) PB MP _ IH fuel after h1 h2 h3 S1 S2 S3 EN B. destruct (need_more _ _ _ _ EN CT) as (f & -> & L).
    rewrite (body_view f raw after h1 h2 cte h3 d (S2 _ CTE) TR). specialize (S1 _ CT). destruct h1 as [es|]; [|contradiction]. cbn [read_as] in S1. cbv zeta.
    rewrite (typed _ _ _ _ _ E S1); cbn [ct_major ct_minor ct_boundary]. rewrite (is_yes _ _ SN). rewrite (param_read _ _ _ _ S1 PB). unfold do_multipart_by.
    assert (BS : boundary_string b).
    { destruct CT as (v & _ & LI). destruct PB as (pr & n & po & -> & _). apply (param_plain _ _ LI n). apply in_or_app. right. left. reflexivity. }
    destruct (parts_main b parts d BS MP) as (ps & SL & PI). destruct (order_main b d) as (ps' & e' & SL' & O1 & _). rewrite SL in SL'. apply Ok_inj in SL'. apply pair_equal_spec in SL'. destruct SL' as [<- _].
    rewrite SL. cbn [bind]. destruct (transfer_small isspc mktime A _ _ _ TR) as [LE SM].
    destruct (IH f d ps PI) as (atts & R & DE); [apply Forall_forall; intros p I; exact (proj1 (O1 p I))|lia|exact (SM B)|]. rewrite R. cbn [bind].
    eexists. eexists. split; [reflexivity|]. split; [exact DE|left; reflexivity].
  - intros f d offs M _ _ _. destruct offs; [|discriminate]. exists []. split; [reflexivity|constructor].
  - intros p ps lines body ns ms HD _ IH _ IHs f d offs M O L B. destruct offs as [|[i j] offs]; [discriminate|]. injection M as M1 M2. inversion O as [|? ? O1 O2]; subst. cbn [fst snd] in O1.
    destruct (IHs f d offs eq_refl O2 L B) as (atts2 & R2 & D2).
    assert (P : skipn i (d ++ [0]) = piece d (i, j) ++ skipn j (d ++ [0])).
    { unfold piece. cbn [fst snd]. rewrite <- (firstn_skipn (j - i) (skipn i (d ++ [0]))). f_equal.
      - rewrite skipn_app, firstn_app. replace (j - i - length (skipn i d))%nat with 0%nat by (rewrite skipn_length; lia). rewrite app_nil_r. reflexivity.
      - rewrite <- skip_add. f_equal. lia. }
    assert (LP : (length (piece d (i, j)) = j - i)%nat) by (unfold piece; cbn [fst snd]; rewrite firstn_length, skipn_length; lia).
    assert (BP : Forall (fun c => c < 256) (piece d (i, j))).
    { unfold piece. cbn [fst snd]. apply Forall_forall. intros c I. rewrite Forall_forall in B. apply B. rewrite <- (firstn_skipn i d). apply in_or_app. right. rewrite <- (firstn_skipn (j - i) (skipn i d)). apply in_or_app. left. exact I. }
    destruct (headed_view _ _ _ HD) as (_ & pre & PE & _ & NE).
    destruct (part_by _ lines body ns f (skipn j (d ++ [0])) HD IH BP) as (atts & R & DE); [apply (enough_inner (piece d (i, j)) pre); [exact PE|exact NE|lia]|].
    cbn [do_parts]. rewrite P, <- LP, R. cbn [bind]. rewrite R2. cbn [bind]. eexists. split; [reflexivity|]. apply depict_app; assumption.
Qed.
Lemma mime_main : forall data lines ns after, message isspc data lines ns -> Forall (fun c => c < 256) data ->
  exists h atts, data_to_rfc822 isspc mktime (data ++ after) (length data) = Ok (Some (Rfc822 h atts), DTR8_OK) /\ headers_of lines h /\ depict ns atts.
Proof.
  intros data lines ns after (body & HD & DT & EN) B. unfold data_to_rfc822. destruct (headed_view _ _ _ HD) as (_ & pre & PE & _ & NE).
  apply (message_by data lines body ns _ after HD DT (tree_ok _ _ _ EN) B). apply (enough_inner data pre); [exact PE|exact NE|lia].
Qed.
End Tree.
