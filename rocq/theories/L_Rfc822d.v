(* The header of a whole message, and its date. *)
From Verif Require Import Base M_Tokens M_Decode M_Header M_Words M_Nvp M_Rfc822 S_Header S_Words S_Rfc822 L_Header L_TokTable L_Words3 L_Multipart2 L_Output3 L_Rfc822 L_Rfc822b L_Rfc822c.
Local Open Scope N_scope.

Lemma last_in : forall (s : bytes), s <> [] -> In (last s 0) s.
Proof. intros s NE. destruct (exists_last NE) as (u & d & E). rewrite E, last_last. apply in_or_app. right. left. reflexivity. Qed.
Lemma unfolded_c : forall isspc f, field_ok isspc f -> Forall (fun c => c < 256) (folded f) -> c_string (unfolded f).
Proof.
  intros isspc f ((N1 & Z1) & _ & M) B. apply Forall_forall. intros c I.
  assert (X : In c (folded f) /\ c <> 0).
  { unfold unfolded in I. apply in_app_or in I. destruct I as [I|I].
    - split; [unfold folded; apply in_or_app; left; exact I|]. intros ->. auto.
    - apply in_concat in I. destruct I as (y & Y & I). apply in_map_iff in Y. destruct Y as (x & <- & X). rewrite Forall_forall in M.
      destruct (M _ X) as ((_ & Z2) & (_ & Z3) & NE & _ & _).
      assert (W : In c (fst x ++ snd x)).
      { destruct I as [<-|I]; apply in_or_app; [left; exact (last_in _ NE)|right; exact I]. }
      split.
      + unfold folded. apply in_or_app. right. apply in_or_app. right. apply in_concat. exists (fst x ++ snd x ++ [10]). split; [apply in_map_iff; exists x; auto|]. rewrite app_assoc. apply in_or_app. left. exact W.
      + intros ->. apply in_app_or in W. tauto. }
  destruct X as [X1 X2]. rewrite Forall_forall in B. specialize (B _ X1). unfold c_char. lia.
Qed.
Lemma lines_c : forall isspc fs e, Forall (field_ok isspc) fs -> Forall (fun c => c < 256) (concat (map folded fs) ++ e) -> Forall c_string (map unfolded fs).
Proof.
  intros isspc fs e F B. apply Forall_app in B. destruct B as [B _]. induction F as [|f fs A F IH]; [apply Forall_nil|]. cbn [map concat] in *. apply Forall_app in B. destruct B as [B1 B2].
  apply Forall_cons; [exact (unfolded_c _ _ A B1)|exact (IH B2)].
Qed.

Section Message.
Variable isspc : N -> bool.
Variable mktime : Z -> Z -> Z -> Z.
Hypothesis A : forall c, c < 128 -> isspc c = isspace c.

Lemma message_inv : forall mem len h atts err, data_to_rfc822 isspc mktime mem len = Ok (Some (Rfc822 h atts), err) ->
  exists lines rest st, split_and_splice_header isspc (firstn len mem) = Ok (Some (lines, rest)) /\ header_entries isspc mktime start lines = Ok st /\ h = hs st.
Proof.
  intros mem len h atts err H. unfold data_to_rfc822, data_to_rfc822_by in H. destruct (split_and_splice_header isspc (firstn len mem)) as [[[lines rest]|]|] eqn:E; try discriminate. cbn [bind] in H.
  destruct (header_entries isspc mktime _ lines) as [st|] eqn:F; [|discriminate]. cbn [bind] in H. destruct (do_body _ _ _ _ _ _ _ _) as [[a e]|]; [|discriminate]. cbn [bind] in H.
  injection H as <- _ _. exists lines, rest, st. auto.
Qed.
Lemma headers_main : forall fs e body after h atts err, header_ok isspc fs -> ends isspc e body -> let data := concat (map folded fs) ++ e in
  Forall (fun c => c < 256) data -> data_to_rfc822 isspc mktime (data ++ after) (length data) = Ok (Some (Rfc822 h atts), err) -> headers_of (map unfolded fs) h.
Proof.
  intros fs e body after h atts err HO EN data B H. destruct (message_inv _ _ _ _ _ H) as (lines & rest & st & S & T & ->).
  rewrite firstn_app, firstn_all, Nat.sub_diag, app_nil_r in S.
  assert (S2 : split_and_splice_header isspc data = Ok (Some (map unfolded fs, body))) by (apply (header_main isspc A); exists fs, e; auto).
  rewrite S2 in S. injection S as <- <-. apply (entries_headers isspc mktime); [|exact T]. apply (lines_c isspc _ e (proj1 HO) B).
Qed.

(* dates *)
Lemma skip_all : forall p s t, Forall (fun c => p c = true) s -> match t with c :: _ => p c = false | [] => True end -> skip_while p (s ++ t) = t.
Proof.
  intros p s t F N. induction F as [|c s C F IH]; cbn [app].
  - destruct t as [|c t]; [reflexivity|]. cbn [skip_while]. rewrite N. reflexivity.
  - cbn [skip_while]. rewrite C. exact IH.
Qed.
Lemma digits_val : forall ds t a, Forall (fun c => 48 <= c <= 57) ds -> match t with c :: _ => isdigit c = false | [] => True end ->
  digits_value (ds ++ t) a = fold_left (fun a c => (a * 10 + (Z.of_N c - 48))%Z) ds a.
Proof.
  intros ds t a F N. revert a. induction F as [|c ds C F IH]; intros a; cbn [app].
  - destruct t as [|c t]; [reflexivity|]. cbn [digits_value]. rewrite N. reflexivity.
  - cbn [digits_value fold_left]. assert (D : isdigit c = true) by (unfold isdigit; apply andb_true_iff; split; apply N.leb_le; lia). rewrite D. apply IH.
Qed.
Lemma digit_is : forall c, 48 <= c <= 57 -> isdigit c = true /\ isspc c = false.
Proof.
  intros c H. split; [unfold isdigit; apply andb_true_iff; split; apply N.leb_le; lia|]. rewrite A by lia. unfold isspace.
  repeat (apply orb_false_iff; split); try (apply N.eqb_neq; lia); apply andb_false_iff; first [right; apply N.leb_gt; lia | left; apply N.leb_gt; lia].
Qed.
Lemma months_ok : forall names mon s i j, Forall (fun n => length n = 3%nat) names -> nth_error names i = Some (map tolower mon) -> NoDup names -> month_number names (mon ++ s) j = Some (j + Z.of_nat i)%Z.
Proof.
  induction names as [|n names IH]; intros mon s i j L N D; [destruct i; discriminate|]. cbn [month_number].
  assert (L3 : length mon = 3%nat).
  { rewrite <- (map_length tolower). apply nth_error_In in N. rewrite Forall_forall in L. exact (L _ N). }
  assert (ME : forall r m t, length r = length m -> match_string r (m ++ t) = bytes_eqb r (map tolower m)).
  { induction r as [|a r IHr]; intros [|c m] t Q; try discriminate; [reflexivity|]. cbn [app match_string map bytes_eqb]. rewrite IHr by (injection Q; auto). rewrite N.eqb_sym. reflexivity. }
  rewrite ME by (rewrite L3; exact (Forall_inv L)). destruct i as [|i].
  - injection N as ->. rewrite bytes_eqb_refl. f_equal. lia.
  - cbn [nth_error] in N. inversion D; subst. destruct (bytes_eqb n (map tolower mon)) eqn:E.
    + apply bytes_eqb_eq in E. subst n. exfalso. apply H1. apply (nth_error_In _ _ N).
    + rewrite (IH mon s i _ (Forall_inv_tail L) N H2). f_equal. lia.
Qed.
Lemma tolower_alpha : forall c, 97 <= tolower c <= 122 -> isspc c = false /\ isdigit c = false /\ c <> 44.
Proof.
  intros c H. assert (R : 65 <= c <= 122).
  { unfold tolower, isupper in H. destruct ((65 <=? c) && (c <=? 90)) eqn:E; [apply andb_true_iff in E; destruct E as [E1 E2]; apply N.leb_le in E1, E2; lia|lia]. }
  split; [|split; [unfold isdigit; apply andb_false_iff; right; apply N.leb_gt; lia|lia]]. rewrite A by lia. unfold isspace.
  repeat (apply orb_false_iff; split); try (apply N.eqb_neq; lia); apply andb_false_iff; first [right; apply N.leb_gt; lia | left; apply N.leb_gt; lia].
Qed.
Lemma comma_none : forall s, ~ In 44 s -> after_comma s = None.
Proof.
  induction s as [|c s IH]; intros H; [reflexivity|]. cbn [after_comma]. destruct (c =? 44) eqn:E; [apply N.eqb_eq in E; subst c; exfalso; apply H; left; reflexivity|].
  apply IH. intros G. apply H. right. exact G.
Qed.
Lemma comma_some : forall w s, ~ In 44 w -> after_comma (w ++ 44 :: s) = Some s.
Proof.
  induction w as [|c w IH]; intros s H; [reflexivity|]. cbn [app after_comma]. destruct (c =? 44) eqn:E; [apply N.eqb_eq in E; subst c; exfalso; apply H; left; reflexivity|].
  apply IH. intros G. apply H. right. exact G.
Qed.
Definition no_start (p : N -> bool) (s : bytes) : Prop := match s with c :: _ => p c = false | [] => True end.
Lemma space_start : forall p sp t, Forall (fun c => isspc c = true) sp -> (forall c, isspc c = true -> p c = false) -> no_start p t -> no_start p (sp ++ t).
Proof. intros p sp t F H N. destruct F as [|c sp C F]; [exact N|]. exact (H c C). Qed.
Lemma digit_start : forall p ds t, digits ds -> (forall c, 48 <= c <= 57 -> p c = false) -> no_start p (ds ++ t).
Proof. intros p ds t [N F] H. destruct F as [|c ds C F]; [congruence|]. exact (H c C). Qed.
Lemma date_main : forall v y m d, dated isspc v y m d -> parse_rfc822_date isspc mktime v = Ok (mktime (y - 1900) m d)%Z.
Proof.
  intros v y m d D. destruct D as [pre sp1 dd sp2 mon i more sp3 yy sp4 rest P SP DD D31 M MO S3 YY Y31 S4 R].
  apply Forall_app in SP. destruct SP as [F1 SP]. apply Forall_app in SP. destruct SP as [F2 SP]. apply Forall_app in SP. destruct SP as [F3 F4].
  assert (L3 : exists a r, mon = a :: r /\ Forall (fun c => isspc c = false) mon /\ isdigit a = false).
  { assert (AL : Forall (fun c => 97 <= tolower c <= 122) mon).
    { rewrite <- Forall_map with (P := fun c => 97 <= c <= 122). apply nth_error_In in M. assert (G : Forall (Forall (fun c => 97 <= c <= 122)) month_abbreviations) by (repeat constructor; vm_compute; discriminate).
      rewrite Forall_forall in G. exact (G _ M). }
    destruct mon as [|a r]; [apply nth_error_In in M; cbn in M; intuition discriminate|]. exists a, r. split; [reflexivity|]. split.
    - apply Forall_forall. intros c I. rewrite Forall_forall in AL. exact (proj1 (tolower_alpha c (AL c I))).
    - exact (proj1 (proj2 (tolower_alpha a (Forall_inv AL)))). }
  destruct L3 as (a & r & EM & SM & DM).
  assert (SD : forall c, isspc c = true -> isdigit c = false).
  { intros c C. destruct (isdigit c) eqn:E; [|reflexivity]. unfold isdigit in E. apply andb_true_iff in E. destruct E as [E1 E2]. apply N.leb_le in E1, E2.
    rewrite (proj2 (digit_is c (conj E1 E2))) in C. discriminate. }
  assert (DS : forall c, 48 <= c <= 57 -> isspc c = false) by (intros c C; exact (proj2 (digit_is c C))).
  destruct R as (rc & rr & RE & RS).
  unfold parse_rfc822_date.
  match goal with |- context [pre ++ ?t] => set (tl := t) end.
  assert (CO : match after_comma (pre ++ tl) with Some s => s | None => pre ++ tl end = tl).
  { destruct P as [[-> P]|(w & -> & P)]; [cbn [app]; rewrite comma_none by exact P; reflexivity|]. rewrite <- app_assoc. cbn [app]. rewrite comma_some by exact P. reflexivity. }
  rewrite CO. unfold tl. clear CO P tl.
  rewrite (skip_all isspc sp1) by (first [exact F1|apply digit_start; assumption]).
  assert (NM : no_start isdigit (sp2 ++ mon ++ more ++ sp3 ++ yy ++ sp4 ++ rest)) by (apply space_start; [exact F2|exact SD|rewrite EM; exact DM]).
  assert (HD : forall ds t, digits ds -> exists c u, ds ++ t = c :: u /\ isdigit c = true).
  { intros ds t [N F]. destruct F as [|c ds C F]; [congruence|]. exists c, (ds ++ t). split; [reflexivity|]. exact (proj1 (digit_is c C)). }
  assert (AT : forall ds t, digits ds -> no_start isdigit t -> (number ds < 2 ^ 31)%Z -> atoi (ds ++ t) = Ok (number ds)).
  { intros ds t [N F] G L. unfold atoi. rewrite (digits_val ds t 0 F G). fold (number ds). destruct (number ds <? 2147483648)%Z eqn:E; [reflexivity|]. apply Z.ltb_ge in E. change (2 ^ 31)%Z with 2147483648%Z in L. lia. }
  assert (SKD : forall ds t, digits ds -> no_start isdigit t -> skip_while isdigit (ds ++ t) = t).
  { intros ds t [N F] G. apply skip_all; [|exact G]. apply Forall_forall. intros c I. rewrite Forall_forall in F. exact (proj1 (digit_is c (F c I))). }
  destruct (HD dd (sp2 ++ mon ++ more ++ sp3 ++ yy ++ sp4 ++ rest) DD) as (c1 & u1 & E1 & C1). rewrite E1 at 1. rewrite C1. cbn [negb].
  rewrite (AT dd) by (first [exact DD|exact NM|lia]). cbn [bind]. destruct (31 <? number dd)%Z eqn:G31; [apply Z.ltb_lt in G31; lia|].
  rewrite (SKD dd) by assumption. rewrite (skip_all isspc sp2) by (first [exact F2|rewrite EM; rewrite EM in SM; exact (Forall_inv SM)]).
  rewrite (months_ok month_names mon _ i 0) by (first [exact M|repeat constructor; cbn; intuition discriminate]).
  rewrite (app_assoc mon more). rewrite (skip_all (fun c => negb (isspc c)) (mon ++ more)).
  2:{ apply Forall_app. split; apply Forall_forall; intros c I; [rewrite Forall_forall in SM; rewrite (SM c I)|rewrite Forall_forall in MO; rewrite (MO c I)]; reflexivity. }
  2:{ destruct F3 as [|c sp3 C F3]; [congruence|]. cbn [app]. rewrite C. reflexivity. }
  rewrite (skip_all isspc sp3) by (first [exact F3|apply digit_start; assumption]).
  assert (NY : no_start isdigit (sp4 ++ rest)) by (destruct F4 as [|c sp4 C F4]; [congruence|]; exact (SD c C)).
  destruct (HD yy (sp4 ++ rest) YY) as (c2 & u2 & E2 & C2). rewrite E2 at 1. rewrite C2. cbn [negb].
  rewrite (AT yy) by (first [exact YY|exact NY|lia]). cbn [bind]. rewrite (SKD yy) by assumption.
  rewrite (skip_all isspc sp4) by (first [exact F4|rewrite RE; exact RS]). rewrite RE. apply (f_equal Ok). f_equal.
  - unfold full_year. destruct (number yy <? 70)%Z eqn:Q; [lia|]. destruct (1900 <=? number yy)%Z eqn:Q2, (number yy <? 1900)%Z eqn:Q3; try lia.
Qed.
Lemma message_date : forall fs e body after h atts err, header_ok isspc fs -> ends isspc e body -> let data := concat (map folded fs) ++ e in
  Forall (fun c => c < 256) data -> data_to_rfc822 isspc mktime (data ++ after) (length data) = Ok (Some (Rfc822 h atts), err) ->
  match values "date" (map unfolded fs) with
  | [] => h_date h = 0%Z
  | v :: _ => forall r y m d, reads v r -> ~ In 0 r -> dated isspc r y m d -> (mktime (y - 1900) m d)%Z <> 0%Z -> h_date h = (mktime (y - 1900) m d)%Z
  end.
Proof.
  intros fs e body after h atts err HO EN data B H. destruct (message_inv _ _ _ _ _ H) as (lines & rest & st & S & T & ->).
  rewrite firstn_app, firstn_all, Nat.sub_diag, app_nil_r in S.
  assert (S2 : split_and_splice_header isspc data = Ok (Some (map unfolded fs, body))) by (apply (header_main isspc A); exists fs, e; auto).
  rewrite S2 in S. injection S as <- <-.
  pose proof (values_c "date" _ (lines_c isspc _ e (proj1 HO) B)) as C.
  destruct (steps_ok _ _ _ _ _ T) as (_ & _ & _ & _ & _ & _ & _ & _ & D & _). destruct D as [_ D]. specialize (D eq_refl).
  destruct (values "date" (map unfolded fs)) as [|v vs]; [exact D|]. intros r y m d R Z DT N. destruct D as (r' & d' & D1 & D2 & D3).
  rewrite (decoded_shown _ _ (Forall_inv C) D1 r R Z) in D2. rewrite (date_main _ _ _ _ DT) in D2. apply Ok_inj in D2. subst d'. exact (D3 N).
Qed.
End Message.

(* Concrete cases. *)
Definition ex_date : bytes := bs " Mon, 16 Nov 2026 12:00:00 +0000".
Lemma ex_dated : dated isspace ex_date 2026 10 16.
Proof.
  change ex_date with (bs " Mon," ++ bs " " ++ bs "16" ++ bs " " ++ bs "Nov" ++ [] ++ bs " " ++ bs "2026" ++ bs " " ++ bs "12:00:00 +0000").
  refine (dated_intro isspace _ _ (bs "16") _ (bs "Nov") 10 [] _ (bs "2026") _ _ _ _ _ _ _ _ _ _ _ _ _).
  - right. exists (bs " Mon"). split; [reflexivity|]. cbn. intuition discriminate.
  - repeat constructor.
  - split; [discriminate|]. repeat constructor; vm_compute; discriminate.
  - vm_compute. discriminate.
  - reflexivity.
  - apply Forall_nil.
  - discriminate.
  - split; [discriminate|]. repeat constructor; vm_compute; discriminate.
  - vm_compute. reflexivity.
  - discriminate.
  - eexists. eexists. split; [cbn; reflexivity|reflexivity].
Qed.
Lemma comment_main : forall mktime, exists v y m d comment, dated isspace v y m d /\ comment = bs " (a, b)" /\ parse_rfc822_date isspace mktime v = Ok (mktime (y - 1900) m d)%Z /\
  parse_rfc822_date isspace mktime (v ++ comment) = Ok (-1)%Z.
Proof.
  intros mktime. exists (bs "16 Nov 2026 12:00:00 +0000"), 2026%Z, 10%Z, 16%Z, (bs " (a, b)").
  assert (D : dated isspace (bs "16 Nov 2026 12:00:00 +0000") 2026 10 16).
  { change (bs "16 Nov 2026 12:00:00 +0000") with ([] ++ [] ++ bs "16" ++ bs " " ++ bs "Nov" ++ [] ++ bs " " ++ bs "2026" ++ bs " " ++ bs "12:00:00 +0000").
    refine (dated_intro isspace _ _ (bs "16") _ (bs "Nov") 10 [] _ (bs "2026") _ _ _ _ _ _ _ _ _ _ _ _ _).
    - left. split; [reflexivity|]. cbn. intuition discriminate.
    - repeat constructor.
    - split; [discriminate|]. repeat constructor; vm_compute; discriminate.
    - vm_compute. discriminate.
    - reflexivity.
    - apply Forall_nil.
    - discriminate.
    - split; [discriminate|]. repeat constructor; vm_compute; discriminate.
    - vm_compute. reflexivity.
    - discriminate.
    - eexists. eexists. split; [cbn; reflexivity|reflexivity]. }
  split; [exact D|]. split; [reflexivity|]. split; [apply date_main; [reflexivity|exact D]|vm_compute; reflexivity].
Qed.
Lemma overflow_main : forall mktime, exists data, Forall (fun c => 0 < c < 256) data /\ data_to_rfc822 isspace mktime data (length data) = Err E_ub.
Proof.
  intros mktime. exists (bs "Date: 9999999999 Nov 2026 12:00" ++ [10; 10]). split; [apply Forall_forall; intros c I; vm_compute in I; intuition (subst; vm_compute; auto)|].
  vm_compute. reflexivity.
Qed.
Definition ex_fields : list field :=
  [ {| first := bs "From joe@here Mon Nov 16 12:00:00 2026"; more := [] |};
    {| first := bs "To: a@b"; more := [] |};
    {| first := bs "Subject: one"; more := [(bs "  ", bs "=?utf-8?Q?two?=")] |};
    {| first := bs "TO: c@d"; more := [] |};
    {| first := bs "Date: Mon, 16 Nov 2026 12:00:00 +0000"; more := [] |};
    {| first := bs "X-Status: A"; more := [] |};
    {| first := bs "Status: RO"; more := [] |};
    {| first := bs "Subject: late"; more := [] |} ].
Definition ex_data : bytes := concat (map folded ex_fields) ++ [10] ++ bs "body".
Definition ex_mktime (y m d : Z) : Z := ((y * 12 + m) * 31 + d)%Z.
Lemma ex_fields_values : values "to" (map unfolded ex_fields) = [bs " a@b"; bs " c@d"] /\ values "subject" (map unfolded ex_fields) = [bs " one =?utf-8?Q?two?="; bs " late"].
Proof. split; vm_compute; reflexivity. Qed.
Lemma ex_data_parsed : data_to_rfc822 isspace ex_mktime ex_data (length ex_data) = Ok (Some (Rfc822
  {| h_to := Some (bs " a@b,  c@d"); h_cc := None; h_from := None; h_subject := Some (bs " one two"); h_message_id := None; h_in_reply_to := None; h_references := None;
     h_seen := true; h_replied := true; h_flagged := false; h_date := ex_mktime 126 10 16 |} [(None, B_plain (bs "body"))]), DTR8_OK).
Proof. vm_compute. reflexivity. Qed.

(* a test for header_ok *)
Definition from_b (s : bytes) : bool := prefix (bs "From ") s || prefix (bs ">From ") s.
Definition line_b (s : bytes) : bool := forallb (fun c => negb (c =? 10) && negb (c =? 0)) s.
Definition more_b (x : bytes * bytes) : bool :=
  line_b (fst x) && line_b (snd x) && match fst x with [] => false | _ => true end && forallb isspace (fst x) && match snd x with c :: _ => negb (isspace c) | [] => false end.
Definition field_b (f : field) : bool :=
  line_b (first f) && (if from_b (first f) then match more f with [] => true | _ => false end else word_colon isspace (first f) false) && forallb more_b (more f).
Lemma line_b_ok : forall s, line_b s = true -> in_line s.
Proof.
  intros s H. unfold line_b in H. rewrite forallb_forall in H. split; intros I; specialize (H _ I); discriminate.
Qed.
Lemma prefix_from : forall s, from_b s = true <-> from_line s.
Proof.
  intros s. unfold from_b, from_line. rewrite orb_true_iff. split.
  - intros [H|H]; destruct (L_Multipart.prefix_inv _ _ H) as [y E]; exists y; [left|right]; exact E.
  - intros (r & [->| ->]); [left|right]; apply L_Multipart.prefix_app.
Qed.
Lemma fields_ok : forall fs, forallb field_b fs = true -> header_ok isspace fs.
Proof.
  intros fs H. rewrite forallb_forall in H. split.
  - apply Forall_forall. intros f I. specialize (H _ I). unfold field_b in H. apply andb_true_iff in H. destruct H as [H M]. apply andb_true_iff in H. destruct H as [L F].
    split; [apply line_b_ok; exact L|]. split.
    + destruct (from_b (first f)) eqn:E; [left; apply prefix_from; exact E|]. right. apply (named_ok isspace (fun c _ => eq_refl)). exact F.
    + apply Forall_forall. intros x X. rewrite forallb_forall in M. specialize (M _ X). unfold more_b in M. rewrite !andb_true_iff in M. destruct M as ((((M1 & M2) & M3) & M4) & M5).
      split; [apply line_b_ok; exact M1|]. split; [apply line_b_ok; exact M2|]. split; [destruct (fst x); [discriminate|discriminate]|]. split; [apply Forall_forall; rewrite forallb_forall in M4; exact M4|].
      destruct (snd x) as [|c t]; [discriminate|]. exists c, t. split; [reflexivity|]. apply negb_true_iff. exact M5.
  - intros a f b E Q. assert (I : In f fs) by (rewrite E; apply in_or_app; right; left; reflexivity). specialize (H _ I). unfold field_b in H. apply andb_true_iff in H. destruct H as [H _]. apply andb_true_iff in H. destruct H as [_ H].
    apply Forall_app in Q. destruct Q as [_ Q]. rewrite (proj2 (prefix_from _) (Forall_inv Q)) in H. destruct (more f); [reflexivity|discriminate].
Qed.
Lemma ex_fields_ok : header_ok isspace ex_fields /\ ends isspace ([10] ++ bs "body") (bs "body") /\ Forall (fun c => c < 256) ex_data.
Proof.
  split; [apply fields_ok; vm_compute; reflexivity|]. split; [apply (ends_blank isspace []); [apply Forall_nil|intros []]|].
  apply Forall_forall. intros c I. assert (B : forallb (fun c => c <? 256) ex_data = true) by (vm_compute; reflexivity). rewrite forallb_forall in B. apply N.ltb_lt. exact (B _ I).
Qed.
