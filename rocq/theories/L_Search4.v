(* Reading the arguments as the user spelt them, and the whole search. *)
From Verif Require Import Base L_Bits M_Encoding M_TokTable S_TokTable M_DbFile S_DbFile M_WuManber S_Match M_Search S_Search
  L_Encoding L_Encoding2 L_TokTable L_TokTable2 L_DbFile L_DbFile2 L_DbFile3 L_DbFile4 L_DbFile5 L_WuManber L_Search L_Search2 L_Search3.
Local Open Scope N_scope.

Lemma split_at_app c a b : ~ In c a -> split_at c (a ++ c :: b) = Some (a, b).
Proof.
  induction a as [|x a IH]; intros H; cbn [app split_at]; [now rewrite N.eqb_refl|].
  destruct (x =? c) eqn:E; [apply N.eqb_eq in E; subst; exfalso; apply H; now left|]. rewrite IH; [reflexivity|]. intros X. apply H. now right.
Qed.
Lemma split_at_none c a : ~ In c a -> split_at c a = None.
Proof.
  induction a as [|x a IH]; intros H; cbn [split_at]; [reflexivity|].
  destruct (x =? c) eqn:E; [apply N.eqb_eq in E; subst; exfalso; apply H; now left|]. rewrite IH; [reflexivity|]. intros X. apply H. now right.
Qed.
Lemma split_at_late c a s b rb : ~ In c a -> split_at c (a ++ s) = Some (b, rb) -> (length a <= length b)%nat.
Proof.
  revert b. induction a as [|x a IH]; intros b H E; [cbn; lia|]. cbn [app split_at] in E.
  destruct (x =? c) eqn:EX; [apply N.eqb_eq in EX; subst; exfalso; apply H; now left|].
  destruct (split_at c (a ++ s)) as [[b' rb']|] eqn:ES; [|discriminate]. injection E as <- <-. cbn [length].
  assert (length a <= length b')%nat by (apply (IH b'); [intros X; apply H; now right|congruence]). lia.
Qed.

(* ---- spelling of a term ---- *)
Definition clean (c : N) : Prop := c <> 44 /\ c <> 47 /\ c <> 58 /\ isspace c = false.
Lemma digit_range c : isdigit c = true -> 48 <= c <= 57.
Proof. unfold isdigit. intros H. apply andb_true_iff in H as [A B]. apply N.leb_le in A, B. lia. Qed.
Lemma digit_clean c : isdigit c = true -> clean c /\ c <> 61 /\ c <> 45 /\ c <> 43.
Proof.
  intros H. apply digit_range in H. unfold clean, isspace.
  assert ((c =? 32) = false) by (apply N.eqb_neq; lia). assert ((c <=? 13) = false) by (apply N.leb_gt; lia). rewrite H0, H1, andb_false_r. cbn. repeat split; lia.
Qed.
Lemma clean_term t : term_ok t -> Forall clean (show_term t).
Proof.
  intros (T1 & T2 & T3). unfold show_term. apply Forall_app. split; [destruct (s_not t); repeat constructor; discriminate|].
  apply Forall_app. split; [destruct (s_anchor t); repeat constructor; discriminate|]. apply Forall_app. split.
  - eapply Forall_impl; [|exact T1]. intros a (A1 & A2 & A3 & A4 & A5 & A6). unfold clean. auto.
  - destruct (s_like t) as [ds|]; [|constructor]. destruct T3 as (D & _). apply Forall_app. split; [repeat constructor; discriminate|].
    eapply Forall_impl; [|exact D]. intros a Ha. now apply digit_clean.
Qed.
Lemma clean_not c s : Forall clean s -> c = 44 \/ c = 47 \/ c = 58 -> ~ In c s.
Proof. intros H HC HI. rewrite Forall_forall in H. destruct (H c HI) as (A & B & C & _). intuition. Qed.
Lemma strip_clean s : Forall clean s -> strip s = s.
Proof.
  unfold strip. induction 1 as [|c s (_ & _ & _ & H) _ IH]; [reflexivity|]. cbn [filter]. rewrite H. cbn [negb]. now rewrite IH.
Qed.
Lemma digits_all ds : digit_string ds -> digits ds = (ds, []).
Proof. induction 1 as [|c ds H _ IH]; [reflexivity|]. cbn [digits]. rewrite H, IH. reflexivity. Qed.
Lemma digits_stop ds c s : digit_string ds -> isdigit c = false -> digits (ds ++ c :: s) = (ds, c :: s).
Proof. intros H HC. induction H as [|d ds H _ IH]; cbn [app digits]; [now rewrite HC|]. rewrite H, IH. reflexivity. Qed.
Lemma scan_int_digits ds rest : ds <> [] -> digit_string ds -> digits (ds ++ rest) = (ds, rest) -> number ds < 2 ^ 31 ->
  scan_int (ds ++ rest) = Ok (Some (Z.of_N (number ds), rest)).
Proof.
  intros HN HD HS HL. destruct ds as [|d ds]; [congruence|]. inversion HD as [|? ? H1 H2]; subst.
  destruct (digit_clean d H1) as ((_ & _ & _ & NS) & _ & N1 & N2).
  unfold scan_int. cbn [app skip_space]. rewrite NS. destruct (d =? 45) eqn:E1; [apply N.eqb_eq in E1; lia|].
  destruct (d =? 43) eqn:E2; [apply N.eqb_eq in E2; lia|]. cbn [app] in HS. rewrite HS.
  change (dec (d :: ds)) with (number (d :: ds)). set (v := number (d :: ds)) in *. change (2 ^ 31) with 2147483648 in HL.
  destruct ((Z.of_N v <? - 2 ^ 31) || (2 ^ 31 <=? Z.of_N v))%Z eqn:E; [|reflexivity].
  apply orb_true_iff in E. change (2 ^ 31)%Z with 2147483648%Z in E. destruct E as [E|E]; [apply Z.ltb_lt in E|apply Z.leb_le in E]; lia.
Qed.
Lemma parse_term_show t : term_ok t -> parse_term (show_term t) = Ok (model_term t).
Proof.
  intros (T1 & T2 & T3). unfold parse_term, show_term, model_term.
  assert (NEQ : ~ In 61 (s_text t)).
  { intros H. rewrite Forall_forall in T1. destruct (T1 61 H) as (_ & _ & _ & X & _). now apply X. }
  assert (G : forall ng an, match split_at 61 (s_text t ++ match s_like t with Some ds => bs "=" ++ ds | None => [] end) with
    | Some (v, rest) => match rest with
        | [] => Ok {| neg := ng; anc := an; txt := v; errs := Some 0%Z |}
        | c :: _ => if isdigit c then let! o := scan_int rest in
             Ok {| neg := ng; anc := an; txt := v; errs := Some match o with Some (e, _) => e | None => 0%Z end |}
           else Ok {| neg := ng; anc := an; txt := s_text t ++ match s_like t with Some ds => bs "=" ++ ds | None => [] end; errs := None |} end
    | None => Ok {| neg := ng; anc := an; txt := s_text t ++ match s_like t with Some ds => bs "=" ++ ds | None => [] end; errs := None |} end =
    Ok {| neg := ng; anc := an; txt := s_text t; errs := option_map (fun ds => Z.of_N (number ds)) (s_like t) |}).
  { intros ng an. destruct (s_like t) as [ds|]; cbn [option_map].
    - change (bs "=" ++ ds) with (61 :: ds). rewrite split_at_app by assumption. destruct T3 as (D1 & D2 & D3 & D4).
      destruct ds as [|d ds]; [reflexivity|]. inversion D1 as [|? ? X1 X2]; subst. rewrite X1.
      pose proof (scan_int_digits (d :: ds) [] ltac:(discriminate) D1) as SI. rewrite app_nil_r in SI. rewrite SI; [reflexivity|now apply digits_all|assumption].
    - rewrite app_nil_r. rewrite split_at_none by assumption. reflexivity. }
  set (tail := match s_like t with Some ds => bs "=" ++ ds | None => [] end) in *.
  assert (HEAD : forall c s, s_text t ++ tail = c :: s -> c <> 126 /\ c <> 94).
  { intros c s H. destruct (s_text t) as [|x l] eqn:EX.
    - unfold tail in H. destruct (s_like t); [|discriminate]. injection H as <- _. split; discriminate.
    - injection H as <- _. apply (T2 x l eq_refl). }
  assert (A1 : take_char 94 (s_text t ++ tail) = (false, s_text t ++ tail)).
  { unfold take_char. destruct (s_text t ++ tail) as [|c s] eqn:E; [reflexivity|]. destruct (HEAD c s eq_refl) as [_ H].
    destruct (c =? 94) eqn:X; [apply N.eqb_eq in X; congruence|reflexivity]. }
  assert (A2 : take_char 126 (s_text t ++ tail) = (false, s_text t ++ tail)).
  { unfold take_char. destruct (s_text t ++ tail) as [|c s] eqn:E; [reflexivity|]. destruct (HEAD c s eq_refl) as [H _].
    destruct (c =? 126) eqn:X; [apply N.eqb_eq in X; congruence|reflexivity]. }
  assert (A3 : forall w, take_char 126 (bs "~" ++ w) = (true, w)) by reflexivity.
  assert (A4 : forall w, take_char 94 (bs "^" ++ w) = (true, w)) by reflexivity.
  assert (A5 : forall w, take_char 126 (bs "^" ++ w) = (false, bs "^" ++ w)) by reflexivity.
  destruct (s_not t), (s_anchor t).
  - rewrite A3, A4. apply G.
  - rewrite A3. cbn [app]. rewrite A1. apply G.
  - cbn [app]. rewrite A5, A4. apply G.
  - cbn [app]. rewrite A2, A1. apply G.
Qed.

(* ---- spelling of alternatives ---- *)
Lemma join_pre sep x z l : join sep ((x ++ z) :: l) = x ++ join sep (z :: l).
Proof. destruct l as [|y l]; cbn [join]; [reflexivity|now rewrite <- app_assoc]. Qed.
Lemma show_and t ts rest : ts <> [] -> show_alternatives ((t :: ts) :: rest) = show_term t ++ 44 :: show_alternatives (ts :: rest).
Proof.
  intros H. unfold show_alternatives. cbn [map]. destruct ts as [|t' ts]; [congruence|]. cbn [map].
  change (join (bs ",") (show_term t :: show_term t' :: map show_term ts)) with (show_term t ++ bs "," ++ join (bs ",") (show_term t' :: map show_term ts)).
  rewrite join_pre. f_equal. change (bs "," ++ ?x) with (44 :: x). 
  change (44 :: join (bs ",") (show_term t' :: map show_term ts)) with ([44] ++ join (bs ",") (show_term t' :: map show_term ts)). rewrite join_pre. reflexivity.
Qed.
Lemma show_or t rest : rest <> [] -> show_alternatives ([t] :: rest) = show_term t ++ 47 :: show_alternatives rest.
Proof. intros H. destruct rest as [|ts rest]; [congruence|]. reflexivity. Qed.
Lemma show_one t : show_alternatives [[t]] = show_term t. Proof. reflexivity. Qed.

Lemma next_one t : term_ok t -> next_word (show_alternatives [[t]]) = (show_term t, [], false).
Proof.
  intros H. pose proof (clean_term t H) as C. rewrite show_one. unfold next_word. rewrite !split_at_none; [reflexivity| |]; apply clean_not; auto.
Qed.
Lemma next_and t ts rest : term_ok t -> ts <> [] ->
  next_word (show_alternatives ((t :: ts) :: rest)) = (show_term t, show_alternatives (ts :: rest), false).
Proof.
  intros H HT. pose proof (clean_term t H) as C. rewrite show_and by assumption. unfold next_word. rewrite split_at_app by (apply clean_not; auto).
  rewrite (strip_clean _ C).
  destruct (split_at 47 (show_term t ++ 44 :: show_alternatives (ts :: rest))) as [[b rb]|] eqn:E; [|reflexivity].
  assert (L : (length (show_term t ++ [44%N]) <= length b)%nat).
  { eapply split_at_late with (c := 47); [|rewrite <- app_assoc; exact E]. intros X. apply in_app_iff in X as [X|[X|[]]]; [|discriminate].
    revert X. apply clean_not; auto. }
  rewrite app_length in L. cbn [length] in L. destruct (length (show_term t) <? length b)%nat eqn:B; [reflexivity|]. apply Nat.ltb_ge in B. lia.
Qed.
Lemma next_or t rest : term_ok t -> rest <> [] ->
  next_word (show_alternatives ([t] :: rest)) = (show_term t, show_alternatives rest, true).
Proof.
  intros H HT. pose proof (clean_term t H) as C. rewrite show_or by assumption. unfold next_word.
  rewrite (split_at_app 47) by (apply clean_not; auto). rewrite (strip_clean _ C).
  destruct (split_at 44 (show_term t ++ 47 :: show_alternatives rest)) as [[b rb]|] eqn:E; [|reflexivity].
  assert (L : (length (show_term t ++ [47%N]) <= length b)%nat).
  { eapply split_at_late with (c := 44); [|rewrite <- app_assoc; exact E]. intros X. apply in_app_iff in X as [X|[X|[]]]; [|discriminate].
    revert X. apply clean_not; auto. }
  rewrite app_length in L. cbn [length] in L. destruct (length b <? length (show_term t))%nat eqn:B; [apply Nat.ltb_lt in B; lia|reflexivity].
Qed.

Lemma last_cons {A} (x : A) l d : l <> [] -> last (x :: l) d = last l d.
Proof. destruct l; [congruence|reflexivity]. Qed.
Definition t0 : sterm := {| s_not := false; s_anchor := false; s_text := []; s_like := None |}.
Lemma show_nonempty ts rest : ts <> [] -> Forall (fun ts => ts <> []) rest -> show_term (last (last (ts :: rest) []) t0) <> [] ->
  show_alternatives (ts :: rest) <> [].
Proof.
  intros HT HR HL. destruct ts as [|t [|t' ts]]; [congruence| |].
  - destruct rest as [|u rest].
    + exact HL.
    + rewrite show_or by discriminate. intros X. apply app_eq_nil in X as [_ X]. discriminate.
  - rewrite show_and by discriminate. intros X. apply app_eq_nil in X as [_ X]. discriminate.
Qed.

Section Words.
Context (F : bytes) (r : read_db) (db : database) (V : view F r db) (key : option bytes).
Local Notation n := (N.to_nat (n_msgs db)).
Lemma words_loop_ok fuel : forall ts rest A B hit1 hit2,
  ts <> [] -> Forall (fun ts => ts <> []) rest ->
  (forall t, In t (ts ++ concat rest) -> term_ok t /\ path_alone db key t) ->
  show_term (last (last (ts :: rest) []) t0) <> [] ->
  (length (show_alternatives (ts :: rest)) < fuel)%nat -> hv n A hit1 -> hv n B hit2 ->
  exists h1 h2, words_loop fuel F r (keys_of key) (show_alternatives (ts :: rest)) hit1 hit2 = Ok (h1, h2) /\
    hv n (fun i => B i \/ (A i /\ forall t, In t ts -> term_sat db key t (N.of_nat i)) \/
                   exists us, In us rest /\ forall t, In t us -> term_sat db key t (N.of_nat i)) (zip_with orb h2 h1).
Proof.
  induction fuel as [|f IH]; intros ts rest A B hit1 hit2 HT HR HK HL HF H1 H2; [lia|].
  destruct ts as [|t ts]; [congruence|]. destruct (HK t ltac:(now left)) as [TO TP].
  assert (PB : selects_path key -> s_anchor t = true -> match s_like t with Some ds => number ds = 0 | None => True end).
  { intros _ HA. destruct TO as (_ & _ & T3). destruct (s_like t); [|exact I]. apply T3. exact HA. }
  destruct (term_hits_ok F r db V key t TO TP PB) as (h0 & E0 & HV0).
  pose proof (hv_term n A _ (s_not t) hit1 h0 H1 HV0) as HV1.
  assert (TS : forall i, (A i /\ (if s_not t then ~ found db key t (N.of_nat i) else found db key t (N.of_nat i))) <-> (A i /\ term_sat db key t (N.of_nat i))).
  { intros i. unfold term_sat. destruct (s_not t); tauto. }
  cbn [words_loop]. destruct ts as [|t' ts].
  - destruct rest as [|u rest].
    + rewrite next_one by assumption. rewrite parse_term_show by assumption. cbn [bind]. rewrite E0. cbn [bind neg model_term].
      do 2 eexists. split; [reflexivity|]. eapply hv_ext; [exact (hv_or _ _ _ _ _ H2 HV1)|]. intros i _. cbn beta. rewrite TS. cbn [In]. split.
      * intros [?|[X Y]]; [now left|right; left]. split; [exact X|]. intros t1 [<-|[]]. exact Y.
      * intros [?|[[X Y]|(us & [] & _)]]; [now left|right]. split; [exact X|]. apply Y. now left.
    + rewrite next_or by (assumption || discriminate). rewrite parse_term_show by assumption. cbn [bind]. rewrite E0. cbn [bind neg model_term].
      inversion HR as [|? ? R1 R2]; subst.
      assert (NE : show_alternatives (u :: rest) <> []).
      { apply show_nonempty; auto. }
      assert (HLEN : (length (show_alternatives (u :: rest)) < f)%nat).
      { rewrite show_or in HF by discriminate. rewrite app_length in HF. cbn [length] in HF. lia. }
      destruct (IH u rest _ _ (ones r) _ R1 R2 ltac:(intros t1 Ht1; apply HK; right; exact Ht1) HL HLEN (ones_hv F r db V) (hv_or _ _ _ _ _ H2 HV1)) as (h1 & h2 & E & HV).
      exists h1, h2. split; [destruct (show_alternatives (u :: rest)); [congruence|exact E]|].
      eapply hv_ext; [exact HV|]. intros i _. cbn beta. rewrite TS. cbn [In]. split.
      * intros [[?|[X Y]]|[[_ Y]|(us & Hu & Y)]]; [now left| | |].
        -- right. left. split; [exact X|]. intros t1 [<-|[]]. exact Y.
        -- right. right. exists u. split; [now left|exact Y].
        -- right. right. exists us. split; [now right|exact Y].
      * intros [?|[[X Y]|(us & [<-|Hu] & Y)]]; [tauto| | |].
        -- left. right. split; [exact X|]. apply Y. now left.
        -- right. left. split; [exact I|exact Y].
        -- right. right. exists us. auto.
  - rewrite next_and by (assumption || discriminate). rewrite parse_term_show by assumption. cbn [bind]. rewrite E0. cbn [bind neg model_term].
    assert (HL' : show_term (last (last ((t' :: ts) :: rest) []) t0) <> []).
    { destruct rest as [|u rest]; [exact HL|exact HL]. }
    assert (NE : show_alternatives ((t' :: ts) :: rest) <> []).
    { apply show_nonempty; auto. discriminate. }
    assert (HLEN : (length (show_alternatives ((t' :: ts) :: rest)) < f)%nat).
    { rewrite show_and in HF by discriminate. rewrite app_length in HF. cbn [length] in HF. lia. }
    destruct (IH (t' :: ts) rest _ _ _ hit2 ltac:(discriminate) HR ltac:(intros t1 Ht1; apply HK; right; exact Ht1) HL' HLEN HV1 H2) as (h1 & h2 & E & HV).
    exists h1, h2. split; [destruct (show_alternatives ((t' :: ts) :: rest)); [congruence|exact E]|].
    eapply hv_ext; [exact HV|]. intros i _. cbn beta. rewrite TS. split.
    * intros [?|[[[X Y] Z]|Z]]; [now left| |tauto]. right. left. split; [exact X|]. intros t1 [<-|H]; auto.
    * intros [?|[[X Y]|Z]]; [now left| |tauto]. right. left. split; [split; [exact X|apply Y; now left]|]. intros t1 H. apply Y. now right.
Qed.
End Words.
