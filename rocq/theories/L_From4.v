(* Separator lines: the automaton of fromcheck.nfa and the grammar of S_From agree. *)
From Verif Require Import Base M_From S_From L_From L_From2 L_From3.
Local Open Scope N_scope.

Definition A_ (l : string) : lang :=
  if String.eqb l "in" then lit 60 ;; address ;; lit 62 else if String.eqb l "in_angles" then address ;; lit 62 else if String.eqb l "before_gt" then lit 62 else nothing.
Lemma angled_lang l u : rb angled_email "out" l u -> A_ l u.
Proof.
  intros H. remember angled_email as b eqn:B. remember "out"%string as fin eqn:F. induction H as [b fin|b fin l ss ts t u v I T R S IH]; subst; [reflexivity|]. specialize (IH eq_refl eq_refl). clear S.
  cases I; targets T; open_rs R; cbn [app]; unfold A_ in IH |- *; cbn [String.eqb Ascii.eqb Bool.eqb] in IH |- *.
  - apply lt_ok in P. subst. now apply seq_c.
  - apply rs_inst_split in R as (x & y & -> & Q & R). inversion R; subst. rewrite app_nil_r. apply seq_i; [exact (email_lang _ _ Q)|exact IH].
  - apply gt_ok in P. subst. red in IH. subst v. now apply one_i.
Qed.
Definition a_date : lang := alt standard old.
Definition M_ (l : string) : lang :=
  if String.eqb l "in" then separator else if String.eqb l "before_date" then a_date else nothing.
Lemma pre_date x v : rb date "out" "in" x -> pre a_date (x ++ v).
Proof. intros R. apply date_lang in R as (a & b & -> & P). exists a, (b ++ v). rewrite app_assoc. split; [reflexivity|]. left. exact P. Qed.
Lemma pre_old x v : rb date_old "out" "in" x -> pre a_date (x ++ v).
Proof. intros R. apply date_old_lang in R as (a & b & -> & P). exists a, (b ++ v). rewrite app_assoc. split; [reflexivity|]. right. exact P. Qed.
Lemma pre_sender s v : (address <|> lit 60 ;; address ;; lit 62 <|> one (fun c => c = 43 \/ c = 45) <|> nothing) s -> pre a_date v -> pre separator (s ++ v).
Proof. intros P Q. apply pre_seq; [|exact Q]. apply seq_e; [constructor|exact P]. Qed.
Lemma main_lang l u : rb main "pass" l u -> pre (M_ l) u.
Proof.
  intros H. remember main as b eqn:B. remember "pass"%string as fin eqn:F. induction H as [b fin|b fin l ss ts t u v I T R S IH]; subst; [apply pre_nothing|]. specialize (IH eq_refl eq_refl). clear S.
  cases I; targets T; open_rs R; cbn [app]; unfold M_ in IH |- *; cbn [String.eqb Ascii.eqb Bool.eqb] in IH |- *; try apply pre_nothing; classes.
  - destruct IH as (x & y & -> & (s & w & -> & (m & q & -> & M & Q) & W)). exists (((c :: m) ++ q) ++ w), y. split; [reflexivity|]. apply seq_i; [|exact W]. apply seq_i; [|exact Q].
    change (c :: m) with ([c] ++ m). constructor; [now apply one_i|exact M].
  - apply rs_inst_split in R as (x & y & -> & Q & R). inversion R; subst. rewrite app_nil_r. apply pre_sender; [left; exact (email_lang _ _ Q)|exact IH].
  - apply rs_inst_split in R as (x & y & -> & Q & R). inversion R; subst. rewrite app_nil_r. apply pre_sender; [right; left; exact (angled_lang _ _ Q)|exact IH].
  - apply sign_ok in P. change (c :: v) with ([c] ++ v). apply pre_sender; [right; right; left; now apply one_i|exact IH].
  - change v with ([] ++ v). apply pre_sender; [now do 3 right|exact IH].
  - apply rs_inst_split in R as (x & y & -> & Q & R). rewrite <- app_assoc. now apply pre_date.
  - apply rs_inst_split in R as (x & y & -> & Q & R). rewrite <- app_assoc. now apply pre_date.
  - apply rs_inst_split in R as (x & y & -> & Q & R). rewrite <- app_assoc. now apply pre_old.
Qed.

(* ---- from the grammar to the automaton ---- *)
Lemma step k b fin l ss ts t u v : nth_error (trans_of b l) k = Some (ss, ts) -> In t ts -> rs ss u -> rb b fin t v -> rb b fin l (u ++ v).
Proof. intros N. apply nth_error_In in N. now apply rb_go. Qed.
Lemma rs_app a u : rs a u -> forall b v, rs b v -> rs (a ++ b) (u ++ v).
Proof. induction 1 as [|p ss c u P R IH|b ss u v B R IH]; intros b' w W; cbn [app]; [exact W|constructor; auto|]. rewrite <- app_assoc. constructor; auto. Qed.
Lemma rs_one (P : N -> bool) (p : N -> Prop) u : (forall c, P c = true <-> p c) -> one p u -> rs [Cl P] u.
Proof. intros K (c & -> & H). constructor; [now apply K|constructor]. Qed.
Lemma rs_white u : one white u -> rs [WHITE_] u.
Proof. apply rs_one, white_ok. Qed.
Lemma rs_digit u : d u -> rs [DIGIT_] u.
Proof. apply rs_one, digit_ok. Qed.
Lemma rs_colon u : lit 58 u -> rs [COLON_] u.
Proof. apply rs_one, colon_ok. Qed.
Lemma rs_seq (A B : lang) a b u : (forall x, A x -> rs a x) -> (forall x, B x -> rs b x) -> (A ;; B) u -> rs (a ++ b) u.
Proof. intros P Q (x & y & -> & X & Y). apply rs_app; auto. Qed.
Lemma rs_three u : three u -> rs [UPPER_; LOWER_; LOWER_] u.
Proof. apply (rs_seq _ _ [UPPER_] [LOWER_; LOWER_]); intros x; [apply rs_one, upper_ok|]. apply (rs_seq _ _ [LOWER_] [LOWER_]); intros y; apply rs_one, lower_ok. Qed.
Lemma rs_day u : day u -> rs [DIGIT_] u \/ rs [DIGIT_; DIGIT_] u.
Proof. intros [H|H]; [left; now apply rs_digit|right]. revert H. apply (rs_seq _ _ [DIGIT_] [DIGIT_]); exact rs_digit. Qed.
Lemma rs_dd u : (d ;; d) u -> rs [DIGIT_; DIGIT_] u.
Proof. apply (rs_seq _ _ [DIGIT_] [DIGIT_]); exact rs_digit. Qed.
Lemma rs_year u : year u -> rs [DIGIT_; DIGIT_; DIGIT_; DIGIT_] u.
Proof. apply (rs_seq _ _ [DIGIT_] [DIGIT_; DIGIT_; DIGIT_]); [exact rs_digit|intros x]. apply (rs_seq _ _ [DIGIT_] [DIGIT_; DIGIT_]); [exact rs_digit|exact rs_dd]. Qed.
Lemma rs_time u : time u -> rs [DIGIT_; DIGIT_; COLON_; DIGIT_; DIGIT_; COLON_; DIGIT_; DIGIT_] u \/ rs [DIGIT_; DIGIT_; COLON_; DIGIT_; DIGIT_] u.
Proof.
  intros [H|H]; [left|right]; revert H.
  - apply (rs_seq _ _ [DIGIT_] [DIGIT_; COLON_; DIGIT_; DIGIT_; COLON_; DIGIT_; DIGIT_]); [exact rs_digit|intros x1].
    apply (rs_seq _ _ [DIGIT_] [COLON_; DIGIT_; DIGIT_; COLON_; DIGIT_; DIGIT_]); [exact rs_digit|intros x2].
    apply (rs_seq _ _ [COLON_] [DIGIT_; DIGIT_; COLON_; DIGIT_; DIGIT_]); [exact rs_colon|intros x3].
    apply (rs_seq _ _ [DIGIT_] [DIGIT_; COLON_; DIGIT_; DIGIT_]); [exact rs_digit|intros x4].
    apply (rs_seq _ _ [DIGIT_] [COLON_; DIGIT_; DIGIT_]); [exact rs_digit|intros x5].
    apply (rs_seq _ _ [COLON_] [DIGIT_; DIGIT_]); [exact rs_colon|exact rs_dd].
  - apply (rs_seq _ _ [DIGIT_] [DIGIT_; COLON_; DIGIT_; DIGIT_]); [exact rs_digit|intros x1].
    apply (rs_seq _ _ [DIGIT_] [COLON_; DIGIT_; DIGIT_]); [exact rs_digit|intros x2].
    apply (rs_seq _ _ [COLON_] [DIGIT_; DIGIT_]); [exact rs_colon|exact rs_dd].
Qed.
Lemma ws_split w : ws w -> exists c w', w = [c] ++ w' /\ one white [c] /\ mw w'.
Proof. intros (x & y & -> & (c & -> & P) & Q). exists c, y. split; [reflexivity|]. split; [now apply one_i|exact Q]. Qed.
(* a loop at a state *)
Lemma loop k b fin l (P : N -> bool) (p : N -> Prop) ts w v : nth_error (trans_of b l) k = Some ([Cl P], ts) -> In l ts -> (forall c, P c = true <-> p c) ->
  many (one p) w -> rb b fin l v -> rb b fin l (w ++ v).
Proof. intros N I K M. induction M as [|x y X M IH]; intros R; cbn [app]; [exact R|]. rewrite <- app_assoc. eapply step; [exact N|exact I|eapply rs_one; eauto|auto]. Qed.
Ltac now_in := cbn; tauto.
Ltac loop_white := eapply (loop 0); [reflexivity|now_in|exact white_ok|eassumption|].

Lemma host_path u : host u -> rb email "out" "start_of_domain" u.
Proof.
  intros [(x & y & -> & X & (a & b & -> & A & B))|(x & y & -> & X & (a & b & -> & A & B))].
  - eapply (step 1); [reflexivity|now_in|apply (rs_one DOMAIN dtext _ domain_ok X)|]. change (rb email "out" "after_at" (a ++ b)).
    assert (K : forall c w, dtext c -> many (one dtext) w -> rb email "out" "after_at" (c :: w)).
    { intros c w C M. revert c C. induction M as [|? w (c' & -> & C') M IH]; intros c C.
      - change [c] with ([c] ++ []). eapply (step 0); [reflexivity|right; now left|apply (rs_one DOMAIN dtext _ domain_ok); now apply one_i|constructor].
      - change (c :: [c'] ++ w) with ([c] ++ c' :: w). eapply (step 0); [reflexivity|now left|apply (rs_one DOMAIN dtext _ domain_ok); now apply one_i|]. now apply IH. }
    destruct A as (c & -> & C). now apply K.
  - eapply (step 0); [reflexivity|now_in|apply (rs_one LEFTSQUARE (eq 91) _ left_ok X)|]. eapply (loop 0); [reflexivity|now_in|exact quad_ok|exact A|].
    rewrite <- (app_nil_r b). eapply (step 1); [reflexivity|now_in|apply (rs_one RIGHTSQUARE (eq 93) _ right_ok B)|constructor].
Qed.
Lemma quoted_path q v : quoted q -> rb email "out" "before_at" v -> exists c q', q ++ v = [c] ++ q' /\ DQUOTE c = true /\ rb email "out" "quoted_before_at" q'.
Proof.
  intros (x & y & -> & (c & -> & C) & (a & b & -> & A & B)) R. exists c, (a ++ b ++ v). split; [rewrite <- !app_assoc; reflexivity|]. split; [now apply dquote_ok|].
  eapply (loop 0); [reflexivity|now_in|exact quoted_ok|exact A|]. eapply (step 1); [reflexivity|now_in|apply (rs_one DQUOTE (eq 34) _ dquote_ok B)|exact R].
Qed.
Lemma more_path u : more_local u -> rb email "out" "before_at" u.
Proof.
  intros (m & o & -> & M & O). induction M as [|x y X M IH]; cbn [app].
  - destruct O as [(x & y & -> & X & Y)| ->].
    + eapply (step 3); [reflexivity|now_in|apply (rs_one AT (eq 64) _ at_ok X)|now apply host_path].
    + change (@nil N) with (@nil N ++ []). eapply (step 2); [reflexivity|now_in|constructor|constructor].
  - rewrite <- app_assoc. destruct X as [X|X].
    + eapply (step 0); [reflexivity|now_in|apply (rs_one EMAIL atext _ email_ok X)|exact IH].
    + destruct (quoted_path x _ X IH) as (c & q' & -> & C & R). eapply (step 1); [reflexivity|now_in|constructor; [exact C|constructor]|exact R].
Qed.
Lemma email_path u : address u -> rb email "out" "in" u.
Proof.
  intros (m & r & -> & M & (x & y & -> & X & Y)). apply more_path in Y. assert (K : rb email "out" "in" (x ++ y)).
  { destruct X as [X|X].
    - eapply (step 0); [reflexivity|right; now left|apply (rs_one EMAIL atext _ email_ok X)|exact Y].
    - destruct (quoted_path x _ X Y) as (c & q' & -> & C & R). eapply (step 1); [reflexivity|now_in|constructor; [exact C|constructor]|exact R]. }
  clear X Y. induction M as [|a b (p & q & -> & P & (p1 & q1 & -> & P1 & (p2 & q2 & -> & P2 & Q2))) M IH]; cbn [app]; [exact K|]. rewrite <- !app_assoc.
  eapply (loop 0); [reflexivity|now left|exact email_ok|exact P|]. eapply (step 2); [reflexivity|now_in|apply (rs_one AT (eq 64) _ at_ok P1)|].
  eapply (loop 0); [reflexivity|now_in|exact domain_ok|exact P2|]. eapply (step 1); [reflexivity|now_in|apply (rs_one COLON (eq 58) _ colon_ok Q2)|exact IH].
Qed.
Lemma zone_path u : zone u -> rb M_From.zone "out" "in" u.
Proof.
  assert (K : forall c w, alnum c -> many (one alnum) w -> rb M_From.zone "out" "zone2" (c :: w)).
  { intros c w C M. revert c C. induction M as [|? w (c' & -> & C') M IH]; intros c C.
    - change [c] with ([c] ++ []). destruct C as [C|[C|C]].
      + eapply (step 0); [reflexivity|right; now left|apply (rs_one _ _ _ letters_ok); apply one_i; now left|constructor].
      + eapply (step 0); [reflexivity|right; now left|apply (rs_one _ _ _ letters_ok); apply one_i; now right|constructor].
      + eapply (step 1); [reflexivity|right; now left|apply rs_digit; now apply one_i|constructor].
    - change (c :: [c'] ++ w) with ([c] ++ c' :: w). destruct C as [C|[C|C]].
      + eapply (step 0); [reflexivity|now left|apply (rs_one _ _ _ letters_ok); apply one_i; now left|now apply IH].
      + eapply (step 0); [reflexivity|now left|apply (rs_one _ _ _ letters_ok); apply one_i; now right|now apply IH].
      + eapply (step 1); [reflexivity|now left|apply rs_digit; now apply one_i|now apply IH]. }
  intros [(x & y & -> & X & Y)|(x & y & -> & X & (a & b & -> & (c & -> & C) & B))].
  - destruct Y as [|? w (c & -> & C) M].
    + eapply (step 1); [reflexivity|now_in|apply (rs_one _ _ _ upper_ok X)|constructor].
    + eapply (step 0); [reflexivity|now_in|apply (rs_one _ _ _ upper_ok X)|]. now apply K.
  - eapply (step 2); [reflexivity|now_in|apply (rs_one _ _ _ sign_ok X)|]. now apply K.
Qed.
Lemma rs_zone z c : zone z -> one white [c] -> rs [Inst M_From.zone; WHITE_] (z ++ [c]).
Proof. intros Zo W. apply (rs_inst M_From.zone [WHITE_]); [now apply zone_path|now apply rs_white]. Qed.

Lemma before_loop b fin c w v : (b = date \/ b = date_old) -> white c -> mw w -> rb b fin "before_weekday" v -> rb b fin "in" ([c] ++ w ++ v).
Proof.
  intros B C M R. assert (T : nth_error (trans_of b "in") 0 = Some ([WHITE_], ["in"; "before_weekday"]%string)) by (destruct B as [->| ->]; reflexivity). revert c C. induction M as [|? w (c' & -> & C') M IH]; intros c C.
  - eapply step; [exact T|right; now left|apply rs_white; now apply one_i|exact R].
  - eapply step; [exact T|now left|apply rs_white; now apply one_i|]. rewrite <- app_assoc. now apply IH.
Qed.
Ltac split_ws H := let c := fresh "c" in let w := fresh "w" in let C := fresh "C" in let M := fresh "M" in apply ws_split in H as (c & w & -> & C & M).
Lemma year_path u : g_year u -> rb date "out" "after_time" u.
Proof.
  intros (z & y & -> & Zo & Y). apply rs_year in Y.
  assert (K : forall w, mw w -> rb date "out" "after_timezone" (w ++ y)).
  { intros w M. loop_white. rewrite <- (app_nil_r y). eapply (step 1); [reflexivity|now_in|exact Y|]. change (@nil N) with (@nil N ++ []). eapply (step 1); [reflexivity|now_in|constructor|constructor]. }
  destruct Zo as [(a & b & -> & Za & (w1 & o & -> & W1 & O))| ->].
  - split_ws W1. destruct O as [(z2 & w2 & -> & Z2 & W2)| ->].
    + split_ws W2. replace ((a ++ ([c] ++ w) ++ z2 ++ [c0] ++ w0) ++ y) with ((a ++ [c]) ++ w ++ (z2 ++ [c0]) ++ w0 ++ y) by (now rewrite <- !app_assoc).
      eapply (step 3); [reflexivity|now_in|now apply rs_zone|]. loop_white. eapply (step 1); [reflexivity|now_in|now apply rs_zone|]. now apply K.
    + rewrite app_nil_r. replace ((a ++ [c] ++ w) ++ y) with ((a ++ [c]) ++ w ++ y) by (now rewrite <- !app_assoc).
      eapply (step 2); [reflexivity|now_in|now apply rs_zone|]. now apply K.
  - change ([] ++ y) with (@nil N ++ [] ++ y). eapply (step 1); [reflexivity|now_in|constructor|]. apply K. constructor.
Qed.
Lemma standard_path u : standard u -> rb date "out" "in" u.
Proof.
  intros (w1 & ? & -> & W1 & (t1 & ? & -> & T1 & (w2 & ? & -> & W2 & (t2 & ? & -> & T2 & (w3 & ? & -> & W3 & (da & ? & -> & DA & (w4 & ? & -> & W4 & (ti & ? & -> & TI & (w5 & y & -> & W5 & Y))))))))).
  apply year_path in Y. apply rs_three in T1, T2. apply rs_day in DA. apply rs_time in TI. split_ws W1. split_ws W2. split_ws W3. split_ws W4. split_ws W5.
  destruct C as (? & E & C). injection E as <-. rewrite <- app_assoc. apply before_loop; auto.
  replace (t1 ++ ([c0] ++ w0) ++ t2 ++ ([c1] ++ w1) ++ da ++ ([c2] ++ w2) ++ ti ++ ([c3] ++ w3) ++ y)
    with ((t1 ++ [c0]) ++ w0 ++ (t2 ++ [c1]) ++ w1 ++ (da ++ [c2]) ++ w2 ++ (ti ++ [c3]) ++ w3 ++ y) by (now rewrite <- !app_assoc).
  eapply (step 0); [reflexivity|now_in|apply (rs_app _ _ T1 _ _ (rs_white _ C0))|]. loop_white.
  eapply (step 1); [reflexivity|now_in|apply (rs_app _ _ T2 _ _ (rs_white _ C1))|]. loop_white.
  assert (K : rb date "out" "after_day" (w2 ++ (ti ++ [c3]) ++ w3 ++ y)).
  { loop_white. assert (K : rb date "out" "after_time" (w3 ++ y)) by (loop_white; exact Y).
    destruct TI as [TI|TI]; [eapply (step 1)|eapply (step 2)]; try reflexivity; try now_in; try exact K; exact (rs_app _ _ TI _ _ (rs_white _ C3)). }
  destruct DA as [DA|DA]; [eapply (step 1)|eapply (step 2)]; try reflexivity; try now_in; try exact K; exact (rs_app _ _ DA _ _ (rs_white _ C2)).
Qed.
Lemma old_path u : old u -> rb date_old "out" "in" u.
Proof.
  intros (w1 & ? & -> & W1 & (t1 & ? & -> & T1 & (cm & ? & -> & CM & (w2 & ? & -> & W2 & (da & ? & -> & DA & (w3 & ? & -> & W3 & (t2 & ? & -> & T2 & (w4 & ? & -> & W4 & (yy & ? & -> & YY & (w5 & ? & -> & W5 & (ti & w6 & -> & TI & W6))))))))))).
  apply rs_three in T1, T2. apply rs_day in DA. apply rs_time in TI. split_ws W1. split_ws W2. split_ws W3.
  destruct C as (? & E & C). injection E as <-. rewrite <- app_assoc. apply before_loop; auto.
  replace (t1 ++ cm ++ ([c0] ++ w0) ++ da ++ ([c1] ++ w1) ++ t2 ++ w4 ++ yy ++ w5 ++ ti ++ w6)
    with ((t1 ++ cm ++ [c0]) ++ w0 ++ (da ++ [c1]) ++ w1 ++ (t2 ++ w4) ++ yy ++ w5 ++ (ti ++ w6) ++ []) by (now rewrite app_nil_r, <- !app_assoc).
  eapply (step 0); [reflexivity|now_in|apply (rs_app _ _ T1); apply (rs_app [Cl COMMA] _ (rs_one COMMA (eq 44) _ comma_ok CM) _ _ (rs_white _ C0))|]. loop_white.
  assert (E1 : rb date_old "out" "after_time" []).
  { change (@nil N) with (@nil N ++ @nil N). eapply (step 1); [reflexivity|now_in|constructor|]. change (@nil N) with (@nil N ++ @nil N). eapply (step 1); [reflexivity|now_in|constructor|constructor]. }
  assert (E2 : rb date_old "out" "after_year" (w5 ++ (ti ++ w6) ++ [])).
  { loop_white. destruct TI as [TI|TI]; [eapply (step 1)|eapply (step 2)]; try reflexivity; try now_in; try exact E1; exact (rs_app _ _ TI _ _ (rs_white _ W6)). }
  assert (E3 : rb date_old "out" "after_day" (w1 ++ (t2 ++ w4) ++ yy ++ w5 ++ (ti ++ w6) ++ [])).
  { loop_white. eapply (step 1); [reflexivity|now_in|apply (rs_app _ _ T2 _ _ (rs_white _ W4))|].
    destruct YY as [YY|YY]; [eapply (step 0); [reflexivity|now_in|now apply rs_year|exact E2]|eapply (step 1); [reflexivity|now_in|now apply rs_dd|exact E2]]. }
  destruct DA as [DA|DA]; [eapply (step 1)|eapply (step 2)]; try reflexivity; try now_in; try exact E3; exact (rs_app _ _ DA _ _ (rs_white _ C1)).
Qed.
Lemma rs_instance b u : rb b "out" "in" u -> rs [Inst b] u.
Proof. intros R. rewrite <- (app_nil_r u). constructor; [exact R|constructor]. Qed.
Lemma separator_path u : separator u -> rb main "pass" "in" u.
Proof.
  intros (s & t & -> & (w & a & -> & W & A) & T). rewrite <- app_assoc. loop_white.
  assert (K : rb main "pass" "before_date" t).
  { assert (E : rb main "pass" "opt_remote" []) by (change (@nil N) with (@nil N ++ @nil N); eapply (step 1); [reflexivity|now_in|constructor|constructor]). rewrite <- (app_nil_r t).
    destruct T as [T|T]; [eapply (step 0)|eapply (step 2)]; try reflexivity; try now_in; try exact E; apply rs_instance; [now apply standard_path|now apply old_path]. }
  destruct A as [A|[(x & y & -> & X & (p & q & -> & P & Q))|[A| ->]]].
  - eapply (step 1); [reflexivity|now_in|apply rs_instance; now apply email_path|exact K].
  - eapply (step 2); [reflexivity|now_in|apply rs_instance|exact K]. eapply (step 0); [reflexivity|now_in|apply (rs_one LT (eq 60) _ lt_ok X)|].
    eapply (step 0); [reflexivity|now_in|apply rs_instance; now apply email_path|]. rewrite <- (app_nil_r q). eapply (step 0); [reflexivity|now_in|apply (rs_one GT (eq 62) _ gt_ok Q)|constructor].
  - eapply (step 3); [reflexivity|now_in|apply (rs_one _ _ _ sign_ok A)|exact K].
  - eapply (step 4); [reflexivity|now_in|constructor|exact K].
Qed.
Lemma separator_some u : separator u -> u <> [].
Proof.
  intros (s & t & -> & _ & T) E. apply app_eq_nil in E as [_ ->]. destruct T as [(x & y & E & (a & b & -> & (c & -> & _) & _) & _)|(x & y & E & (a & b & -> & (c & -> & _) & _) & _)]; discriminate.
Qed.
Lemma from_main text : looks_like_from_separator text = true <-> begins_message text.
Proof.
  rewrite looks_ok. split.
  - intros (x & y & -> & _ & R). apply main_lang in R as (a & b & -> & P). exists a, (b ++ y). rewrite app_assoc. split; [reflexivity|exact P].
  - intros (u & v & -> & P). exists u, v. split; [reflexivity|]. split; [now apply separator_some|now apply separator_path].
Qed.

(* examples *)
Definition ex_sep1 : bytes := bs "joe@example.org Mon Mar 15 14:36:40 2021".
Definition ex_sep2 : bytes := bs "- Mon, 15 Mar 2021 21:36 PST".
Definition ex_short : bytes := bs "root@h Mon Mar 15 14:36:40 2021".
Lemma ex_sep : looks_like_from_separator ex_sep1 = true /\ looks_like_from_separator ex_sep2 = true /\ looks_like_from_separator (bs "now on we meet on Mon Mar 15") = false.
Proof. vm_compute. auto. Qed.
(* a sender at a host whose name has one letter *)
Lemma short_host : exists h, dtext h /\ ex_short = bs "root@" ++ [h] ++ bs " Mon Mar 15 14:36:40 2021" /\ looks_like_from_separator ex_short = false.
Proof. exists 104. split; [left; right; left; unfold lower; lia|]. split; [reflexivity|vm_compute; reflexivity]. Qed.
