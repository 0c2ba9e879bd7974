(* The languages of the blocks of fromcheck.nfa and the grammar of S_From, continued. *)
From Verif Require Import Base M_From S_From L_From L_From2.
Local Open Scope N_scope.

Definition pre (A : lang) : lang := fun u => exists x y, u = x ++ y /\ A x.
Lemma pre_nothing u : pre nothing u.
Proof. exists [], u. split; reflexivity. Qed.
Lemma pre_seq (A B : lang) u v : A u -> pre B v -> pre (A ;; B) (u ++ v).
Proof. intros P (x & y & -> & Q). exists (u ++ x), y. rewrite app_assoc. split; [reflexivity|now apply seq_i]. Qed.
Lemma pre_one (p : N -> Prop) (B : lang) c v : p c -> pre B v -> pre (one p ;; B) (c :: v).
Proof. intros P Q. change (c :: v) with ([c] ++ v). apply pre_seq; [now apply one_i|exact Q]. Qed.
Lemma pre_mono (A B : lang) u : (forall x, A x -> B x) -> pre A u -> pre B u.
Proof. intros M (x & y & -> & P). exists x, y. auto. Qed.
Lemma pre_many (p : N -> Prop) (B : lang) c v : p c -> pre (many (one p) ;; B) v -> pre (many (one p) ;; B) (c :: v).
Proof. intros P (x & y & -> & Q). exists (c :: x), y. split; [reflexivity|now apply many_c]. Qed.
Lemma pre_some (p : N -> Prop) (B : lang) c v : p c -> pre (many (one p) ;; B) v -> pre (some (one p) ;; B) (c :: v).
Proof. intros P (x & y & -> & Q). exists (c :: x), y. split; [reflexivity|now apply some_c]. Qed.
Lemma pre_skip (p : N -> Prop) (B : lang) v : pre B v -> pre (many (one p) ;; B) v.
Proof. apply pre_mono. intros x P. apply seq_e; [constructor|exact P]. Qed.
Lemma rs_inst_split b ss u : rs (Inst b :: ss) u -> exists x y, u = x ++ y /\ rb b "out" "in" x /\ rs ss y.
Proof. intros R. inversion R; subst. eauto. Qed.

Definition Z_ (l : string) : lang :=
  if String.eqb l "in" then zone else if String.eqb l "zone2" then some (one alnum) else nothing.
Lemma zone_lang l u : rb M_From.zone "out" l u -> Z_ l u.
Proof.
  intros H. remember M_From.zone as b eqn:B. remember "out"%string as fin eqn:F. induction H as [b fin|b fin l ss ts t u v I T R S IH]; subst; [reflexivity|]. specialize (IH eq_refl eq_refl). clear S.
  cases I; targets T; open_rs R; cbn [app]; unfold Z_ in IH |- *; cbn [String.eqb Ascii.eqb Bool.eqb] in IH |- *.
  - apply upper_ok in P. left. apply seq_c; [exact P|now apply some_many].
  - apply upper_ok in P. red in IH. subst v. left. apply seq_c; [exact P|constructor].
  - apply sign_ok in P. right. now apply seq_c.
  - apply letters_ok in P. change (c :: v) with ([c] ++ v). apply seq_i; [apply one_i; unfold alnum; tauto|now apply some_many].
  - apply letters_ok in P. red in IH. subst v. change [c] with ([c] ++ []). apply seq_i; [apply one_i; unfold alnum; tauto|constructor].
  - apply digit_ok in P. change (c :: v) with ([c] ++ v). apply seq_i; [apply one_i; unfold alnum; tauto|now apply some_many].
  - apply digit_ok in P. red in IH. subst v. change [c] with ([c] ++ []). apply seq_i; [apply one_i; unfold alnum; tauto|constructor].
Qed.

Definition g_year : lang := perhaps (zone ;; ws ;; perhaps (zone ;; ws)) ;; year.
Definition g_time : lang := time ;; ws ;; g_year.
Definition g_day : lang := day ;; ws ;; g_time.
Definition g_month : lang := three ;; ws ;; g_day.
Definition g_week : lang := three ;; ws ;; g_month.
Notation mw := (many (one white)).
Definition D (l : string) : lang :=
  if String.eqb l "in" then ws ;; g_week
  else if String.eqb l "before_weekday" then g_week
  else if String.eqb l "after_weekday" then mw ;; g_month
  else if String.eqb l "after_month" then mw ;; g_day
  else if String.eqb l "after_day" then mw ;; g_time
  else if String.eqb l "after_time" then mw ;; g_year
  else if String.eqb l "after_timezone" then mw ;; year
  else if String.eqb l "after_timezone_1" then mw ;; zone ;; ws ;; year
  else nothing.
Lemma three_i a b c (B : lang) v : upper a -> lower b -> lower c -> pre B v -> pre (three ;; B) (a :: b :: c :: v).
Proof.
  intros P Q R S. change (a :: b :: c :: v) with ([a; b; c] ++ v). apply pre_seq; [|exact S]. apply seq_c; [exact P|]. apply seq_c; [exact Q|now apply one_i].
Qed.
Lemma year_i a b c e : digit a -> digit b -> digit c -> digit e -> year [a; b; c; e].
Proof. intros. apply seq_c; [assumption|]. apply seq_c; [assumption|]. apply seq_c; [assumption|now apply one_i]. Qed.
Lemma time6 a b c e f g : digit a -> digit b -> digit c -> digit e -> digit f -> digit g -> time [a; b; 58; c; e; 58; f; g].
Proof. intros. left. do 2 (apply seq_c; [assumption|]). apply seq_c; [reflexivity|]. do 2 (apply seq_c; [assumption|]). apply seq_c; [reflexivity|]. apply seq_c; [assumption|now apply one_i]. Qed.
Lemma time4 a b c e : digit a -> digit b -> digit c -> digit e -> time [a; b; 58; c; e].
Proof. intros. right. do 2 (apply seq_c; [assumption|]). apply seq_c; [reflexivity|]. apply seq_c; [assumption|now apply one_i]. Qed.
Lemma no_zone v : pre (mw ;; year) v -> pre (mw ;; g_year) v.
Proof. apply pre_mono. intros x. apply seq_mono; [auto|]. intros y Y. apply seq_e; [now right|exact Y]. Qed.
Lemma one_zone z c v : zone z -> white c -> pre (mw ;; year) v -> pre (mw ;; g_year) (z ++ c :: v).
Proof.
  intros Zo W (x & y & -> & (w & q & -> & M & Y)). exists (z ++ c :: w ++ q), y. split; [rewrite <- !app_assoc; cbn; rewrite <- ?app_assoc; reflexivity|]. apply seq_e; [constructor|].
  replace (z ++ c :: w ++ q) with ((z ++ (c :: w) ++ []) ++ q) by (rewrite app_nil_r, <- app_assoc; reflexivity). apply seq_i; [|exact Y]. left. apply seq_i; [exact Zo|].
  apply seq_i; [|now right]. change (c :: w) with ([c] ++ w). apply seq_i; [now apply one_i|exact M].
Qed.
Lemma two_zones z c v : zone z -> white c -> pre (mw ;; zone ;; ws ;; year) v -> pre (mw ;; g_year) (z ++ c :: v).
Proof.
  intros Zo W (x & y & -> & (w & q & -> & M & (z2 & r & -> & Z2 & (w2 & s & -> & W2 & Y)))). exists (z ++ c :: w ++ z2 ++ w2 ++ s), y.
  split; [rewrite <- !app_assoc; cbn; rewrite <- !app_assoc; reflexivity|]. apply seq_e; [constructor|].
  replace (z ++ c :: w ++ z2 ++ w2 ++ s) with ((z ++ (c :: w) ++ z2 ++ w2) ++ s) by (rewrite <- !app_assoc; reflexivity). apply seq_i; [|exact Y]. left. apply seq_i; [exact Zo|].
  apply seq_i; [|left; now apply seq_i]. change (c :: w) with ([c] ++ w). apply seq_i; [now apply one_i|exact M].
Qed.
Ltac classes := repeat match goal with
  | H : WHITE _ = true |- _ => apply white_ok in H
  | H : DIGIT _ = true |- _ => apply digit_ok in H
  | H : UPPER _ = true |- _ => apply upper_ok in H
  | H : LOWER _ = true |- _ => apply lower_ok in H
  | H : COLON _ = true |- _ => apply colon_ok in H; subst
  | H : COMMA _ = true |- _ => apply comma_ok in H; subst
  end.
Lemma date_lang l u : rb date "out" l u -> pre (D l) u.
Proof.
  intros H. remember date as b eqn:B. remember "out"%string as fin eqn:F. induction H as [b fin|b fin l ss ts t u v I T R S IH]; subst; [apply pre_nothing|]. specialize (IH eq_refl eq_refl). clear S.
  cases I; targets T; open_rs R; cbn [app]; unfold D in IH |- *; cbn [String.eqb Ascii.eqb Bool.eqb] in IH |- *; try apply pre_nothing; classes.
  - revert IH. destruct 1 as (x & y & -> & Q). exists (c :: x), y. split; [reflexivity|now apply some_more].
  - change (c :: v) with ([c] ++ v). apply pre_seq; [|exact IH]. exists [c], []. split; [reflexivity|]. split; [now apply one_i|constructor].
  - apply three_i; auto. now apply pre_some.
  - now apply pre_many.
  - apply pre_skip. apply three_i; auto. now apply pre_some.
  - now apply pre_many.
  - apply pre_skip. change (c :: c0 :: v) with ([c] ++ c0 :: v). apply pre_seq; [left; now apply one_i|now apply pre_some].
  - apply pre_skip. change (c :: c0 :: c1 :: v) with ([c; c0] ++ c1 :: v). apply pre_seq; [right; apply seq_c; [assumption|now apply one_i]|now apply pre_some].
  - now apply pre_many.
  - apply pre_skip. match goal with |- pre _ (?a :: ?b :: ?c :: ?e :: ?f :: ?g :: ?h :: ?i :: ?r) => change (a :: b :: c :: e :: f :: g :: h :: i :: r) with ([a; b; c; e; f; g; h; i] ++ r) end.
    apply pre_seq; [now apply time6|now apply pre_some].
  - apply pre_skip. match goal with |- pre _ (?a :: ?b :: ?c :: ?e :: ?f :: ?r) => change (a :: b :: c :: e :: f :: r) with ([a; b; c; e; f] ++ r) end.
    apply pre_seq; [now apply time4|now apply pre_some].
  - now apply pre_many.
  - now apply no_zone.
  - apply rs_inst_split in R as (x & y & -> & Zo & R). open_rs R. classes. rewrite <- app_assoc. apply one_zone; [exact (zone_lang _ _ Zo)|assumption|exact IH].
  - apply rs_inst_split in R as (x & y & -> & Zo & R). open_rs R. classes. rewrite <- app_assoc. apply two_zones; [exact (zone_lang _ _ Zo)|assumption|exact IH].
  - apply no_zone, pre_skip. exists [c; c0; c1; c2], v. split; [reflexivity|now apply year_i].
  - now apply pre_many.
  - apply rs_inst_split in R as (x & y & -> & Zo & R). open_rs R. classes. apply pre_skip. rewrite <- app_assoc. apply pre_seq; [exact (zone_lang _ _ Zo)|]. now apply pre_some.
  - now apply pre_many.
  - apply pre_skip. exists [c; c0; c1; c2], v. split; [reflexivity|now apply year_i].
Qed.

Definition o_time : lang := time ;; one white.
Definition o_year : lang := alt year (d ;; d) ;; mw ;; o_time.
Definition o_month : lang := three ;; one white ;; o_year.
Definition o_day : lang := day ;; ws ;; o_month.
Definition o_week : lang := three ;; lit 44 ;; ws ;; o_day.
Definition O_ (l : string) : lang :=
  if String.eqb l "in" then ws ;; o_week
  else if String.eqb l "before_weekday" then o_week
  else if String.eqb l "after_weekday" then mw ;; o_day
  else if String.eqb l "after_day" then mw ;; o_month
  else if String.eqb l "after_month" then o_year
  else if String.eqb l "after_year" then mw ;; o_time
  else nothing.
Lemma date_old_lang l u : rb date_old "out" l u -> pre (O_ l) u.
Proof.
  intros H. remember date_old as b eqn:B. remember "out"%string as fin eqn:F. induction H as [b fin|b fin l ss ts t u v I T R S IH]; subst; [apply pre_nothing|]. specialize (IH eq_refl eq_refl). clear S.
  cases I; targets T; open_rs R; cbn [app]; unfold O_ in IH |- *; cbn [String.eqb Ascii.eqb Bool.eqb] in IH |- *; try apply pre_nothing; classes.
  - revert IH. destruct 1 as (x & y & -> & Q). exists (c :: x), y. split; [reflexivity|now apply some_more].
  - change (c :: v) with ([c] ++ v). apply pre_seq; [|exact IH]. exists [c], []. split; [reflexivity|]. split; [now apply one_i|constructor].
  - apply three_i; auto. apply pre_one; [reflexivity|now apply pre_some].
  - now apply pre_many.
  - apply pre_skip. change (c :: c0 :: v) with ([c] ++ c0 :: v). apply pre_seq; [left; now apply one_i|now apply pre_some].
  - apply pre_skip. change (c :: c0 :: c1 :: v) with ([c; c0] ++ c1 :: v). apply pre_seq; [right; apply seq_c; [assumption|now apply one_i]|now apply pre_some].
  - now apply pre_many.
  - apply pre_skip. apply three_i; auto. now apply pre_one.
  - change (c :: c0 :: c1 :: c2 :: v) with ([c; c0; c1; c2] ++ v). apply pre_seq; [left; now apply year_i|exact IH].
  - change (c :: c0 :: v) with ([c; c0] ++ v). apply pre_seq; [right; apply seq_c; [assumption|now apply one_i]|exact IH].
  - now apply pre_many.
  - apply pre_skip. match goal with |- pre _ (?a :: ?b :: ?c :: ?e :: ?f :: ?g :: ?h :: ?i :: ?w :: ?r) => change (a :: b :: c :: e :: f :: g :: h :: i :: w :: r) with ([a; b; c; e; f; g; h; i] ++ w :: r) end.
    apply pre_seq; [now apply time6|]. exists [c7], v. split; [reflexivity|now apply one_i].
  - apply pre_skip. match goal with |- pre _ (?a :: ?b :: ?c :: ?e :: ?f :: ?w :: ?r) => change (a :: b :: c :: e :: f :: w :: r) with ([a; b; c; e; f] ++ w :: r) end.
    apply pre_seq; [now apply time4|]. exists [c4], v. split; [reflexivity|now apply one_i].
Qed.
