(* The kinds of date that M_Dates discovers are those of S_Tables. *)
From Verif Require Import Base M_Dates S_Dates S_Tables L_Dates L_Dates2 L_Dates3 L_Dates5.

Lemma rule_cases : forall a t, In (a, t) rules ->
  (day_blk a /\ t = DS_D) \/ (year_blk a /\ t = DS_Y) \/ ((a = blk_digits 6 \/ a = blk_digits 8) /\ t = DS_YYMMDD) \/ (a = blk_month /\ t = DS_M) \/
  (exists d, day_blk d /\ a = seq d blk_month /\ t = DS_DM) \/ (exists d, day_blk d /\ a = seq blk_month d /\ t = DS_MD) \/
  (exists y, year_blk y /\ a = seq y blk_month /\ t = DS_YM) \/ (exists y, year_blk y /\ a = seq blk_month y /\ t = DS_MY) \/
  (exists y d, year_blk y /\ day_blk d /\ a = seq (seq y blk_month) d /\ t = DS_YMD) \/ (exists y d, year_blk y /\ day_blk d /\ a = seq (seq d blk_month) y /\ t = DS_DMY).
Proof.
  assert (D1 : day_blk blk_one) by (now left). assert (D2 : day_blk blk_day) by (now right). assert (Y1 : year_blk blk_year) by (now left). assert (Y2 : year_blk blk_ccyy) by (now right).
  intros a t H. unfold rules in H. cbn [In] in H. repeat (destruct H as [H|H]; [assert (Ha : a = fst (a, t)) by reflexivity; assert (Ht : t = snd (a, t)) by reflexivity; rewrite <- H in Ha, Ht; cbn [fst snd] in Ha, Ht; clear H; rewrite Ha, Ht; clear Ha Ht|]); [..|destruct H].
  all: first [left; split; [assumption|reflexivity]|right].
  all: first [left; split; [assumption|reflexivity]|right].
  all: first [left; split; [first [now left|now right]|reflexivity]|right].
  all: first [left; split; reflexivity|right].
  all: first [left; eexists; split; [|split; reflexivity]; assumption|right].
  all: first [left; eexists; split; [|split; reflexivity]; assumption|right].
  all: first [left; eexists; split; [|split; reflexivity]; assumption|right].
  all: first [left; eexists; split; [|split; reflexivity]; assumption|right].
  all: first [left; eexists; eexists; split; [|split; [|split; reflexivity]]; assumption|right; eexists; eexists; split; [|split; [|split; reflexivity]]; assumption].
Qed.
Lemma month_is s : accepts blk_month s <-> month_text s.
Proof.
  assert (L : forall c, letter c = true <-> a_letter c) by (intros c; unfold letter, rng, a_letter; lia).
  unfold accepts, blk_month, month_text. split.
  - intros (l & [<-|[]] & F). destruct s as [|x [|y [|z [|? ?]]]]; cbn [fits] in F; try discriminate; try (rewrite ?andb_false_r in F; discriminate). apply andb_prop in F as [X F]. apply andb_prop in F as [Y F]. apply andb_prop in F as [Z _].
    split; [reflexivity|]. apply L in X, Y, Z. constructor; [exact X|]. constructor; [exact Y|]. constructor; [exact Z|constructor].
  - intros [E F]. destruct s as [|x [|y [|z [|? ?]]]]; try discriminate. inversion F as [|? ? X F1]; subst. inversion F1 as [|? ? Y F2]; subst. inversion F2 as [|? ? Z F3]; subst. apply L in X, Y, Z. exists [letter; letter; letter]. split; [now left|]. cbn [fits]. now rewrite X, Y, Z.
Qed.
Lemma only_kind : forall (P : list (list cls) -> Prop) s t, (forall a, In (a, t) rules -> P a) -> t <> DS_SCALED -> discover_type s = Some t -> exists a, P a /\ accepts a s.
Proof. intros P s t H N E. apply type_some in E as [[-> _]|(a & I & l & J & F)]; [congruence|]. exists a. split; [auto|]. exists l. auto. Qed.
Lemma day_is s : day_text s -> exists a, day_blk a /\ accepts a s.
Proof.
  intros (d & H). apply sweep_day in H. apply (only_kind day_blk s DS_D); [|discriminate|exact H]. intros a I. apply rule_cases in I.
  repeat (destruct I as [I|I]); try (destruct I as (? & _ & _ & X); discriminate X); try (destruct I as (? & ? & _ & _ & _ & X); discriminate X); destruct I as [I X]; first [discriminate X|exact I].
Qed.
Lemma year_is s : year_text s -> exists a, year_blk a /\ accepts a s.
Proof.
  intros (d & H). apply sweep_year in H. apply (only_kind year_blk s DS_Y); [|discriminate|exact H]. intros a I. apply rule_cases in I.
  repeat (destruct I as [I|I]); try (destruct I as (? & _ & _ & X); discriminate X); try (destruct I as (? & ? & _ & _ & _ & X); discriminate X); destruct I as [I X]; first [discriminate X|exact I].
Qed.
Lemma accepts_app a b u v : accepts a u -> accepts b v -> accepts (seq a b) (u ++ v).
Proof.
  intros (l & I & F) (m & J & G). exists (l ++ m). split; [apply in_flat_map; exists l; split; [exact I|now apply in_map]|].
  revert u F. clear I. induction l as [|p l IH]; intros [|c u] F; try discriminate; [exact G|]. cbn in *. apply andb_prop in F as [-> F]. cbn. now apply IH.
Qed.
Lemma rule_type a t s : In (a, t) rules -> accepts a s -> discover_type s = Some t.
Proof. intros I (l & J & F). apply (type_rule s l t); [apply alts_in; eauto|exact F]. Qed.
Ltac pick := unfold rules; cbn [In]; repeat first [left; reflexivity|right].
Theorem kinds_ok s t : discover_type s = Some t <-> reads_as s t.
Proof.
  split.
  - intros E. apply type_some in E as [[-> E]|(a & I & l & J & F)].
    + apply scaled_inv in E as (w & c & -> & N & D & L). apply as_scaled; [exact N|exact D|]. unfold letter, rng in L. unfold a_letter. lia.
    + assert (A : accepts a s) by (exists l; auto). clear J F l. apply rule_cases in I.
      destruct I as [[B ->]|[[B ->]|[[B ->]|[[-> ->]|[(d & B & -> & ->)|[(d & B & -> & ->)|[(d & B & -> & ->)|[(d & B & -> & ->)|[(y & d & By & Bd & -> & ->)|(y & d & By & Bd & -> & ->)]]]]]]]]].
      * apply as_d. exact (day_blk_ok a s B A).
      * apply as_y. exact (year_blk_ok a s B A).
      * destruct B as [-> | ->]; apply digits_back in A as [D L]; apply as_yymmdd; auto.
      * apply as_m. now apply month_is.
      * apply accepts_seq in A as (u & v & -> & A1 & A2). apply as_dm; [exact (day_blk_ok d u B A1)|now apply month_is].
      * apply accepts_seq in A as (u & v & -> & A1 & A2). apply as_md; [exact (day_blk_ok d v B A2)|now apply month_is].
      * apply accepts_seq in A as (u & v & -> & A1 & A2). apply as_ym; [exact (year_blk_ok d u B A1)|now apply month_is].
      * apply accepts_seq in A as (u & v & -> & A1 & A2). apply as_my; [exact (year_blk_ok d v B A2)|now apply month_is].
      * apply accepts_seq in A as (u & v & -> & A1 & A2). apply accepts_seq in A1 as (u1 & u2 & -> & A1 & A3). rewrite <- app_assoc. apply as_ymd; [exact (year_blk_ok y u1 By A1)|now apply month_is|exact (day_blk_ok d v Bd A2)].
      * apply accepts_seq in A as (u & v & -> & A1 & A2). apply accepts_seq in A1 as (u1 & u2 & -> & A1 & A3). rewrite <- app_assoc. apply as_dmy; [exact (year_blk_ok y v By A2)|now apply month_is|exact (day_blk_ok d u1 Bd A1)].
  - intros H. destruct H as [s D|s Y|s D L|s c N D L|s M|d m D M|d m D M|y m Y M|y m Y M|y m d Y M D|y m d Y M D].
    + destruct D as (d & D). now apply sweep_day in D.
    + destruct Y as (d & D). now apply sweep_year in D.
    + now apply type_yymmdd.
    + unfold discover_type. rewrite scaled_ok; [reflexivity|exact N|exact D|]. unfold letter, rng. unfold a_letter in L. lia.
    + apply month_is in M. apply (rule_type blk_month); [pick|exact M].
    + apply month_is in M. apply day_is in D as (a & [-> | ->] & D); eapply rule_type; [|exact (accepts_app _ _ _ _ D M)| |exact (accepts_app _ _ _ _ D M)]; pick.
    + apply month_is in M. apply day_is in D as (a & [-> | ->] & D); eapply rule_type; [|exact (accepts_app _ _ _ _ M D)| |exact (accepts_app _ _ _ _ M D)]; pick.
    + apply month_is in M. apply year_is in Y as (a & [-> | ->] & D); eapply rule_type; [|exact (accepts_app _ _ _ _ D M)| |exact (accepts_app _ _ _ _ D M)]; pick.
    + apply month_is in M. apply year_is in Y as (a & [-> | ->] & D); eapply rule_type; [|exact (accepts_app _ _ _ _ M D)| |exact (accepts_app _ _ _ _ M D)]; pick.
    + apply month_is in M. rewrite app_assoc. apply year_is in Y as (a & [-> | ->] & Y); apply day_is in D as (b & [-> | ->] & D); (eapply rule_type; [|exact (accepts_app _ _ _ _ (accepts_app _ _ _ _ Y M) D)]); pick.
    + apply month_is in M. rewrite app_assoc. apply year_is in Y as (a & [-> | ->] & Y); apply day_is in D as (b & [-> | ->] & D); (eapply rule_type; [|exact (accepts_app _ _ _ _ (accepts_app _ _ _ _ D M) Y)]); pick.
Qed.
