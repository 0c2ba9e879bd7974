(* Lemmas about dates.c: the times a range stands for. *)
From Coq Require Import Lia.
From Verif Require Import Base M_Dates S_Dates S_Zone L_TokTable L_Dates L_Dates2 L_Dates3 L_Dates4 L_Dates5 L_Dates6 L_Calendar.
Local Open Scope Z_scope.

Lemma latest_unique : forall P ref D D', latest P ref D -> latest P ref D' -> D = D'.
Proof. intros P ref D D' (R & H & U & M) (R' & H' & U' & M'). apply upto_antisym; auto. Qed.
Lemma first_last : forall e ref A B, first_day e ref A -> last_day_of e ref B -> real A -> upto A B.
Proof.
  intros e ref A B F L R. destruct L as [y ref|m ref D FD|m y ref|e ref D FD SG].
  - inversion F; subst. right. cbn [year month day mk]. lia.
  - inversion F; subst. inversion FD; subst. assert (A = D) by (eapply latest_unique; eassumption). subst D.
    match goal with H : latest _ _ A |- _ => destruct H as (RA & [M1 D1] & _) end. right. cbn [year month day mk]. pose proof (month_len_bounds (year A) m). lia.
  - inversion F; subst. right. cbn [year month day mk]. pose proof (month_len_bounds y m). lia.
  - assert (A = D) as ->; [|apply upto_refl]. destruct e; try contradiction; inversion F; inversion FD; subst; try reflexivity; eapply latest_unique; eassumption.
Qed.

Section Meaning.
Context (localtime : Z -> tm) (mktime : tm -> tm * Z) (now : Z).
Hypothesis Z0 : zone_ok localtime mktime.
Let today := date_of localtime now.
Let sds := scan_date_string localtime mktime now.
Lemma set_today : forall h m s dst, set_time (localtime now) h m s dst = at_ today h m s dst.
Proof. intros. unfold set_time, at_, today, date_of, mk. cbn [year month day]. f_equal; lia. Qed.
Lemma local_at : forall t, localtime t = same_time localtime t (date_of localtime t) (tm_isdst (localtime t)).
Proof. intro t. unfold same_time, at_, date_of, mk. cbn [year month day]. destruct (localtime t) as [q1 q2 q3 q4 q5 q6 q7]. cbn [tm_year tm_mon tm_mday tm_hour tm_min tm_sec tm_isdst]. f_equal; lia. Qed.
Lemma date_same : forall t t' D dst, localtime t = same_time localtime t' D dst -> date_of localtime t = D.
Proof. intros t t' D dst H. unfold date_of. rewrite H. destruct D as [yy mm dd]. unfold same_time, at_, mk. cbn [tm_year tm_mon tm_mday year month day]. f_equal; lia. Qed.
Lemma to_days : forall e w ref h m s dst, real ref -> spells e w -> plain e ref ->
  (exists A, first_day e ref A /\ real A /\ scan_date_expr localtime now true w (at_ ref h m s dst) = Ok (Some (at_ A h m s dst))) /\
  (exists B, last_day_of e ref B /\ real B /\ scan_date_expr localtime now false w (at_ ref h m s dst) = Ok (Some (at_ B h m s dst))).
Proof. intros. now apply (expr_days ref h m s dst). Qed.

Lemma period_main : forall e w, spells e w -> plain e today ->
  exists A B a b, first_day e today A /\ last_day_of e today B /\ first_second localtime A a /\ last_second localtime B b /\
    sds w = Ok (Some (Some a, Some b)).
Proof.
  intros e w SP P. pose proof (z_real _ _ Z0 now) as R. fold today in R.
  destruct (to_days e w today 0 0 0 (-1) R SP P) as [(A & FA & RA & EA) _]. destruct (to_days e w today 23 59 59 (-1) R SP P) as [_ (B & LB & RB & EB)].
  exists A, B, (snd (mktime (at_ A 0 0 0 (-1)))), (snd (mktime (at_ B 23 59 59 (-1)))). split; [exact FA|]. split; [exact LB|].
  split; [now apply (z_first _ _ Z0)|]. split; [now apply (z_last _ _ Z0)|].
  unfold sds, scan_date_string. cbv zeta. rewrite split_none by apply (spells_hyphen e w SP). rewrite !set_today, EA. cbn [bind]. rewrite EB. reflexivity.
Qed.
Lemma from_main : forall e w, spells e w -> plain e today ->
  exists A a, first_day e today A /\ first_second localtime A a /\ sds (w ++ [ch "-"]) = Ok (Some (Some a, None)).
Proof.
  intros e w SP P. pose proof (z_real _ _ Z0 now) as R. fold today in R.
  destruct (to_days e w today 0 0 0 (-1) R SP P) as [(A & FA & RA & EA) _].
  exists A, (snd (mktime (at_ A 0 0 0 (-1)))). split; [exact FA|]. split; [now apply (z_first _ _ Z0)|]. destruct (spells_hyphen e w SP) as [NH NE].
  unfold sds, scan_date_string. cbv zeta. change (ch "-") with 45%N. rewrite split_some by exact NH. cbn [bind]. destruct w as [|c w]; [congruence|].
  rewrite set_today, EA. reflexivity.
Qed.
Let ends := ends localtime now.
Lemma end_main : forall e w, spells e w -> plain e today \/ (exists n u, e = X_ago n u) /\ in_range e ->
  exists x b, ends e b /\ scan_date_expr localtime now false w (set_time (localtime now) 23 59 59 (-1)) = Ok (Some x) /\ mktime x = (localtime b, b).
Proof.
  intros e w SP [P|[(n & u & ->) R]].
  - pose proof (z_real _ _ Z0 now) as R. fold today in R. destruct (to_days e w today 23 59 59 (-1) R SP P) as [_ (B & LB & RB & EB)].
    rewrite set_today. exists (at_ B 23 59 59 (-1)), (snd (mktime (at_ B 23 59 59 (-1)))). split; [left|split; [exact EB|]].
    + exists B. split; [exact LB|now apply (z_last _ _ Z0)].
    + rewrite (surjective_pairing (mktime _)) at 1. now rewrite (z_norm _ _ Z0).
  - destruct (ago_inv _ _ _ SP) as (w' & -> & NE & D & ->). exists (localtime (now - number w' * unit_seconds u)), (now - number w' * unit_seconds u).
    split; [right; now eexists; eexists|split].
    + now apply expr_ago.
    + apply (z_back _ _ Z0).
Qed.
Lemma until_main : forall e w, spells e w -> plain e today \/ (exists n u, e = X_ago n u) /\ in_range e ->
  exists b, ends e b /\ sds (ch "-" :: w) = Ok (Some (None, Some b)).
Proof.
  intros e w SP H. destruct (end_main e w SP H) as (x & b & E & SC & MK). exists b. split; [exact E|]. destruct (spells_hyphen e w SP) as [NH NE].
  unfold sds, scan_date_string. cbv zeta. change (ch "-" :: w) with ([] ++ 45%N :: w). rewrite (split_some [] w (fun H => H)). destruct w as [|c w]; [congruence|].
  rewrite SC. cbn [bind]. rewrite MK. reflexivity.
Qed.
Lemma ago_start : forall n u w x, spells (X_ago n u) w -> in_range (X_ago n u) -> exists y, scan_date_expr localtime now true w x = Ok (Some y) /\ mktime y = (localtime (now - n * unit_seconds u), now - n * unit_seconds u).
Proof. intros n u w x SP R. destruct (ago_inv _ _ _ SP) as (w' & -> & NE & D & ->). eexists. split; [now apply expr_ago|apply (z_back _ _ Z0)]. Qed.
Lemma ago_period : forall n u w, spells (X_ago n u) w -> in_range (X_ago n u) ->
  sds w = Ok (Some (Some (now - n * unit_seconds u), Some (now - n * unit_seconds u))).
Proof.
  intros n u w SP R. unfold sds, scan_date_string. cbv zeta. rewrite split_none by apply (spells_hyphen _ w SP).
  destruct (ago_inv _ _ _ SP) as (w' & -> & NE & D & ->). rewrite !expr_ago by assumption. cbn [bind]. now rewrite (z_back _ _ Z0).
Qed.
Lemma ago_from : forall n u w, spells (X_ago n u) w -> in_range (X_ago n u) -> sds (w ++ [ch "-"]) = Ok (Some (Some (now - n * unit_seconds u), None)).
Proof.
  intros n u w SP R. destruct (spells_hyphen _ w SP) as [NH NE0]. unfold sds, scan_date_string. cbv zeta. change (ch "-") with 45%N. rewrite split_some by exact NH.
  cbn [bind]. destruct w as [|c w]; [congruence|]. destruct (ago_start n u _ (set_time (localtime now) 0 0 0 (-1)) SP R) as (y & E & M). rewrite E. cbn [bind]. now rewrite M.
Qed.
Lemma both_main : forall e1 w1 e2 w2, steady localtime mktime -> spells e1 w1 -> spells e2 w2 ->
  plain e2 today \/ (exists n u, e2 = X_ago n u) /\ in_range e2 ->
  exists b, ends e2 b /\
    (plain e1 (date_of localtime b) -> exists A a dst, first_day e1 (date_of localtime b) A /\ localtime a = same_time localtime b A dst /\
       sds (w1 ++ ch "-" :: w2) = Ok (Some (Some a, Some b))) /\
    (forall n u, e1 = X_ago n u -> in_range e1 -> sds (w1 ++ ch "-" :: w2) = Ok (Some (Some (now - n * unit_seconds u), Some b))).
Proof.
  intros e1 w1 e2 w2 ST S1 S2 H. destruct (end_main e2 w2 S2 H) as (x & b & E & SC & MK). exists b. split; [exact E|].
  destruct (spells_hyphen e1 w1 S1) as [NH1 NE1], (spells_hyphen e2 w2 S2) as [NH2 NE2].
  assert (G : forall y, scan_date_expr localtime now true w1 (localtime b) = Ok (Some y) -> sds (w1 ++ ch "-" :: w2) = Ok (Some (Some (snd (mktime y)), Some b))).
  { intros y Y. unfold sds, scan_date_string. cbv zeta. change (ch "-") with 45%N. rewrite split_some by exact NH1. destruct w2 as [|b0 w2]; [congruence|]. destruct w1 as [|a0 w1]; [congruence|].
    rewrite SC. cbn [bind]. rewrite MK. cbn [fst snd]. rewrite Y. reflexivity. }
  split.
  - intro P. pose proof (z_real _ _ Z0 b) as R. set (L := localtime b) in *.
    destruct (to_days e1 w1 (date_of localtime b) (tm_hour L) (tm_min L) (tm_sec L) (tm_isdst L) R S1 P) as [(A & FA & RA & EA) _].
    destruct (ST b A RA) as [dst D]. exists A, (snd (mktime (same_time localtime b A (tm_isdst L)))), dst. split; [exact FA|]. split; [exact D|].
    apply G. unfold L at 1. rewrite local_at. exact EA.
  - intros n u -> R. destruct (ago_start n u w1 (localtime b) S1 R) as (y & Y & M). specialize (G y Y). now rewrite M in G.
Qed.

(* Which moments lie strictly between. *)
Lemma days_between : forall A B a b t, first_second localtime A a -> last_second localtime B b -> upto A B ->
  Z.min a b < t < Z.max a b <-> upto A (date_of localtime t) /\ upto (date_of localtime t) B /\ t <> a /\ t <> b.
Proof.
  intros A B a b t [A1 A2] [B1 B2] U. pose proof (z_mono _ _ Z0) as M.
  assert (GA : forall t, upto A (date_of localtime t) <-> a <= t).
  { intro u. split; intro H.
    - destruct (Z.le_gt_cases a u) as [|L]; [assumption|]. exfalso. apply A2. apply upto_antisym.
      + rewrite <- A1. apply M. lia.
      + eapply upto_trans; [exact H|]. apply M. lia.
    - rewrite <- A1. now apply M. }
  assert (GB : forall t, upto (date_of localtime t) B <-> t <= b).
  { intro u. split; intro H.
    - destruct (Z.le_gt_cases u b) as [|L]; [assumption|]. exfalso. apply B2. apply upto_antisym.
      + eapply upto_trans; [|exact H]. apply M. lia.
      + rewrite <- B1. apply M. lia.
    - rewrite <- B1. now apply M. }
  assert (O : a <= b) by (apply GA; now rewrite B1). rewrite (GA t), (GB t). lia.
Qed.
End Meaning.
