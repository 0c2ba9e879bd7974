(* From the days that mails name to the results of d:. *)
From Coq Require Import Sorted.
From Verif Require Import Base M_Encoding M_TokTable S_TokTable M_DbFile S_DbFile M_Search M_Tokens S_Tokens M_Mbox S_Mbox S_Header S_Words S_Rfc822 S_Multipart S_Mime M_Rfc822 M_Update S_Update M_Session S_Session M_Program S_Program
  M_Dates S_Dates S_Zone S_Search S_Query L_Dates2 L_Dates5 L_Dates6 L_Dates7 L_Calendar L_Zone L_Dates8 L_Session5 L_Program2 L_Query.
From Verif Require L_Query2.
Local Open Scope Z_scope.

Section Zone.
Variables (localtime : Z -> tm) (mktime : tm -> tm * Z).
Hypothesis Z0 : zone_ok localtime mktime.
Lemma first_unique D a b : first_second localtime D a -> first_second localtime D b -> a = b.
Proof.
  assert (H : forall a b, first_second localtime D a -> first_second localtime D b -> ~ a < b).
  { intros x y [X1 X2] [Y1 Y2] L. apply Y2. apply upto_antisym.
    - rewrite <- Y1. apply (z_mono _ _ Z0). lia.
    - rewrite <- X1. apply (z_mono _ _ Z0). lia. }
  intros A B. pose proof (H a b A B). pose proof (H b a B A). lia.
Qed.
Lemma last_unique D a b : last_second localtime D a -> last_second localtime D b -> a = b.
Proof.
  assert (H : forall a b, last_second localtime D a -> last_second localtime D b -> ~ a < b).
  { intros x y [X1 X2] [Y1 Y2] L. apply X2. apply upto_antisym.
    - rewrite <- Y1. apply (z_mono _ _ Z0). lia.
    - rewrite <- X1. apply (z_mono _ _ Z0). lia. }
  intros A B. pose proof (H a b A B). pose proof (H b a B A). lia.
Qed.
End Zone.

Lemma days_main : forall M D localtime mktime now s file h F db r e w, machine_ok M -> s_world s = program_world M D -> run_by M ((s, file) :: h) ->
  history ((s, file) :: h) (Some F) -> orderly ((s, file) :: h) -> holds_index (s_world s) F db -> open_db F = Ok r ->
  zone_ok localtime mktime -> spells e w -> S_Dates.plain e (date_of localtime now) ->
  exists A B l, first_day e (date_of localtime now) A /\ last_day_of e (date_of localtime now) B /\
    search (dates localtime mktime now) F r false [bs "d:" ++ w] = Ok l /\
    forall i m t lines ns y mo d, S_Search.message db i = Some m -> text_of D db m t -> Forall (fun c => (c < 256)%N) t -> S_Mime.message (m_isspc M) t lines ns ->
      legible lines ns -> ids_legible lines ns -> day_named (m_isspc M) lines y mo d ->
      let T := m_mktime M (y - 1900) mo d in let N := mk y (mo + 1) d in 0 < T < 2 ^ 32 -> date_of localtime T = N -> ~ last_second localtime N T ->
      (In i l <-> upto A N /\ upto N B /\ ~ (N = A /\ first_second localtime N T)).
Proof.
  intros M D localtime mktime now s file h F db r e w MO EW RB HH OR HI OD Z0 SP PL.
  destruct (period_main localtime mktime now Z0 e w SP PL) as (A & B & a & b & FA & LB & SA & SB & E).
  assert (SD : dates localtime mktime now w = Some (Some a, Some b)) by (unfold dates; now rewrite E).
  destruct (L_Query2.expressions_main M D (dates localtime mktime now) s file h F db r [A_date w] MO EW RB HH OR HI OD) as (l & L & _ & IN).
  { constructor; [|constructor]. split; [now apply (spells_string e)|]. rewrite SD. discriminate. }
  { repeat constructor. }
  exists A, B, l. split; [exact FA|]. split; [exact LB|]. split; [exact L|]. intros i m t lines ns y mo d EM TX BY MS LG LI DN T N RT DT NL.
  assert (DA : dated_at M lines T) by (right; exists y, mo, d; auto). rewrite (IN i m t lines ns T EM TX BY MS LG LI DA).
  assert (U : upto A B). { apply (first_last e (date_of localtime now)); [exact FA|exact LB|]. destruct SA as [<- _]. apply (z_real _ _ Z0). }
  assert (Q : Forall (says_of M (dates localtime mktime now) lines ns T) [A_date w] <-> Z.min a b < T < Z.max a b).
  { split.
    - intros H. apply Forall_inv in H. destruct H as (lo & hi & S & BT). rewrite SD in S. injection S as <- <-. exact BT.
    - intros H. constructor; [|constructor]. exists (Some a), (Some b). split; [exact SD|exact H]. }
  rewrite Q, (days_between localtime mktime now Z0 A B a b T SA SB U), DT. split.
  - intros (H1 & H2 & H3 & H4). split; [exact H1|]. split; [exact H2|]. intros (X & Y). apply H3. rewrite X in Y. exact (first_unique localtime mktime Z0 A T a Y SA).
  - intros (H1 & H2 & H3). split; [exact H1|]. split; [exact H2|]. split.
    + intros ->. apply H3. destruct SA as [X Y]. assert (N = A) as -> by congruence. split; [reflexivity|]. split; assumption.
    + intros X. apply NL. rewrite X in DT. destruct SB as [Y Y']. assert (XB : N = B) by congruence. rewrite XB, X. split; assumption.
Qed.

Lemma midnight_first M mktime localtime y mo d : zone_ok localtime mktime -> same_clock M mktime -> no_summer_time mktime -> real (mk y (mo + 1) d) ->
  first_second localtime (mk y (mo + 1) d) (m_mktime M (y - 1900) mo d) /\ ~ last_second localtime (mk y (mo + 1) d) (m_mktime M (y - 1900) mo d).
Proof.
  intros Z0 SC NS R. rewrite SC. replace {| tm_year := y - 1900; tm_mon := mo; tm_mday := d; tm_hour := 0; tm_min := 0; tm_sec := 0; tm_isdst := 0 |} with (S_Zone.at_ (mk y (mo + 1) d) 0 0 0 0) by (unfold S_Zone.at_, mk; cbn [year month day]; f_equal; lia).
  destruct (NS _ R) as (E1 & E2). split; [rewrite E1; exact (z_first _ _ Z0 _ R)|]. intros L. pose proof (last_unique localtime mktime Z0 _ _ _ L (z_last _ _ Z0 _ R)) as X. lia.
Qed.
Lemma winter_main : forall M D localtime mktime now s file h F db r e w, machine_ok M -> s_world s = program_world M D -> run_by M ((s, file) :: h) ->
  history ((s, file) :: h) (Some F) -> orderly ((s, file) :: h) -> holds_index (s_world s) F db -> open_db F = Ok r ->
  zone_ok localtime mktime -> same_clock M mktime -> no_summer_time mktime -> spells e w -> S_Dates.plain e (date_of localtime now) ->
  exists A B l, first_day e (date_of localtime now) A /\ last_day_of e (date_of localtime now) B /\
    search (dates localtime mktime now) F r false [bs "d:" ++ w] = Ok l /\
    forall i m t lines ns y mo d, S_Search.message db i = Some m -> text_of D db m t -> Forall (fun c => (c < 256)%N) t -> S_Mime.message (m_isspc M) t lines ns ->
      legible lines ns -> ids_legible lines ns -> day_named (m_isspc M) lines y mo d ->
      let N := mk y (mo + 1) d in real N -> 0 < m_mktime M (y - 1900) mo d < 2 ^ 32 -> (In i l <-> upto A N /\ N <> A /\ upto N B).
Proof.
  intros M D localtime mktime now s file h F db r e w MO EW RB HH OR HI OD Z0 SC NS SP PL.
  destruct (days_main M D localtime mktime now s file h F db r e w MO EW RB HH OR HI OD Z0 SP PL) as (A & B & l & FA & LB & L & IN). exists A, B, l. split; [exact FA|]. split; [exact LB|]. split; [exact L|].
  intros i m t lines ns y mo d EM TX BY MS LG LI DN N R RT. destruct (midnight_first M mktime localtime y mo d Z0 SC NS R) as (FS & NL). fold N in FS, NL.
  rewrite (IN i m t lines ns y mo d EM TX BY MS LG LI DN RT (proj1 FS) NL). fold N. split.
  - intros (H1 & H2 & H3). split; [exact H1|]. split; [|exact H2]. intros X. apply H3. split; [exact X|exact FS].
  - intros (H1 & H2 & H3). split; [exact H1|]. split; [exact H3|]. intros (X & _). exact (H2 X).
Qed.
Lemma utc_no_summer : no_summer_time utc_mk.
Proof. intros D R. rewrite !utc_mk_at by exact R. split; lia. Qed.
