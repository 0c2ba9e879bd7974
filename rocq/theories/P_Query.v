(* From the mails to the results of any search: C108, C109. *)
From Coq Require Import Sorted.
From Verif Require Import Base M_Encoding M_TokTable S_TokTable M_DbFile S_DbFile M_Search M_Tokens S_Tokens M_Mbox S_Mbox S_Header S_Words S_Rfc822 S_Multipart S_Mime M_Rfc822 M_Update S_Update M_Session S_Session M_Program S_Program
  M_Dates S_Dates S_Zone S_Search S_Query L_Mime5 L_Zone L_Dates8 L_Program3 L_Query2 L_Query3 L_Query4.
Local Open Scope Z_scope.

(* C108.  After any history of sessions, a search with any arguments about what mails say returns an entry of the index exactly if its mail
   is as all of the arguments say, now. *)
Theorem C108_expressions : forall M D sd s file h F db r args, machine_ok M -> s_world s = program_world M D -> run_by M ((s, file) :: h) ->
  history ((s, file) :: h) (Some F) -> orderly ((s, file) :: h) -> holds_index (s_world s) F db -> open_db F = Ok r ->
  Forall (arg_ok sd db) args -> Forall about_text args ->
  exists l, search sd F r false (map show_arg args) = Ok l /\ StronglySorted N.lt l /\
    forall i m t lines ns at_, S_Search.message db i = Some m -> text_of D db m t -> Forall (fun c => (c < 256)%N) t -> S_Mime.message (m_isspc M) t lines ns ->
      legible lines ns -> ids_legible lines ns -> dated_at M lines at_ -> (In i l <-> Forall (says_of M sd lines ns at_) args).
Proof. exact expressions_main. Qed.
Print Assumptions C108_expressions.
Example C108_example : machine_ok pr_machine /\ run_by pr_machine pr_h /\ history pr_h (Some pr_F2) /\ orderly pr_h /\ holds_index (s_world pr_s2) pr_F2 pr_db /\
  Forall (arg_ok (dates utc_time utc_mk qu_now) pr_db) qu_args /\ Forall about_text qu_args /\ map show_arg qu_args = [bs "tcf:Joe"; bs "~bye,helo=1"; bs "d:nov"] /\
  S_Search.message pr_db 0 = Some qu_msg /\ text_of pr_d2 pr_db qu_msg ex_mime /\ S_Mime.message isspace ex_mime (map unfolded ex_fs) ex_nodes /\ ids_legible (map unfolded ex_fs) ex_nodes /\
  day_named isspace (map unfolded ex_fs) 2026 10 16.
Proof.
  split; [exact pr_machine_ok|]. split; [exact pr_run_by|]. split; [exact pr_history|]. split; [exact pr_orderly|]. split; [exact (proj1 pr_result)|].
  split; [exact (proj1 qu_args_ok)|]. split; [exact (proj1 (proj2 qu_args_ok))|]. split; [exact (proj2 (proj2 qu_args_ok))|].
  split; [exact qu_message|]. split; [exact qu_text|]. split; [exact ex_mime_ok|]. split; [exact ex_ids_legible|exact ex_day_named].
Qed.
Example C108_example_result : exists r, open_db pr_F2 = Ok r /\ search (dates utc_time utc_mk qu_now) pr_F2 r false (map show_arg qu_args) = Ok [0%N].
Proof. exact qu_found. Qed.

(* C109.  Full statement: d:period finds exactly the mails whose Date field names a day from its first to its last.
   Proved without the first day: where there is no summer time, mails of that day are not found, *)
Theorem C109_days_partial : forall M D localtime mktime now s file h F db r e w, machine_ok M -> s_world s = program_world M D -> run_by M ((s, file) :: h) ->
  history ((s, file) :: h) (Some F) -> orderly ((s, file) :: h) -> holds_index (s_world s) F db -> open_db F = Ok r ->
  zone_ok localtime mktime -> same_clock M mktime -> no_summer_time mktime -> spells e w -> S_Dates.plain e (date_of localtime now) ->
  exists A B l, first_day e (date_of localtime now) A /\ last_day_of e (date_of localtime now) B /\
    search (dates localtime mktime now) F r false [bs "d:" ++ w] = Ok l /\
    forall i m t lines ns y mo d, S_Search.message db i = Some m -> text_of D db m t -> Forall (fun c => (c < 256)%N) t -> S_Mime.message (m_isspc M) t lines ns ->
      legible lines ns -> ids_legible lines ns -> day_named (m_isspc M) lines y mo d ->
      let N := mk y (mo + 1) d in real N -> 0 < m_mktime M (y - 1900) mo d < 2 ^ 32 -> (In i l <-> upto A N /\ N <> A /\ upto N B).
Proof. exact winter_main. Qed.
Print Assumptions C109_days_partial.
(* and where there is, they are found if midnight in standard time is not the first second of the day. *)
Theorem C109_zones_partial : forall M D localtime mktime now s file h F db r e w, machine_ok M -> s_world s = program_world M D -> run_by M ((s, file) :: h) ->
  history ((s, file) :: h) (Some F) -> orderly ((s, file) :: h) -> holds_index (s_world s) F db -> open_db F = Ok r ->
  zone_ok localtime mktime -> spells e w -> S_Dates.plain e (date_of localtime now) ->
  exists A B l, first_day e (date_of localtime now) A /\ last_day_of e (date_of localtime now) B /\
    search (dates localtime mktime now) F r false [bs "d:" ++ w] = Ok l /\
    forall i m t lines ns y mo d, S_Search.message db i = Some m -> text_of D db m t -> Forall (fun c => (c < 256)%N) t -> S_Mime.message (m_isspc M) t lines ns ->
      legible lines ns -> ids_legible lines ns -> day_named (m_isspc M) lines y mo d ->
      let T := m_mktime M (y - 1900) mo d in let N := mk y (mo + 1) d in 0 < T < 2 ^ 32 -> date_of localtime T = N -> ~ last_second localtime N T ->
      (In i l <-> upto A N /\ upto N B /\ ~ (N = A /\ first_second localtime N T)).
Proof. exact days_main. Qed.
Print Assumptions C109_zones_partial.
(* So a search for the very day that a mail names finds nothing. *)
Theorem C109_day_refuted : exists M D localtime mktime now s file h F db r i m t lines ns y mo d w,
  machine_ok M /\ s_world s = program_world M D /\ run_by M ((s, file) :: h) /\ history ((s, file) :: h) (Some F) /\ orderly ((s, file) :: h) /\ holds_index (s_world s) F db /\ open_db F = Ok r /\
  zone_ok localtime mktime /\ same_clock M mktime /\ S_Search.message db i = Some m /\ text_of D db m t /\ S_Mime.message (m_isspc M) t lines ns /\ legible lines ns /\ day_named (m_isspc M) lines y mo d /\
  spells (X_date y (mo + 1) d) w /\ search (dates localtime mktime now) F r false [bs "d:" ++ w] = Ok [].
Proof. exact day_missed. Qed.
Print Assumptions C109_day_refuted.
Example C109_example : zone_ok utc_time utc_mk /\ same_clock pr_machine utc_mk /\ no_summer_time utc_mk /\ spells (X_date 2026 11 16) (bs "20261116") /\ S_Dates.plain (X_date 2026 11 16) (date_of utc_time qu_now) /\
  real (mk 2026 11 16) /\ 0 < m_mktime pr_machine (2026 - 1900) 10 16 < 2 ^ 32.
Proof. exact (conj utc_ok (conj qu_clock (conj utc_no_summer (conj qu_spells (conj qu_plain (conj qu_real qu_moment)))))). Qed.
