(* A mail dated on a day that a search for the day does not find. *)
From Verif Require Import Base M_Encoding M_TokTable S_TokTable M_DbFile S_DbFile M_Search M_Tokens S_Tokens M_Mbox S_Mbox S_Header S_Words S_Rfc822 S_Multipart S_Mime M_Rfc822 M_Update S_Update M_Session S_Session M_Program S_Program
  M_Dates S_Dates S_Zone S_Search S_Query L_Rfc822d L_Words3 L_Mime4 L_Mime5 L_Calendar L_Zone L_Dates8 L_Program2 L_Program3 L_Query3.
Local Open Scope Z_scope.

Lemma ex_ids_legible : ids_legible (map unfolded ex_fs) ex_nodes.
Proof.
  constructor; [intros v []|]. intros name l n [E|[E|[E|[]]]]; try discriminate. injection E as <- <- <-. constructor; [intros v []|]. intros nm l n [E|[]]. discriminate.
Qed.
Lemma ex_day_named : day_named isspace (map unfolded ex_fs) 2026 10 16.
Proof.
  exists ex_date, ex_date. split; [vm_compute; reflexivity|]. split; [apply reads_plain; apply no_word; vm_compute; lia|]. split; [vm_compute; intuition discriminate|exact ex_dated].
Qed.
Definition qu_msg : msg := Eval vm_compute in match msgs pr_db with m :: _ => m | [] => {| src := S_dead; M_DbFile.date := 0%N; tid := 0%N; seen := false; replied := false; flagged := false |} end.
Lemma qu_text : text_of pr_d2 pr_db qu_msg ex_mime.
Proof. eapply (To_file _ _ _ _ (bs "/m/1")); [vm_compute; reflexivity| |vm_compute; reflexivity]. intros (q & H). apply (f_equal (@length N)) in H. rewrite app_length in H. change (4 = length q + 11)%nat in H. lia. Qed.
Lemma qu_clock : same_clock pr_machine utc_mk.
Proof. intros y m d. reflexivity. Qed.
(* noon of 20 November 2026 *)
Definition qu_now : Z := 1795176000.
Lemma qu_spells : spells (X_date 2026 11 16) (bs "20261116").
Proof. exact (sp_date8 2026 11 16 ltac:(lia) ltac:(lia) ltac:(lia)). Qed.
Lemma qu_plain : S_Dates.plain (X_date 2026 11 16) (date_of utc_time qu_now).
Proof. repeat split; vm_compute; congruence. Qed.
Lemma qu_real : real (mk 2026 11 16).
Proof. repeat split; vm_compute; congruence. Qed.
Lemma qu_moment : 0 < m_mktime pr_machine (2026 - 1900) 10 16 < 2 ^ 32.
Proof. vm_compute. split; reflexivity. Qed.
Lemma qu_message : S_Search.message pr_db 0 = Some qu_msg.
Proof. vm_compute. reflexivity. Qed.
Lemma qu_bytes : Forall (fun c => (c < 256)%N) ex_mime.
Proof. apply small_by. vm_compute. reflexivity. Qed.
Lemma day_missed : exists M D localtime mktime now s file h F db r i m t lines ns y mo d w,
  machine_ok M /\ s_world s = program_world M D /\ run_by M ((s, file) :: h) /\ history ((s, file) :: h) (Some F) /\ orderly ((s, file) :: h) /\ holds_index (s_world s) F db /\ open_db F = Ok r /\
  zone_ok localtime mktime /\ same_clock M mktime /\ S_Search.message db i = Some m /\ text_of D db m t /\ S_Mime.message (m_isspc M) t lines ns /\ legible lines ns /\ day_named (m_isspc M) lines y mo d /\
  spells (X_date y (mo + 1) d) w /\ search (dates localtime mktime now) F r false [bs "d:" ++ w] = Ok [].
Proof.
  assert (OP : exists r, open_db pr_F2 = Ok r /\ search (dates utc_time utc_mk qu_now) pr_F2 r false [bs "d:" ++ bs "20261116"] = Ok []) by (eexists; split; [vm_compute; reflexivity|vm_compute; reflexivity]).
  destruct OP as (r & EO & ES).
  exists pr_machine, pr_d2, utc_time, utc_mk, qu_now, pr_s2, pr_f1, [(pr_s1, None)], pr_F2, pr_db, r, 0%N, qu_msg, ex_mime, (map unfolded ex_fs), ex_nodes, 2026, 10, 16, (bs "20261116").
  split; [exact pr_machine_ok|]. split; [reflexivity|]. split; [exact pr_run_by|]. split; [exact pr_history|]. split; [exact pr_orderly|]. split; [exact (proj1 pr_result)|]. split; [exact EO|].
  split; [exact utc_ok|]. split; [exact qu_clock|]. split; [exact qu_message|]. split; [exact qu_text|]. split; [exact ex_mime_ok|]. split; [exact pr_legible|]. split; [exact ex_day_named|]. split; [exact qu_spells|exact ES].
Qed.
Definition qu_args : list sarg :=
  [A_words (Some (bs "tcf")) [[{| s_not := false; s_anchor := false; s_text := bs "Joe"; s_like := None |}]];
   A_words None [[{| s_not := true; s_anchor := false; s_text := bs "bye"; s_like := None |}; {| s_not := false; s_anchor := false; s_text := bs "helo"; s_like := Some (bs "1") |}]];
   A_date (bs "nov")].
Lemma qu_args_ok : Forall (arg_ok (dates utc_time utc_mk qu_now) pr_db) qu_args /\ Forall about_text qu_args /\ map show_arg qu_args = [bs "tcf:Joe"; bs "~bye,helo=1"; bs "d:nov"].
Proof.
  assert (PL : forall s, forallb (fun c => (0 <? c)%N && (c <? 256)%N && negb (c =? ch ",")%N && negb (c =? ch "/")%N && negb (c =? ch "=")%N && negb (c =? ch ":")%N && negb (isspace c)) s = true -> Forall S_Search.plain s).
  { intros s H. apply Forall_forall. intros c I. rewrite forallb_forall in H. specialize (H c I). rewrite !andb_true_iff, !negb_true_iff, !N.eqb_neq, !N.ltb_lt in H. unfold S_Search.plain, c_char. intuition. }
  assert (T : forall t, In t [{| s_not := false; s_anchor := false; s_text := bs "Joe"; s_like := None |}; {| s_not := true; s_anchor := false; s_text := bs "bye"; s_like := None |}; {| s_not := false; s_anchor := false; s_text := bs "helo"; s_like := Some (bs "1") |}] -> term_ok t).
  { intros t [<-|[<-|[<-|[]]]]; (split; [apply PL; vm_compute; reflexivity|]; split; [intros c s E; injection E as <- <-; split; vm_compute; discriminate|]); cbn [s_like]; auto.
    split; [repeat constructor|]. split; [vm_compute; reflexivity|]. split; [vm_compute; lia|discriminate]. }
  split; [|split].
  - constructor; [|constructor; [|constructor; [|constructor]]]; cbn [arg_ok].
    + split; [discriminate|]. split; [intros ts [<-|[]]; split; [discriminate|]; intros t [<-|[]]; apply T; cbn; auto|]. split; [discriminate|]. split; [repeat constructor; vm_compute; discriminate|]. intros I. exfalso. vm_compute in I. intuition discriminate.
    + split; [discriminate|]. split; [intros ts [<-|[]]; split; [discriminate|]; intros t [<-|[<-|[]]]; apply T; cbn; auto|]. split; [discriminate|]. exact Logic.I.
    + split; [repeat constructor; vm_compute; auto|]. vm_compute. discriminate.
  - constructor; [|constructor; [|constructor; [|constructor]]]; cbn; auto. intuition discriminate.
  - vm_compute. reflexivity.
Qed.
Lemma qu_found : exists r, open_db pr_F2 = Ok r /\ search (dates utc_time utc_mk qu_now) pr_F2 r false (map show_arg qu_args) = Ok [0%N].
Proof. eexists. split; [vm_compute; reflexivity|vm_compute; reflexivity]. Qed.
