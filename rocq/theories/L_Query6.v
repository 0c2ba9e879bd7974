(* Two sessions, and searches for paths, sizes and flags. *)
From Verif Require Import Base M_Encoding M_TokTable S_TokTable M_DbFile S_DbFile M_Search S_Search M_Tokens S_Tokens M_Mbox S_Mbox S_Header S_Words S_Rfc822 S_Multipart S_Mime M_Rfc822 M_Update S_Update M_Session S_Session M_Program S_Program S_Query S_Query2
  L_TokTable L_DbFile7 L_Output3 L_Search6 L_Update13 L_Update14 L_Session2 L_Session5 L_Session6 L_Multipart2 L_Rfc822b L_Rfc822d L_Words3 L_Mime4 L_Mime5 L_Program L_Program2 L_Program3.
From Verif Require M_Paths M_Dates L_Zone.
Local Open Scope N_scope.

Definition al_box : bytes := L_Multipart2.nl "From joe Mon Nov 16 12:00:00 2026" ++ L_Multipart2.nl "Subject: box" ++ L_Multipart2.nl "Status: RO" ++ L_Multipart2.nl "" ++ L_Multipart2.nl "mild greetings".
Definition al_files1 := [(bs "/m/1:2,RS", (10, ex_mime)); (bs "/box", (30, al_box))].
Definition al_files2 := [(bs "/m/1:2,RS", (10, ex_mime)); (bs "/m/2", (20, pr_small)); (bs "/box", (30, al_box))].
Definition al_d1 := pr_disc al_files1 pr_served.
Definition al_d2 := pr_disc al_files2 pr_served.
Definition al_s1 := pr_session al_d1 [file "/m/1:2,RS"].
Definition al_s2 := pr_session al_d2 [file "/m/1:2,RS"; file "/m/2"].
Definition al_f1 : option bytes := Eval vm_compute in get_file (index_session al_s1 100 None).
Definition al_f2 : option bytes := Eval vm_compute in get_file (index_session al_s2 100 al_f1).
Definition al_F2 : bytes := Eval vm_compute in match al_f2 with Some F => F | None => [] end.
Definition al_db : database := Eval vm_compute in match load (w_hash (s_world al_s2)) (fun _ => 0) 0 al_F2 with Ok db => db | Err _ => new_database 0 end.
Definition al_h := [(al_s2, al_f1); (al_s1, None)].
Lemma al_history : history al_h (Some al_F2).
Proof.
  unfold al_h. apply (History_next _ 100%nat al_s2 al_f1 (Some al_F2)); [|apply pr_fit; [repeat constructor; cbn; intuition discriminate|now vm_compute|now vm_compute|now vm_compute]|repeat constructor|now vm_compute].
  apply (History_next _ 100%nat al_s1 None al_f1); [constructor|apply pr_fit; [repeat constructor; cbn; intuition discriminate|now vm_compute|now vm_compute|now vm_compute]|repeat constructor|now vm_compute].
Qed.
Lemma al_run_by : run_by pr_machine al_h.
Proof.
  unfold run_by, al_h. constructor; [exists al_d2; split; [apply pr_disc_ok|split; [reflexivity|apply pr_sound; now vm_compute]]|].
  constructor; [exists al_d1; split; [apply pr_disc_ok|split; [reflexivity|apply pr_sound; now vm_compute]]|constructor].
Qed.
(* what was there is unchanged *)
Lemma al_look p : lookup p al_files1 = None \/ lookup p al_files2 = lookup p al_files1.
Proof.
  unfold lookup, al_files1, al_files2. cbn [find fst]. destruct (bytes_eqb (bs "/m/1:2,RS") p); [right; reflexivity|]. destruct (bytes_eqb (bs "/box") p) eqn:E3; [|left; reflexivity].
  destruct (bytes_eqb (bs "/m/2") p) eqn:E2; [|right; reflexivity]. apply bytes_eqb_eq in E2, E3. rewrite <- E3 in E2. discriminate.
Qed.
Lemma al_same p : lookup p al_files1 <> None -> d_map al_d2 p = d_map al_d1 p.
Proof. intros H. destruct (al_look p) as [E|E]; [contradiction|]. unfold al_d1, al_d2, pr_disc. cbn [d_map]. rewrite E. reflexivity. Qed.
Lemma al_there p x : d_stat al_d1 p = Some x \/ (exists y, d_lstat al_d1 p = Some y) \/ (exists y, d_map al_d1 p = Mapped y) -> lookup p al_files1 <> None.
Proof. unfold al_d1, pr_disc. cbn [d_stat d_lstat d_map]. intros H E. rewrite E in H. destruct H as [H|[[y H]|[y H]]]; discriminate. Qed.
Lemma al_orderly : orderly al_h.
Proof.
  split.
  - unfold al_h. constructor; [|constructor; [constructor|constructor]]. constructor; [|constructor]. cbn [fst]. constructor; cbn [al_s1 al_s2 pr_session s_world s_found s_fast program_world w_stat w_lstat w_map w_imap w_csum].
    + intros p mt sz _ E _. apply al_same. apply (al_there p _ (or_introl E)).
    + intros p _ _. reflexivity.
    + intros p l0 l mt sz E _. apply al_same. apply (al_there p (M_Paths.K_reg, 0, 0)). right; left; eauto.
    + intros p va0 va st ln E0 E _ _ _. assert (X : d_map al_d2 p = d_map al_d1 p) by (apply al_same; apply (al_there p (M_Paths.K_reg, 0, 0)); right; right; eauto). rewrite E, E0 in X. injection X as ->. reflexivity.
  - repeat constructor; cbn [fst snd]; apply ex_undisturbed; now vm_compute.
Qed.
Lemma al_result : holds_index (s_world al_s2) al_F2 al_db /\ map src (msgs al_db) = [S_file (bs "/m/1:2,RS") 10 318; S_mbox 0 0; S_file (bs "/m/2") 20 62].
Proof. split; now vm_compute. Qed.
Lemma al_sizes files t p mt sz va : w_stat (program_world pr_machine (pr_disc files t)) p = Some (M_Paths.K_reg, mt, sz) -> w_map (program_world pr_machine (pr_disc files t)) p = Mapped va -> sz = N.of_nat (length va).
Proof.
  cbn [program_world w_stat w_map pr_disc d_stat d_map]. destruct (lookup p files) as [[m x]|]; [|discriminate]. intros E1 E2. injection E1 as _ <-. destruct x as [|c x]; [discriminate|].
  destruct (N.ltb_spec (N.of_nat (length (c :: x))) (2 ^ 32)); [|discriminate]. injection E2 as <-. unfold u32. apply N.mod_small. exact H.
Qed.
Lemma al_true_sizes : true_sizes al_h.
Proof. unfold true_sizes, al_h. constructor; [|constructor; [|constructor]]; cbn [fst]; intros p mt sz va; apply al_sizes. Qed.
Definition al_msg : msg := Eval vm_compute in match msgs al_db with m :: _ => m | [] => {| src := S_dead; M_DbFile.date := 0%N; tid := 0%N; seen := false; replied := false; flagged := false |} end.
Lemma al_message : S_Search.message al_db 0 = Some al_msg.
Proof. vm_compute. reflexivity. Qed.
Lemma al_text : text_of al_d2 al_db al_msg ex_mime.
Proof. eapply (To_file _ _ _ _ (bs "/m/1:2,RS")); [vm_compute; reflexivity| |vm_compute; reflexivity]. intros (q & H). apply (f_equal (@length N)) in H. rewrite app_length in H. change (9 = length q + 11)%nat in H. lia. Qed.
Lemma al_lies : lies al_db al_msg (bs "/m/1:2,RS") true.
Proof. eapply Li_file. vm_compute. reflexivity. Qed.
(* p:/m/ z:300- F:sr-f *)
Definition al_args : list sarg :=
  [A_words (Some (bs "p")) [[{| s_not := false; s_anchor := false; s_text := bs "m"; s_like := None |}]];
   A_size (Some {| z_digits := bs "300"; z_unit := None |}) None; A_flags [(false, ch "s"); (false, ch "r"); (true, ch "f")]].
Lemma al_no_imap : no_imap al_db.
Proof. intros m p I. vm_compute in I. destruct I as [<-|[<-|[<-|[]]]]; discriminate. Qed.
Lemma al_named : boxes_named al_db.
Proof. intros m fi mi I E. vm_compute in I. destruct I as [<-|[<-|[<-|[]]]]; vm_compute; discriminate. Qed.
Lemma al_args_ok sd : Forall (arg_ok sd al_db) al_args /\ map show_arg al_args = [bs "p:m"; bs "z:300-"; bs "F:sr-f"].
Proof.
  split; [|vm_compute; reflexivity]. constructor; [|constructor; [|constructor; [|constructor]]]; cbn [arg_ok].
  - split; [discriminate|]. split; [intros ts [<-|[]]; split; [discriminate|]; intros t [<-|[]]; split; [repeat constructor; vm_compute; congruence|]; split; [intros c s E; injection E as <- <-; split; vm_compute; discriminate|exact Logic.I]|].
    split; [discriminate|]. split; [repeat constructor; vm_compute; discriminate|]. intros _. split; [reflexivity|]. split; [exact al_no_imap|]. split; [exact al_named|]. intros ts t [<-|[]] [<-|[]]. vm_compute. lia.
  - split; [|split; [exact Logic.I|exact al_no_imap]]. split; [discriminate|]. split; [repeat constructor|]. split; [vm_compute; reflexivity|exact Logic.I].
  - intros ng c [E|[E|[E|[]]]]; injection E as <- <-; vm_compute; tauto.
Qed.
Lemma al_found : exists r, open_db al_F2 = Ok r /\ search (fun _ => None) al_F2 r false (map show_arg al_args) = Ok [0] /\ search (fun _ => None) al_F2 r false [bs "F:s"] = Ok [0; 1] /\ search (fun _ => None) al_F2 r false [bs "z:-100"] = Ok [1; 2].
Proof. eexists. split; [vm_compute; reflexivity|]. split; [now vm_compute|]. split; now vm_compute. Qed.
