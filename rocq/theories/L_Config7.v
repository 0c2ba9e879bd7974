(* Checks and examples for configuration. *)
From Verif Require Import Base M_Config S_Config L_TokTable L_Config L_Config2 L_Config3 L_Config4 L_Config5 L_Config6.
Local Open Scope N_scope.

Definition quiet (c : N) : bool := negb (c =? 0) && negb (c =? 10) && negb (comment_char c).
Lemma quiet_ok s : forallb quiet s = true -> no_comment s.
Proof.
  intros H. rewrite forallb_forall in H. apply Forall_forall. intros x I. specialize (H x I). unfold quiet in H. rewrite !andb_true_iff, !negb_true_iff, !N.eqb_neq, comment_char_false in H. tauto.
Qed.
Definition effect_eqb (a b : effect) : bool :=
  match a, b with Assign v, Assign w | Append v, Append w => var_eqb v w | Symlinks, Symlinks | Nochecks, Nochecks | By_date, By_date | Format, Format => true | _, _ => false end.
Lemma effect_eqb_eq a b : effect_eqb a b = true -> a = b.
Proof. destruct a, b; cbn [effect_eqb]; try discriminate; try reflexivity; intros H; apply var_eqb_eq in H; now subst. Qed.
Definition line_okb (space : N -> bool) (l : line) : bool :=
  forallb space (blanks l) && forallb quiet (blanks l) && forallb quiet (content_text (said l)) &&
  match content_text (said l) with c :: _ => negb (space c) | [] => true end &&
  match said l with
  | Nothing => true
  | Option k e k' v => existsb (fun x => bytes_eqb (fst x) k && effect_eqb (snd x) e) keywords && bytes_eqb (map tolower k') k
  | Unknown p => match p with [] => false | _ => true end && negb (is_key p (bs "base")) && negb (is_key p (bs "folders")) && forallb (fun x => negb (is_key p (fst x))) keywords
  end &&
  match comment l with [] => true | c :: s => comment_char c && forallb (fun x => negb (x =? 0) && negb (x =? 10)) s end &&
  (N.of_nat (length (line_text l)) <=? 4092).
Lemma line_okb_ok space l : line_okb space l = true -> line_ok space l.
Proof.
  unfold line_okb. rewrite !andb_true_iff. intros ((((((H1 & H2) & H3) & H4) & H5) & H6) & H7). constructor.
  - split; [apply Forall_forall; now apply forallb_forall|now apply quiet_ok].
  - now apply quiet_ok.
  - intros c s E. rewrite E in H4. now apply negb_true_iff in H4.
  - destruct (said l) as [|k e k' v|p]; [exact Logic.I| |].
    + apply andb_true_iff in H5 as [A B]. apply bytes_eqb_eq in B. split; [|exact B]. apply existsb_exists in A as ([k1 e1] & I & A). cbn [fst snd] in A. apply andb_true_iff in A as [A1 A2]. apply bytes_eqb_eq in A1. apply effect_eqb_eq in A2. now subst.
    + rewrite !andb_true_iff, !negb_true_iff in H5. destruct H5 as (((A & B) & C) & D). split; [destruct p; discriminate|].
      split; [intros X; apply is_key_begins in X; congruence|]. split; [intros X; apply is_key_begins in X; congruence|].
      intros k e I X. apply is_key_begins in X. rewrite forallb_forall in D. specialize (D _ I). cbn [fst] in D. apply negb_true_iff in D. congruence.
  - destruct (comment l) as [|c s]; [now left|]. right. exists c, s. apply andb_true_iff in H6 as [A B]. split; [reflexivity|]. split; [now apply comment_char_iff|].
    apply Forall_forall. intros x I. rewrite forallb_forall in B. specialize (B x I). rewrite andb_true_iff, !negb_true_iff, !N.eqb_neq in B. exact B.
  - lia.
Qed.
Definition lines_okb (space : N -> bool) (ls : list line) : bool := forallb (line_okb space) ls.
Lemma lines_okb_ok space ls : lines_okb space ls = true -> Forall (line_ok space) ls.
Proof. intros H. apply Forall_forall. intros l I. apply line_okb_ok. unfold lines_okb in H. rewrite forallb_forall in H. now apply H. Qed.

(* ---- examples ---- *)
Definition cfg_env (n : bytes) : option bytes :=
  (if bytes_eqb n (bs "HOME") then Some (bs "/home/me") else if bytes_eqb n (bs "MAIRIX_DATABASE") then Some (bs "/tmp/db")
   else if bytes_eqb n (bs "BOX") then Some (bs "in") else None)%string.
Definition cfg_lines : list line :=
  [{| blanks := []; said := Nothing; comment := bs "# my settings" |};
   {| blanks := []; said := Option (bs "base=") (Assign V_base) (bs "Base=") (bs "~/Mail"); comment := [] |};
   {| blanks := bs "  "; said := Option (bs "mbox=") (Append V_mboxen) (bs "mbox=") (bs "${BOX}box:old/$BOX"); comment := [] |};
   {| blanks := []; said := Option (bs "mbox=") (Append V_mboxen) (bs "MBOX=") (bs "sent"); comment := bs "; copies" |};
   {| blanks := []; said := Option (bs "database=") (Assign V_database) (bs "database=") (bs "~/.mairix"); comment := [] |};
   {| blanks := []; said := Unknown (bs "colour=red"); comment := [] |};
   {| blanks := []; said := Option (bs "mformat=") Format (bs "mformat=") (bs "mh"); comment := [] |};
   {| blanks := []; said := Option (bs "mfolder=") (Assign V_mfolder) (bs "mfolder=") (bs "found"); comment := [] |};
   {| blanks := []; said := Option (bs "nochecks") Nochecks (bs "nochecks") []; comment := [] |}].
Lemma cfg_lines_ok : Forall (line_ok isspace) cfg_lines.
Proof. apply lines_okb_ok. vm_compute. reflexivity. Qed.
Definition cfg_options : list (opt * bytes) := [(O_threads, []); (O_rcfile, bs "my.rc")].
Definition cfg_spelled : list (list bytes) := [[bs "-t"]; [bs "--rcfile"; bs "my.rc"]].
Definition cfg_words : list bytes := [bs "f:me"; bs "-x"].
Definition cfg_scan (b : bytes) : option N := match b with [] => None | _ => Some 1 end.
Definition cfg_files (n : bytes) : option bytes := if bytes_eqb n (bs "my.rc") then Some (flat_map line_text cfg_lines) else None.
Lemma cfg_spelled_ok : Forall2 (spelled cfg_scan) cfg_options cfg_spelled.
Proof.
  constructor; [|constructor; [|constructor]].
  - eapply (Sp_plain cfg_scan O_threads); [unfold names; cbn [In]; eauto|cbn [In]; auto|reflexivity|discriminate].
  - eapply (Sp_value cfg_scan O_rcfile); [unfold names; cbn [In]; eauto|cbn [In]; auto|reflexivity|discriminate].
Qed.
Lemma cfg_words_ok : words_written cfg_words cfg_words.
Proof. apply Ww_plain. intros s H. discriminate. Qed.
Lemma cfg_chosen_base : chosen cfg_env (bs "/home/me") isalnum cfg_options cfg_lines V_base (Some (bs "/home/me/Mail")).
Proof.
  apply (Ch_file cfg_env (bs "/home/me") isalnum cfg_options cfg_lines V_base [bs "/home/me/Mail"]); [discriminate| |].
  - unfold env_names. cbn [In]. intros n I. repeat (destruct I as [I|I]; [try discriminate I; injection I as <-; reflexivity|]). contradiction.
  - constructor; [|constructor]. change (bs "/home/me") with (home_dir cfg_env []). apply (expand_ok cfg_env [] isalnum). vm_compute. reflexivity.
Qed.
Lemma cfg_chosen_database : chosen cfg_env (bs "/home/me") isalnum cfg_options cfg_lines V_database (Some (bs "/tmp/db")).
Proof. apply (Ch_env cfg_env (bs "/home/me") isalnum cfg_options cfg_lines V_database (bs "MAIRIX_DATABASE")); [discriminate|unfold env_names; cbn [In]; intuition|reflexivity]. Qed.
Lemma cfg_rc_name : rc_name (bs "/home/me") cfg_options (bs "my.rc").
Proof. apply Rn_option. exists [(O_threads, [])], []. split; [reflexivity|]. intros H; exact H. Qed.
(* a variable with the misspelt name in main *)
Definition typo_env (n : bytes) : option bytes :=
  if bytes_eqb n (bs "MAIRIX_MAILDIR_FOLDERS") then Some (bs "in...") else cfg_env n.
Lemma chosen_env env home alnum os ls v n t u : In (v, n) env_names -> env n = Some t -> v <> V_mfolder -> chosen env home alnum os ls v u -> u = Some t.
Proof.
  intros I E NM H. destruct H as [t1 L|v n1 t1 NA I1 E1|v ts NA B F].
  - contradiction.
  - rewrite (env_names_fun v n1 n I1 I) in E1. congruence.
  - rewrite (B n I) in E. discriminate.
Qed.
Lemma typo_refuted : exists p, prepare typo_env [] isalnum isspace cfg_scan cfg_files (concat cfg_spelled ++ cfg_words) = Ok p /\
  ~ chosen typo_env (bs "/home/me") isalnum cfg_options cfg_lines V_maildir (text_of (p_config p) V_maildir).
Proof.
  eexists. split; [vm_compute; reflexivity|]. intros H. apply (chosen_env _ _ _ _ _ V_maildir (bs "MAIRIX_MAILDIR_FOLDERS") (bs "in...")) in H; [discriminate H|unfold env_names; cbn [In]; intuition|reflexivity|discriminate].
Qed.
Lemma rc_any env pw_dir alnum space f : (exists c, parse_rc_file env pw_dir alnum space f = Ok c) \/ parse_rc_file env pw_dir alnum space f = Err (E_exit 2)
  \/ In 0 f \/ folders_alone f.
Proof. destruct (rc_file_any env pw_dir alnum space f) as [H|(e & H & [->|[(_ & B)|(_ & B)]])]; auto. Qed.
Lemma exit2_not {A} (r : res A) e : r = Err e -> e <> E_exit 2 -> ~ ((exists c, r = Ok c) \/ r = Err (E_exit 2)).
Proof. intros -> N [(c & H)|H]; [discriminate|]. congruence. Qed.
Lemma rc_refuted : exists f, ~ In 0 f /\ forall env pw_dir, ~ ((exists c, parse_rc_file env pw_dir isalnum isspace f = Ok c) \/ parse_rc_file env pw_dir isalnum isspace f = Err (E_exit 2)).
Proof.
  exists (bs "folders=a" ++ [10] ++ bs "folders" ++ [10]). split; [vm_compute; intuition discriminate|]. intros env pw_dir. apply (exit2_not _ E_ub); [vm_compute; reflexivity|discriminate].
Qed.
Lemma rc_nul_refuted : exists f, ~ folders_alone f /\ forall env pw_dir, ~ ((exists c, parse_rc_file env pw_dir isalnum isspace f = Ok c) \/ parse_rc_file env pw_dir isalnum isspace f = Err (E_exit 2)).
Proof.
  exists [0; 10]. split.
  - intros (a & k & b & rest & E & K & _). assert (L : length k = 7%nat) by (rewrite <- (map_length tolower), K; reflexivity).
    apply (f_equal (@length N)) in E. rewrite !app_length in E. cbn [length] in E. lia.
  - intros env pw_dir. apply (exit2_not _ E_oob); [vm_compute; reflexivity|discriminate].
Qed.
