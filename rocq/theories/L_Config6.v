(* Options, environment and rc file together. *)
From Verif Require Import Base M_Config S_Config L_TokTable L_Config L_Config2 L_Config3 L_Config4 L_Config5.
Local Open Scope N_scope.

Lemma opt_eqb_eq a b : opt_eqb a b = true <-> a = b.
Proof. destruct a, b; cbn [opt_eqb]; split; intros; congruence. Qed.
Lemma given_iff os o : given os o = true <-> on o os.
Proof.
  unfold given, on. rewrite existsb_exists, in_map_iff. split.
  - intros (x & I & E). apply opt_eqb_eq in E. exists x. auto.
  - intros (x & E & I). exists x. split; [exact I|]. now apply opt_eqb_eq.
Qed.
Lemma given_false os o : given os o = false <-> ~ on o os.
Proof. rewrite <- given_iff. destruct (given os o); intuition congruence. Qed.
Lemma argument_ok os o : match argument os o with Some t => last_given o os t | None => ~ on o os end.
Proof.
  unfold argument. induction os as [|[p x] os IH] using rev_ind.
  - cbn. tauto.
  - rewrite fold_left_app. cbn [fold_left fst snd]. destruct (opt_eqb o p) eqn:E.
    + apply opt_eqb_eq in E. subst p. exists os, []. split; [reflexivity|]. intros H; exact H.
    + assert (NE : o <> p) by (intros ->; rewrite (proj2 (opt_eqb_eq p p) eq_refl) in E; discriminate).
      destruct (fold_left _ os None) as [t|].
      * destruct IH as (a & b & -> & N). exists a, (b ++ [(p, x)]). split; [now rewrite <- app_assoc|]. unfold on. rewrite map_app, in_app_iff. cbn [map In fst]. intros [H|[H|[]]]; [now apply N|congruence].
      * unfold on. rewrite map_app, in_app_iff. cbn [map In fst]. intros [H|[H|[]]]; [now apply IH|congruence].
Qed.
Lemma last_given_on o os t : last_given o os t -> on o os.
Proof. intros (a & b & -> & _). unfold on. rewrite map_app, in_app_iff. right. now left. Qed.
Lemma last_given_unique o os t : last_given o os t -> argument os o = Some t.
Proof.
  intros (a & b & -> & N). unfold argument. rewrite fold_left_app. cbn [fold_left fst snd]. rewrite (proj2 (opt_eqb_eq o o) eq_refl).
  revert N. generalize (Some t). induction b as [|[p x] b IH]; intros acc N; [reflexivity|]. cbn [fold_left fst snd].
  destruct (opt_eqb o p) eqn:E; [apply opt_eqb_eq in E; subst p; exfalso; apply N; now left|]. apply IH. intros H. apply N. now right.
Qed.
Lemma not_given_none o os : ~ on o os -> argument os o = None.
Proof. intros N. pose proof (argument_ok os o) as A. destruct (argument os o); [|reflexivity]. apply last_given_on in A. contradiction. Qed.

Section All.
Variable env : bytes -> option bytes.
Variable pw_dir : bytes.
Variables alnum space : N -> bool.
Variable scan_u : bytes -> option N.
Notation home := (home_dir env pw_dir).

Definition env_pick (v : var) (d : option bytes) : option bytes :=
  match find (fun x => var_eqb (fst x) v) env_names with
  | Some (_, n) => match env n with Some t => Some t | None => d end
  | None => d
  end.
Lemma from_environment_text os c v : v <> V_maildir ->
  text_of (from_environment env os c) v =
  match v, argument os O_mfolder with V_mfolder, Some m => Some m | _, _ => env_pick v (text_of c v) end.
Proof.
  intros NM. unfold from_environment, env_pick. set (m := argument os O_mfolder).
  assert (ST : forall c, text_of (match m with Some x => set_text c V_mfolder (Some x) | None => c end) v = match v, m with V_mfolder, Some x => Some x | _, _ => text_of c v end).
  { intros c0. destruct m; [|now destruct v]. destruct v; cbn [set_text text_of var_eqb]; reflexivity. }
  rewrite ST. rewrite !override_text. unfold env_names. cbn [find fst].
  destruct v; cbn [var_eqb]; try contradiction; try reflexivity; destruct m; try reflexivity;
  match goal with |- context [env ?n] => destruct (env n) end; reflexivity.
Qed.
Lemma from_environment_flags os c : symlinks (from_environment env os c) = symlinks c /\ nochecks (from_environment env os c) = nochecks c /\ by_date (from_environment env os c) = by_date c /\ output (from_environment env os c) = output c.
Proof.
  unfold from_environment. cbv zeta. set (m := argument os O_mfolder).
  repeat match goal with |- context [override env ?c ?v ?a ?b] => lazymatch c with context [override] => fail | _ => destruct (override_flags env c v a b) as (? & ? & ? & ?); generalize dependent (override env c v a b); intros end end.
  destruct m; cbn [set_text symlinks nochecks by_date output]; repeat split; congruence.
Qed.
Lemma env_names_fun v n1 n2 : In (v, n1) env_names -> In (v, n2) env_names -> n1 = n2.
Proof. unfold env_names. cbn [In]. intros H1 H2. repeat (destruct H1 as [H1|H1]; [injection H1 as <- <-; repeat (destruct H2 as [H2|H2]; [try discriminate H2; injection H2 as <-; reflexivity|]); contradiction|]). contradiction. Qed.
Lemma chosen_ok os ls c v : v <> V_maildir -> says env home alnum ls c -> chosen env home alnum os ls v (text_of (from_environment env os c) v).
Proof.
  intros NM S0. rewrite from_environment_text by exact NM. pose proof (argument_ok os O_mfolder) as A.
  assert (G : (v = V_mfolder -> ~ on O_mfolder os) -> chosen env home alnum os ls v (env_pick v (text_of c v))).
  { intros NA. unfold env_pick. destruct (find (fun x => var_eqb (fst x) v) env_names) as [[w n]|] eqn:E.
    - apply find_some in E as [I E]. cbn [fst] in E. apply var_eqb_eq in E. subst w. destruct (env n) as [t|] eqn:EN.
      + now apply (Ch_env env home alnum os ls v n t).
      + destruct (sa_text _ _ _ _ _ S0 v) as (ts & F & ->). apply Ch_file; [exact NA| |exact F]. intros n' I'. now rewrite (env_names_fun v n' n I' I).
    - destruct (sa_text _ _ _ _ _ S0 v) as (ts & F & ->). apply Ch_file; [exact NA| |exact F]. intros n' I'. pose proof (find_none _ _ E _ I') as H. cbn [fst] in H. rewrite var_eqb_refl in H. discriminate. }
  destruct v; try (apply G; intros; discriminate). destruct (argument os O_mfolder) as [t|]; [now apply Ch_option|]. apply G. auto.
Qed.
Lemma expands_fun first p t u : expands env home alnum first p t -> expands env home alnum first p u -> t = u.
Proof.
  intros H1 H2. apply expands_done in H1, H2. destruct (H1 (S (length p)) ltac:(lia)) as [_ A]. destruct (H2 (S (length p)) ltac:(lia)) as [_ B].
  set (size := 1 + N.of_nat (length t) + N.of_nat (length u)). specialize (A size [] ltac:(unfold size; cbn [length]; lia)). specialize (B size [] ltac:(unfold size; cbn [length]; lia)).
  rewrite A in B. cbn [app] in B. now injection B.
Qed.
Lemma expands_list_fun l : forall ts us, Forall2 (expands env home alnum true) l ts -> Forall2 (expands env home alnum true) l us -> ts = us.
Proof.
  induction l as [|p l IH]; intros ts us H1 H2; inversion H1; inversion H2; subst; [reflexivity|]. f_equal; [eapply expands_fun; eassumption|now apply IH].
Qed.
Lemma chosen_fun os ls v t u : chosen env home alnum os ls v t -> chosen env home alnum os ls v u -> t = u.
Proof.
  intros [t1 L1|v1 n1 t1 NA1 I1 E1|v1 ts1 NA1 N1 F1] H2.
  - inversion H2; subst.
    + apply last_given_unique in L1. apply last_given_unique in H. congruence.
    + exfalso. apply (H eq_refl). now apply (last_given_on _ _ t1).
    + exfalso. apply (H eq_refl). now apply (last_given_on _ _ t1).
  - inversion H2; subst.
    + exfalso. apply (NA1 eq_refl). eapply last_given_on; eassumption.
    + rewrite (env_names_fun v1 n1 n I1 H0) in E1. congruence.
    + rewrite (H0 _ I1) in E1. discriminate.
  - inversion H2; subst.
    + exfalso. apply (NA1 eq_refl). eapply last_given_on; eassumption.
    + rewrite (N1 _ H0) in H1. discriminate.
    + now rewrite (expands_list_fun _ _ _ F1 H1).
Qed.
Notation settled := (settled env home alnum).
Lemma decides_ok os words : decides os words
  (if given os O_dump then A_dump
   else if given os O_threads || given os O_augment || match words with [] => false | _ => true end
        then A_search (given os O_threads) (given os O_augment) words
        else A_index (given os O_fast) (given os O_purge)).
Proof.
  destruct (given os O_dump) eqn:D; [apply De_dump; now apply given_iff|]. apply given_false in D.
  destruct (given os O_threads || given os O_augment || match words with [] => false | _ => true end) eqn:X.
  - apply De_search; [exact D| |apply given_iff|apply given_iff]. rewrite !orb_true_iff in X. destruct X as [[X|X]|X]; [left; now apply given_iff|right; left; now apply given_iff|]. right. right. destruct words; [discriminate|congruence].
  - rewrite !orb_false_iff in X. destruct X as [[X1 X2] X3]. apply De_index; [exact D|now apply given_false|now apply given_false|destruct words; [reflexivity|discriminate]|apply given_iff|apply given_iff].
Qed.
Lemma prepare_ok files os ts words ws name f ls b d : Forall2 (spelled scan_u) os ts -> words_written words ws -> ~ on O_help os ->
  rc_name home os name -> files name = Some f -> Forall (line_ok space) ls -> holds ls f ->
  chosen env home alnum os ls V_base (Some b) -> chosen env home alnum os ls V_database (Some d) ->
  exists p, prepare env pw_dir alnum space scan_u files (concat ts ++ ws) = Ok p /\ settled os words ls p.
Proof.
  intros SP WW NH RN FN LO HO CB CD. unfold prepare. rewrite (parse_args_ok scan_u os ts SP words ws WW). cbn [bind]. rewrite (proj2 (given_false os O_help) NH).
  assert (EN : match argument os O_rcfile with Some n => n | None => home ++ bs "/.mairixrc" end = name).
  { destruct RN as [n L|N]; [now rewrite (last_given_unique _ _ _ L)|now rewrite (not_given_none _ _ N)]. }
  rewrite EN, FN. destruct (rc_file_ok env pw_dir alnum space ls f LO HO) as (c & EC & S0). rewrite EC. cbn [bind].
  pose proof (fun v H => chosen_ok os ls c v H S0) as CH. destruct (from_environment_flags os c) as (G1 & G2 & G3 & G4). set (c1 := from_environment env os c) in *. clearbody c1.
  rewrite (chosen_fun _ _ _ _ _ (CH V_base ltac:(discriminate)) CB), (chosen_fun _ _ _ _ _ (CH V_database ltac:(discriminate)) CD).
  eexists. split; [reflexivity|]. set (c2 := if given os O_raw then set_output c1 FT_RAW else if given os O_excerpt then set_output c1 FT_EXCERPT else c1).
  assert (T2 : text_of c2 = text_of c1 /\ symlinks c2 = symlinks c1 /\ nochecks c2 = nochecks c1 /\ by_date c2 = by_date c1) by (unfold c2; destruct (given os O_raw), (given os O_excerpt); auto).
  assert (O2 : chosen_format env home alnum os ls (output c2)).
  { unfold c2. destruct (given os O_raw) eqn:R; [apply Cf_raw; now apply given_iff|]. destruct (given os O_excerpt) eqn:X; [apply Cf_excerpt; [now apply given_false|now apply given_iff]|].
    destruct (sa_format _ _ _ _ _ S0) as (us & F & I). apply (Cf_file env home alnum os ls us); [now apply given_false|now apply given_false|exact F|]. now rewrite G4. }
  clearbody c2. destruct T2 as (T2 & T3 & T4 & T5).
  constructor; cbn [p_config p_base p_database p_checks p_unlock p_action].
  - intros v NV. rewrite T2. now apply CH.
  - exact CB.
  - exact CD.
  - rewrite andb_true_iff, !negb_true_iff, given_false, T4, G2. rewrite <- (sa_nochecks _ _ _ _ _ S0). destruct (nochecks c); intuition congruence.
  - rewrite T3, G1. apply S0.
  - rewrite T5, G3. apply S0.
  - exact O2.
  - apply given_iff.
  - apply decides_ok.
Qed.
Lemma folder_ok p m : text_of (p_config p) V_mfolder = Some m -> output (p_config p) <> FT_IMAP -> exists r, complete_mfolder p = Ok r /\ folder_path (p_base p) m r.
Proof.
  intros E NI. unfold complete_mfolder. rewrite E. cbn [bind].
  assert (G : exists r, (if starts_with (ch "/") m || starts_with (ch ".") m && starts_with (ch "/") (tl m) then Ok m else Ok (p_base p ++ bs "/" ++ m)) = Ok r /\ folder_path (p_base p) m r).
  { destruct m as [|x m]; [eexists; split; [reflexivity|apply Fp_relative; discriminate]|]. cbn [starts_with tl]. destruct (N.eqb_spec x (ch "/")) as [->|N1]; [eexists; split; [reflexivity|now apply (Fp_absolute _ _ m)]|]. cbn [orb].
    destruct (N.eqb_spec x (ch ".")) as [->|N2].
    - destruct m as [|y m]; [eexists; split; [reflexivity|apply Fp_relative; discriminate]|]. cbn [starts_with]. destruct (N.eqb_spec y (ch "/")) as [->|N3]; cbn [andb].
      + eexists. split; [reflexivity|now apply (Fp_here _ _ m)].
      + eexists. split; [reflexivity|]. apply Fp_relative; intros s H; [discriminate|]. injection H as H _. contradiction.
    - cbn [andb]. eexists. split; [reflexivity|]. apply Fp_relative; intros s H; injection H; intros; subst x; contradiction. }
  destruct (output (p_config p)); try exact G. contradiction.
Qed.
Lemma option_named_in a : match option_named a with Some o => exists ns, In (o, ns) names /\ In a ns | None => forall o ns, In (o, ns) names -> ~ In a ns end.
Proof.
  destruct (option_named a) as [o|] eqn:E.
  - unfold option_named in E. unfold names. repeat match type of E with
      | (if ?b || ?c then _ else _) = _ => let H := fresh in destruct (b || c) eqn:H; [injection E as <-; apply orb_true_iff in H as [H|H]; apply bytes_eqb_eq in H; subst a; eexists; (split; [cbn [In]; eauto 20|cbn [In]; auto])|]
      | (if ?b then _ else _) = _ => let H := fresh in destruct b eqn:H; [injection E as <-; apply bytes_eqb_eq in H; subst a; eexists; (split; [cbn [In]; eauto 20|cbn [In]; auto])|] end. discriminate.
  - intros o ns I J. rewrite (option_named_ok o ns a I J) in E. discriminate.
Qed.
Lemma bad_option os ts a rest : Forall2 (spelled scan_u) os ts -> no_option a -> parse_args scan_u (concat ts ++ a :: rest) = Err (E_exit 3).
Proof.
  intros F ((s & ->) & ND & NO). induction F as [|o t os ts SP F IH]; cbn [concat app].
  - cbn [parse_args]. pose proof (option_named_in (bs "-" ++ s)) as H. destruct (option_named (bs "-" ++ s)) as [o|]; [destruct H as (ns & I & J); exfalso; now apply (NO o ns)|].
    destruct (bytes_eqb (bs "-" ++ s) (bs "--")) eqn:E; [apply bytes_eqb_eq in E; contradiction|]. reflexivity.
  - inversion SP as [o' ns n I J T NV|o' ns n x I J T K]; subst.
    + cbn [app parse_args]. rewrite (option_named_ok o' ns n I J). cbn [app] in IH. rewrite IH. cbn [bind]. destruct o'; try discriminate; try reflexivity. contradiction.
    + cbn [app parse_args]. rewrite (option_named_ok o' ns n I J). cbn [app] in IH. rewrite IH. destruct o'; try discriminate; try reflexivity. destruct (scan_u x) eqn:SX; [reflexivity|]. exfalso. now apply K.
Qed.
End All.
