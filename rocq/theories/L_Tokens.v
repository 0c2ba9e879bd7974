From Verif Require Import Base M_Tokens S_Tokens.
Local Open Scope N_scope.

(* --- character classes --- *)
Lemma zero_tail : forall k, nth k (repeat 0 160) 0 = 0.
Proof. intros k. destruct (nth_in_or_default k (repeat 0 160) 0) as [I|E]; [|exact E]. exact (repeat_spec _ _ _ I). Qed.
Lemma table_tail : forall n, (96 <= n)%nat -> nth n special_table 0 = 0.
Proof. intros n H. unfold special_table. rewrite app_nth2 by (cbn [length]; lia). apply zero_tail. Qed.
Lemma table_sweep : forallb (fun n =>
  Bool.eqb (negb (N.land (nth n special_table 0) 1 =? 0)) (N.of_nat n =? ch "_")
  && Bool.eqb (negb (N.land (nth n special_table 0) 2 =? 0)) (existsb (N.eqb (N.of_nat n)) (bs "+-.@_"))) (seq 0 96) = true.
Proof. vm_compute. reflexivity. Qed.
Lemma special_ok : forall c,
  (negb (N.land (nth (N.to_nat c) special_table 0) 1 =? 0) = true <-> c = ch "_")
  /\ (negb (N.land (nth (N.to_nat c) special_table 0) 2 =? 0) = true <-> In c (bs "+-.@_")).
Proof.
  intros c. destruct (lt_dec (N.to_nat c) 96) as [L|L].
  - assert (S := proj1 (forallb_forall _ _) table_sweep (N.to_nat c) ltac:(apply in_seq; lia)).
    cbv beta in S. apply andb_prop in S. destruct S as [S1 S2].
    apply eqb_prop in S1, S2. rewrite S1, S2, N2Nat.id. split; [apply N.eqb_eq|].
    rewrite existsb_exists. split.
    + intros (x & I & E). apply N.eqb_eq in E. now subst.
    + intros I. exists c. split; auto. apply N.eqb_refl.
  - rewrite table_tail by lia. split; (split; [discriminate|]); intros H; exfalso; apply L.
    + subst c. vm_compute. lia.
    + vm_compute in H. repeat (destruct H as [<-|H]; [vm_compute; lia|]). destruct H.
Qed.
Lemma valid_word : forall alnum c, char_valid_p alnum c 1 = true <-> word_char alnum c.
Proof.
  intros alnum c. unfold char_valid_p, word_char. destruct (alnum c); [intuition|].
  rewrite (proj1 (special_ok c)). intuition discriminate.
Qed.
Lemma valid_address : forall alnum c, char_valid_p alnum c 2 = true <-> address_char alnum c.
Proof.
  intros alnum c. unfold char_valid_p, address_char. destruct (alnum c); [intuition|].
  rewrite (proj2 (special_ok c)). intuition discriminate.
Qed.

(* --- runs --- *)
Section Runs.
Variable good : N -> Prop.

Lemma run_skip : forall c s k w, ~ good c -> (run_at good (c :: s) k w <-> exists k', k = S k' /\ run_at good s k' w).
Proof.
  intros c s k w B. split.
  - intros (a & b & E & L & NE & G & A & Z). destruct a as [|x a].
    + destruct w as [|y w]; [congruence|]. injection E as <- _. inversion G; subst; contradiction.
    + injection E as <- E. exists (length a). split; [now rewrite <- L|]. exists a, b. repeat split; auto.
      intros a' d ->. apply (A (c :: a') d). reflexivity.
  - intros (k' & -> & a & b & -> & L & NE & G & A & Z). exists (c :: a), b. repeat split; auto.
    + cbn. now rewrite L.
    + intros [|x a'] d E; injection E as <- E; [exact B|now apply (A a')].
Qed.

Definition stops (b : bytes) : Prop := forall c b', b = c :: b' -> ~ good c.

Lemma last_case : forall (l : bytes), l = [] \/ exists a c, l = a ++ [c].
Proof. intros l. induction l as [|c l _] using rev_ind; [now left|right; eauto]. Qed.

Lemma run_take : forall u b k w, u <> [] -> Forall good u -> stops b ->
  (run_at good (u ++ b) k w <-> (k = 0%nat /\ w = u) \/ exists k', k = (length u + k')%nat /\ run_at good b k' w).
Proof.
  intros u b k w NU GU SB. split.
  - intros (a & r & E & L & NE & G & A & Z).
    apply app_eq_app in E. destruct E as (l & [[E1 E2]|[E1 E2]]).
    + destruct (last_case a) as [->|(a' & c & ->)].
      * left. cbn in E1. subst l. split; [now rewrite <- L|]. symmetry in E2. apply app_eq_app in E2.
        destruct E2 as (l & [[-> E3]|[-> E3]]).
        -- destruct l as [|c l]; [now rewrite app_nil_r|]. exfalso. apply (Z c (l ++ b)); [exact E3|].
           apply Forall_app in GU. destruct GU as [_ GU]. now inversion GU.
        -- destruct l as [|c l]; [now rewrite app_nil_r|]. exfalso. apply (SB c (l ++ r)); [exact E3|].
           apply Forall_app in G. destruct G as [_ G]. now inversion G.
      * exfalso. apply (A a' c eq_refl). subst u. apply Forall_app in GU. destruct GU as [GU _].
        apply Forall_app in GU. destruct GU as [_ GU]. now inversion GU.
    + right. exists (length l). rewrite <- L, E1, app_length. split; [reflexivity|].
      exists l, r. repeat split; auto. intros a' c ->. apply (A (u ++ a') c). now rewrite E1, app_assoc.
  - intros [[-> ->]|(k' & -> & a & r & -> & L & NE & G & A & Z)].
    + exists [], b. repeat split; auto. intros a' c E. destruct a'; discriminate.
    + exists (u ++ a), r. repeat split; auto.
      * now rewrite <- app_assoc.
      * now rewrite app_length, L.
      * intros a' c E. destruct (last_case a) as [->|(a2 & d & ->)].
        -- destruct w as [|x w]; [congruence|]. exfalso. apply (SB x (w ++ r)); [reflexivity|now inversion G].
        -- rewrite app_assoc in E. apply app_inj_tail in E. destruct E as [_ <-]. now apply (A a2).
Qed.

Lemma runs_nil : runs_of good [] [].
Proof.
  exists []. repeat split; auto.
  - intros [|]; discriminate.
  - intros [|] ? ? ?; discriminate.
  - intros k w (a & b & E & _ & NE & _). destruct a; [|discriminate]. destruct w; [congruence|discriminate].
Qed.
Lemma runs_skip : forall c s ws, ~ good c -> runs_of good s ws -> runs_of good (c :: s) ws.
Proof.
  intros c s ws B (ks & L & R & O & A). exists (map S ks). repeat split.
  - now rewrite map_length.
  - intros i k w H1 H2. rewrite nth_error_map in H1. destruct (nth_error ks i) as [k'|] eqn:E; [|discriminate].
    injection H1 as <-. apply run_skip; eauto.
  - intros i j k l Hij H1 H2. rewrite nth_error_map in H1, H2.
    destruct (nth_error ks i) as [k'|] eqn:E1; [|discriminate]. destruct (nth_error ks j) as [l'|] eqn:E2; [|discriminate].
    injection H1 as <-. injection H2 as <-. specialize (O i j k' l' Hij E1 E2). lia.
  - intros k w H. apply run_skip in H; auto. destruct H as (k' & -> & H). destruct (A k' w H) as (i & E1 & E2).
    exists i. split; auto. now rewrite nth_error_map, E1.
Qed.
Lemma runs_take : forall u b ws, u <> [] -> Forall good u -> stops b -> runs_of good b ws -> runs_of good (u ++ b) (u :: ws).
Proof.
  intros u b ws NU GU SB (ks & L & R & O & A). exists (0%nat :: map (Nat.add (length u)) ks). repeat split.
  - cbn. now rewrite map_length, L.
  - intros [|i] k w H1 H2; cbn in H1, H2; apply run_take; auto.
    + injection H1 as <-. injection H2 as <-. now left.
    + rewrite nth_error_map in H1. destruct (nth_error ks i) as [k'|] eqn:E; [|discriminate].
      injection H1 as <-. right. eauto.
  - intros i j k l Hij H1 H2. destruct j as [|j]; [lia|]. cbn in H2. rewrite nth_error_map in H2.
    destruct (nth_error ks j) as [l'|] eqn:E2; [|discriminate]. injection H2 as <-.
    destruct i as [|i]; cbn in H1.
    + injection H1 as <-. destruct u; [congruence|cbn; lia].
    + rewrite nth_error_map in H1. destruct (nth_error ks i) as [k'|] eqn:E1; [|discriminate]. injection H1 as <-.
      specialize (O i j k' l' ltac:(lia) E1 E2). lia.
  - intros k w H. apply run_take in H; auto. destruct H as [[-> ->]|(k' & -> & H)].
    + now exists 0%nat.
    + destruct (A k' w H) as (i & E1 & E2). exists (S i). cbn. split; auto. now rewrite nth_error_map, E1.
Qed.
Lemma runs_in : forall s ws w, runs_of good s ws -> (In w ws <-> is_run good s w).
Proof.
  intros s ws w (ks & L & R & _ & A). split.
  - intros I. apply In_nth_error in I. destruct I as (i & E).
    assert (i < length ks)%nat by (rewrite L; apply nth_error_Some; congruence).
    destruct (nth_error ks i) as [k|] eqn:E1; [|apply nth_error_None in E1; lia]. exists k. eauto.
  - intros (k & H). destruct (A k w H) as (i & _ & E). eapply nth_error_In; eauto.
Qed.
End Runs.

(* --- the words of a text as a function --- *)
Section Words.
Variable valid : N -> bool.
Definition cons_ne (w : bytes) (ws : list bytes) := match w with [] => ws | _ => w :: ws end.
Fixpoint wd (s : bytes) : bytes * list bytes :=
  match s with
  | [] => ([], [])
  | c :: s' => let (w, ws) := wd s' in if valid c then (c :: w, ws) else ([], cons_ne w ws)
  end.
Definition words (s : bytes) : list bytes := let (w, ws) := wd s in cons_ne w ws.

Lemma words_skip : forall c s, valid c = false -> words (c :: s) = words s.
Proof. intros c s H. unfold words. cbn [wd]. destruct (wd s) as [w ws]. now rewrite H. Qed.
Lemma wd_app : forall u b, Forall (fun c => valid c = true) u -> wd (u ++ b) = (u ++ fst (wd b), snd (wd b)).
Proof.
  induction u as [|c u IH]; intros b G; cbn [app wd]; [now destruct (wd b)|].
  inversion G; subst. rewrite IH by auto. now rewrite H1.
Qed.
Lemma wd_stops : forall b, stops (fun c => valid c = true) b -> wd b = ([], words b).
Proof.
  intros [|c b] S; [reflexivity|]. assert (valid c = false) by (destruct (valid c) eqn:E; auto; now destruct (S c b eq_refl)).
  unfold words. cbn [wd]. destruct (wd b). now rewrite H.
Qed.
Lemma words_take : forall u b, u <> [] -> Forall (fun c => valid c = true) u -> stops (fun c => valid c = true) b ->
  words (u ++ b) = u :: words b.
Proof.
  intros u b NE G S. unfold words at 1. rewrite wd_app by auto. rewrite wd_stops by auto. cbn [fst snd].
  rewrite app_nil_r. destruct u; [congruence|reflexivity].
Qed.
Lemma words_runs_len : forall n s, (length s <= n)%nat -> runs_of (fun c => valid c = true) s (words s).
Proof.
  induction n as [|n IH]; intros s L.
  - destruct s; [|cbn in L; lia]. apply runs_nil.
  - destruct s as [|c s]; [apply runs_nil|]. destruct (valid c) eqn:V.
    + assert (exists u b, s = u ++ b /\ Forall (fun c => valid c = true) u /\ stops (fun c => valid c = true) b) as (u & b & -> & G & S).
      { clear. induction s as [|d s IH].
        - exists [], []. repeat split; auto. intros ? ? ?; discriminate.
        - destruct (valid d) eqn:V.
          + destruct IH as (u & b & -> & G & S). exists (d :: u), b. repeat split; auto.
          + exists [], (d :: s). repeat split; auto. intros c b' E. injection E as <- <-. congruence. }
      change (c :: u ++ b) with ((c :: u) ++ b). rewrite words_take; auto; try discriminate.
      apply runs_take; auto; try discriminate. apply IH. cbn in L. rewrite app_length in L. lia.
    + rewrite words_skip by auto. apply runs_skip; [congruence|]. apply IH. cbn in L. lia.
Qed.
Lemma words_runs : forall s, runs_of (fun c => valid c = true) s (words s).
Proof. intros. now apply words_runs_len with (n := length s). Qed.
End Words.

Lemma runs_ext : forall (g h : N -> Prop) s ws, (forall c, g c <-> h c) -> runs_of g s ws -> runs_of h s ws.
Proof.
  intros g h s ws E (ks & L & R & O & A).
  assert (F : forall k w, run_at g s k w <-> run_at h s k w).
  { intros k w. split; intros (a & b & E1 & E2 & NE & G & P & Q); exists a, b; repeat split; auto;
    try (eapply Forall_impl; [|exact G]; intros; now apply E); intros x y Hx Hg; apply E in Hg; [eapply P|eapply Q|eapply P|eapply Q]; eauto. }
  exists ks. repeat split; auto.
  - intros. apply F. eauto.
  - intros k w H. apply F in H. eauto.
Qed.

Section Scan.
Variable alnum : N -> bool.
Notation valid m := (fun c => char_valid_p alnum c m).

Lemma skip_invalid_ok : forall m s, words (valid m) (skip_invalid alnum m s) = words (valid m) s
  /\ (length (skip_invalid alnum m s) <= length s)%nat
  /\ (forall c r, skip_invalid alnum m s = c :: r -> char_valid_p alnum c m = true).
Proof.
  intros m s. induction s as [|c s (IH1 & IH2 & IH3)]; cbn [skip_invalid]; [repeat split; auto; discriminate|].
  destruct (char_valid_p alnum c m) eqn:V.
  - repeat split; auto. intros d r E. now injection E as <- <-.
  - rewrite words_skip by auto. repeat split; auto. cbn; lia.
Qed.
Lemma take_valid_ok : forall m s, exists w r, take_valid alnum m s = (w, r) /\ s = w ++ r
  /\ Forall (fun c => char_valid_p alnum c m = true) w /\ stops (fun c => char_valid_p alnum c m = true) r.
Proof.
  intros m s. induction s as [|c s (w & r & E & -> & G & S)]; cbn [take_valid].
  - exists [], []. repeat split; auto. intros ? ? ?; discriminate.
  - destruct (char_valid_p alnum c m) eqn:V.
    + rewrite E. exists (c :: w), r. repeat split; auto.
    + exists [], (c :: w ++ r). repeat split; auto. intros d b' H. injection H as <- <-. congruence.
Qed.
Lemma tokenise_loop_ok : forall m f s, (length s < f)%nat -> tokenise_loop alnum f m s = Ok (words (valid m) s).
Proof.
  intros m. induction f as [|f IH]; intros s L; [lia|]. cbn [tokenise_loop].
  destruct (skip_invalid_ok m s) as (E1 & E2 & E3). rewrite <- E1.
  destruct (skip_invalid alnum m s) as [|c es]; [reflexivity|].
  destruct (take_valid_ok m es) as (w & r & -> & -> & G & S).
  change (c :: w ++ r) with ((c :: w) ++ r).
  rewrite (words_take (valid m)); [|discriminate|constructor; [now apply (E3 c (w ++ r))|exact G]|exact S].
  destruct r as [|d r]; [reflexivity|]. rewrite IH; [reflexivity|].
  cbn in E2. rewrite app_length in E2. cbn in *. lia.
Qed.
Lemma tokenise_words : forall m s, tokenise_string alnum s m = Ok (words (valid m) s).
Proof. intros. apply tokenise_loop_ok. lia. Qed.

Lemma words_exact : forall data,
  (exists ws, tokenise_string alnum data 1 = Ok ws /\ runs_of (word_char alnum) data ws)
  /\ (exists ws, tokenise_string alnum data 2 = Ok ws /\ runs_of (address_char alnum) data ws).
Proof.
  intros data. split; eexists; (split; [apply tokenise_words|]); (eapply runs_ext; [|apply words_runs]); intros c.
  - apply valid_word.
  - apply valid_address.
Qed.

(* --- HTML --- *)
Hypothesis lt_bad : alnum (ch "<") = false.
Hypothesis gt_bad : alnum (ch ">") = false.
Lemma lt_invalid : char_valid_p alnum (ch "<") 1 = false.
Proof. unfold char_valid_p. rewrite lt_bad. reflexivity. Qed.
Lemma gt_invalid : char_valid_p alnum (ch ">") 1 = false.
Proof. unfold char_valid_p. rewrite gt_bad. reflexivity. Qed.

Lemma skip_tag_ok : forall s, words (valid 1) (blank_tags false (skip_tag s)) = words (valid 1) (blank_tags true s)
  /\ (length (skip_tag s) <= length s)%nat.
Proof.
  induction s as [|c s (IH & L)]; [split; reflexivity|]. cbn [skip_tag].
  destruct (N.eqb_spec c (ch ">")) as [->|NE].
  - cbn [blank_tags]. change (ch ">" =? ch "<") with false. change (negb (ch ">" =? ch ">")) with false.
    cbv iota. rewrite !words_skip by (apply lt_invalid || apply gt_invalid). split; auto.
  - cbn [blank_tags]. apply N.eqb_neq in NE. rewrite NE. cbn [negb].
    rewrite (words_skip (valid 1) (ch "<")) by apply lt_invalid. split; auto. cbn; lia.
Qed.
Lemma skip_html_ok : forall f s, (length s < f)%nat -> exists r, skip_html alnum f s = Ok r
  /\ words (valid 1) (blank_tags false r) = words (valid 1) (blank_tags false s)
  /\ (length r <= length s)%nat
  /\ (forall c r', r = c :: r' -> char_valid_p alnum c 1 = true).
Proof.
  induction f as [|f IH]; intros s L; [lia|]. cbn [skip_html]. destruct s as [|c s].
  - exists []. repeat split; auto. discriminate.
  - destruct (char_valid_p alnum c 1) eqn:V.
    + exists (c :: s). repeat split; auto. intros d r' E. now injection E as <- <-.
    + destruct (N.eqb_spec c (ch "<")) as [->|NE].
      * destruct (skip_tag_ok s) as (E1 & E2). destruct (IH (skip_tag s)) as (r & F1 & F2 & F3 & F4); [cbn in L; lia|].
        exists r. repeat split; auto; [|cbn; lia]. rewrite F2, E1. cbn [blank_tags]. rewrite N.eqb_refl.
        now rewrite (words_skip (valid 1) (ch "<")) by apply lt_invalid.
      * destruct (IH s) as (r & F1 & F2 & F3 & F4); [cbn in L; lia|].
        exists r. repeat split; auto; [|cbn; lia]. rewrite F2. cbn [blank_tags]. apply N.eqb_neq in NE. rewrite NE.
        now rewrite words_skip by auto.
Qed.
Lemma blank_app : forall w r, Forall (fun c => char_valid_p alnum c 1 = true) w ->
  blank_tags false (w ++ r) = w ++ blank_tags false r.
Proof.
  induction w as [|c w IH]; intros r G; [reflexivity|]. inversion G; subst. cbn [app blank_tags].
  destruct (N.eqb_spec c (ch "<")) as [->|NE]; [rewrite lt_invalid in H1; discriminate|]. now rewrite IH.
Qed.
Lemma blank_stops : forall r, stops (fun c => char_valid_p alnum c 1 = true) r ->
  stops (fun c => char_valid_p alnum c 1 = true) (blank_tags false r).
Proof.
  intros [|c r] S d b' E; cbn [blank_tags] in E; [discriminate|].
  destruct (c =? ch "<").
  - assert (d = ch "<") as -> by congruence. rewrite lt_invalid. discriminate.
  - assert (d = c) as -> by congruence. now apply (S c r).
Qed.
Lemma html_loop_ok : forall f s, (length s < f)%nat ->
  tokenise_html_loop alnum f s = Ok (words (valid 1) (blank_tags false s)).
Proof.
  induction f as [|f IH]; intros s L; [lia|]. cbn [tokenise_html_loop].
  destruct (skip_html_ok (S (length s)) s) as (r & E1 & E2 & E3 & E4); [lia|]. rewrite E1. cbn [bind]. rewrite <- E2.
  destruct r as [|c es]; [reflexivity|].
  destruct (take_valid_ok 1 es) as (w & r & -> & -> & G & S).
  change (c :: w ++ r) with ((c :: w) ++ r). rewrite blank_app by (constructor; [now apply (E4 c (w ++ r))|auto]).
  rewrite (words_take (valid 1)); [|discriminate|constructor; [now apply (E4 c (w ++ r))|exact G]|now apply blank_stops].
  destruct r as [|d r]; [reflexivity|]. rewrite IH; [reflexivity|].
  cbn in E3. rewrite app_length in E3. cbn in *. lia.
Qed.
Lemma html_words : forall s, tokenise_html_string alnum s = Ok (words (valid 1) (blank_tags false s)).
Proof. intros. apply html_loop_ok. lia. Qed.
Lemma html_exact : forall data, exists ws, tokenise_html_string alnum data = Ok ws
  /\ runs_of (word_char alnum) (blank_tags false data) ws.
Proof.
  intros data. eexists. split; [apply html_words|]. eapply runs_ext; [|apply words_runs]. intros c. apply valid_word.
Qed.

End Scan.
