(* The rc file: what the settings are at the end. *)
From Verif Require Import Base M_Config S_Config L_TokTable L_Config L_Config2 L_Config3.
Local Open Scope N_scope.

Lemma var_eqb_eq a b : var_eqb a b = true <-> a = b.
Proof. destruct a, b; cbn [var_eqb]; split; intros; congruence. Qed.
Lemma var_eqb_refl a : var_eqb a a = true.
Proof. now apply var_eqb_eq. Qed.
Lemma joined_snoc l x : joined (l ++ [x]) = match l with [] => x | _ => joined l ++ bs ":" ++ x end.
Proof.
  induction l as [|y l IH]; [reflexivity|]. destruct l as [|z l]; [reflexivity|].
  change (joined ((y :: z :: l) ++ [x])) with (y ++ bs ":" ++ joined ((z :: l) ++ [x])). rewrite IH. cbn [joined]. now rewrite <- !app_assoc.
Qed.

Lemma fgets_split n : forall f a r, fgets n f = (a, r) -> f = a ++ r /\ (length a <= n)%nat /\
  ((length a = n) \/ r = [] \/ exists b, a = b ++ [10]).
Proof.
  induction n as [|n IH]; intros f a r; destruct f as [|c f]; cbn [fgets].
  - intros [= <- <-]. auto.
  - intros [= <- <-]. auto.
  - intros [= <- <-]. split; [reflexivity|]. split; [cbn [length]; lia|auto].
  - destruct (N.eqb_spec c 10) as [->|NE].
    + intros [= <- <-]. split; [reflexivity|]. split; [cbn [length]; lia|]. right. right. now exists [].
    + destruct (fgets n f) as [a' r'] eqn:E. intros [= <- <-]. destruct (IH _ _ _ E) as (-> & L & K). split; [reflexivity|]. split; [cbn [length]; lia|].
      destruct K as [K|[K|(b & ->)]]; [left; cbn [length]; lia|auto|]. right. right. now exists (c :: b).
Qed.

Lemma key_has p k : one_equals k = true -> is_key p k = true -> In (ch "=") p.
Proof.
  intros O K. apply is_key_begins in K as (x & s & -> & <-). apply in_app_iff. left. unfold one_equals in O. rewrite <- map_rev in O. destruct (rev x) as [|e r] eqn:R; [discriminate|].
  cbn [map] in O. apply andb_true_iff in O as [O _]. apply N.eqb_eq in O. apply tolower_eq in O. subst e. apply in_rev. rewrite R. now left.
Qed.

Notation bare_folders := folders_alone.
Lemma bare_here a f : bare_folders f -> bare_folders (a ++ f).
Proof. intros (x & k & b & rest & -> & H). exists (a ++ x), k, b, rest. split; [now rewrite <- !app_assoc|exact H]. Qed.

Definition bad (f : bytes) (e : err) : Prop := e = E_exit 2 \/ (e = E_oob /\ In 0 f) \/ (e = E_ub /\ bare_folders f).
Lemma bad_app a r e : bad r e -> bad (a ++ r) e.
Proof. intros [->|[(-> & I)|(-> & B)]]; [now left|right; left; split; [reflexivity|apply in_app_iff; auto]|right; right; split; [reflexivity|now apply bare_here]]. Qed.

Section File.
Variable env : bytes -> option bytes.
Variable pw_dir : bytes.
Variables alnum space : N -> bool.
Notation home := (home_dir env pw_dir).
Notation ex := (expands env home alnum true).

Notation means := (says env home alnum).
Lemma values_snoc v ls l : values v (ls ++ [l]) = values v ls ++ values v [l].
Proof. apply flat_map_app. Qed.
Lemma effects_snoc ls l : effects (ls ++ [l]) = effects ls ++ effects [l].
Proof. apply flat_map_app. Qed.
Lemma formats_snoc ls l : format_values (ls ++ [l]) = format_values ls ++ format_values [l].
Proof. apply flat_map_app. Qed.
Lemma kind_adds k v : In (k, Assign v) keywords -> adds_up v = false.
Proof. unfold keywords. cbn [In]. intros H. repeat (destruct H as [H|H]; [try discriminate H; injection H; intros; subst; reflexivity|]). contradiction. Qed.
Lemma kind_appends k v : In (k, Append v) keywords -> adds_up v = true.
Proof. unfold keywords. cbn [In]. intros H. repeat (destruct H as [H|H]; [try discriminate H; injection H; intros; subst; reflexivity|]). contradiction. Qed.
Lemma same_means ls l c c' : means ls c -> (forall v, values v [l] = []) -> effects [l] = [] -> format_values [l] = [] -> c' = c -> means (ls ++ [l]) c'.
Proof.
  intros [A B C D E] V X F ->. constructor.
  - intros v. rewrite values_snoc, V, app_nil_r. apply A.
  - now rewrite effects_snoc, X, app_nil_r.
  - now rewrite effects_snoc, X, app_nil_r.
  - now rewrite effects_snoc, X, app_nil_r.
  - rewrite formats_snoc, F, app_nil_r. exact E.
Qed.
Lemma flag_iff (b b' : bool) (e e1 : effect) (l : list effect) : (b = true <-> In e l) -> (b' = true <-> b = true \/ e1 = e) -> (b' = true <-> In e (l ++ [e1])).
Proof. intros H1 H2. rewrite in_app_iff. cbn [In]. rewrite H2, H1. tauto. Qed.
Lemma with_format_other c t : text_of (with_format c t) = text_of c /\ symlinks (with_format c t) = symlinks c /\ nochecks (with_format c t) = nochecks c /\ by_date (with_format c t) = by_date c.
Proof. unfold with_format. destruct (find _ formats) as [[k f]|]; auto. Qed.
Lemma with_format_is c ts t : format_is ts (output c) -> format_is (ts ++ [t]) (output (with_format c t)).
Proof.
  intros H. unfold with_format. destruct (find (fun x => is_key t (fst x)) formats) as [[k f]|] eqn:E.
  - apply find_some in E as [I K]. cbn [fst] in K. apply is_key_begins in K. cbn [output set_output]. exact (Fi_known ts t k f I K).
  - apply Fi_unknown; [|exact H]. intros k g I B. apply is_key_begins in B. pose proof (find_none _ _ E _ I) as K. cbn [fst] in K. congruence.
Qed.
Lemma forall2_snoc {A B} (R : A -> B -> Prop) l l' x y : Forall2 R l l' -> R x y -> Forall2 R (l ++ [x]) (l' ++ [y]).
Proof. intros H1 H2. apply Forall2_app; [exact H1|]. now repeat constructor. Qed.
Lemma forall2_nil {A B} (R : A -> B -> Prop) l l' : Forall2 R l l' -> (l = [] <-> l' = []).
Proof. destruct 1; split; congruence. Qed.
Lemma step ls l c c' : line_ok space l -> means ls c -> line_does env pw_dir alnum c l c' -> means (ls ++ [l]) c'.
Proof.
  intros OK M D. unfold line_does in D. destruct (said l) as [|k e k' v|p] eqn:SD.
  - apply (same_means ls l c); auto; unfold values, effects, format_values; cbn [flat_map]; intros; now rewrite SD.
  - destruct D as (t & X & ->). pose proof (lo_kind _ _ OK) as K. rewrite SD in K. destruct K as [K _]. pose proof M as [A B C D E].
    constructor.
    + intros w. destruct (A w) as (ts & F & T). rewrite values_snoc. unfold values at 2. cbn [flat_map]. rewrite SD.
      destruct e as [u|u| | | |].
      * cbn [with_effect set_text text_of]. destruct (var_eqb u w) eqn:UW; [|exists ts; cbn [app]; rewrite app_nil_r; auto].
        apply var_eqb_eq in UW. subst w. exists (ts ++ [t]). split; [now apply forall2_snoc|]. unfold result_of. rewrite (kind_adds _ _ K), last_last. destruct ts; reflexivity.
      * cbn [with_effect]. unfold add_text. cbn [set_text text_of]. destruct (var_eqb u w) eqn:UW; [|exists ts; cbn [app]; rewrite app_nil_r; auto].
        apply var_eqb_eq in UW. subst w. exists (ts ++ [t]). split; [now apply forall2_snoc|]. rewrite T. unfold result_of. rewrite (kind_appends _ _ K), joined_snoc. destruct ts; reflexivity.
      * exists ts. cbn [app]. rewrite app_nil_r. auto.
      * exists ts. cbn [app]. rewrite app_nil_r. auto.
      * exists ts. cbn [app]. rewrite app_nil_r. auto.
      * exists ts. cbn [app with_effect]. rewrite app_nil_r. destruct (with_format_other c t) as (-> & _). auto.
    + rewrite effects_snoc. unfold effects at 2. cbn [flat_map]. rewrite SD. cbn [app]. apply (flag_iff (symlinks c)); [exact B|]. destruct e; cbn [with_effect symlinks set_text]; try (unfold add_text; cbn [symlinks set_text]); try (destruct (with_format_other c t) as (_ & -> & _)); intuition congruence.
    + rewrite effects_snoc. unfold effects at 2. cbn [flat_map]. rewrite SD. cbn [app]. apply (flag_iff (nochecks c)); [exact C|]. destruct e; cbn [with_effect nochecks set_text]; try (unfold add_text; cbn [nochecks set_text]); try (destruct (with_format_other c t) as (_ & _ & -> & _)); intuition congruence.
    + rewrite effects_snoc. unfold effects at 2. cbn [flat_map]. rewrite SD. cbn [app]. apply (flag_iff (by_date c)); [exact D|]. destruct e; cbn [with_effect by_date set_text]; try (unfold add_text; cbn [by_date set_text]); try (destruct (with_format_other c t) as (_ & _ & _ & ->)); intuition congruence.
    + destruct E as (ts & F & I). rewrite formats_snoc. unfold format_values at 2. cbn [flat_map]. rewrite SD.
      destruct e as [u|u| | | |]; try (exists ts; cbn [app]; rewrite app_nil_r; split; [exact F|exact I]).
      exists (ts ++ [t]). cbn [app]. split; [now apply forall2_snoc|]. now apply with_format_is.
  - apply (same_means ls l c); auto; unfold values, effects, format_values; cbn [flat_map]; intros; now rewrite SD.
Qed.
Lemma all_means ls : Forall (line_ok space) ls -> forall pre c c', means pre c -> does_all env pw_dir alnum c ls c' -> means (pre ++ ls) c'.
Proof.
  induction 1 as [|l ls OK F IH]; intros pre c c' M D; inversion D; subst.
  - now rewrite app_nil_r.
  - replace (pre ++ l :: ls) with ((pre ++ [l]) ++ ls) by now rewrite <- app_assoc. eapply IH; [|eassumption]. now apply (step pre l c).
Qed.
Lemma initial_means : means [] initial.
Proof.
  constructor; cbn; try (intuition discriminate).
  - intros v. exists []. split; [constructor|reflexivity].
  - exists []. split; constructor.
Qed.
Lemma rc_file_ok ls f : Forall (line_ok space) ls -> holds ls f ->
  exists c, parse_rc_file env pw_dir alnum space f = Ok c /\ means ls c.
Proof.
  intros F W. destruct (rc_lines_ok env pw_dir alnum space ls F initial) as (c & D & G). exists c. split; [apply G; [exact W|lia]|].
  exact (all_means ls F [] initial c initial_means D).
Qed.

(* ---- any file ---- *)
Lemma expand_ok_res v : exists t, expand_string env pw_dir alnum v = Ok t.
Proof. destruct (expand_total env pw_dir alnum v) as (t & E & _). now exists t. Qed.
Lemma copy_value_any p : (exists t, copy_value env pw_dir alnum p = Ok (Some t)) \/ (copy_value env pw_dir alnum p = Ok None /\ ~ In (ch "=") p).
Proof.
  unfold copy_value. destruct (span (fun x => negb (x =? ch "=")) p) as [a q] eqn:E. apply span_ok in E as (-> & F & S0).
  destruct q as [|c v].
  - right. split; [reflexivity|]. rewrite app_nil_r. intros I. unfold all_good in F. rewrite Forall_forall in F. specialize (F _ I). cbv beta in F. rewrite N.eqb_refl in F. discriminate.
  - left. destruct (expand_ok_res v) as (t & ->). now exists t.
Qed.
Lemma option_line_any c p : (exists c', option_line env pw_dir alnum c p = Ok c') \/
  (option_line env pw_dir alnum c p = Err E_ub /\ begins (bs "folders") p /\ ~ In (ch "=") p).
Proof.
  destruct (copy_value_any p) as [(t & E)|(E & NI)]; unfold option_line, parse_output_folder; rewrite E; cbn [bind].
  - left. repeat match goal with |- context [if ?b then _ else _] => destruct b end; try (eexists; reflexivity); rewrite ?add_folders_ok; eexists; reflexivity.
  - destruct (is_key p (bs "base")); [left; eexists; reflexivity|]. destruct (is_key p (bs "folders")) eqn:K.
    + unfold add_folders. destruct (text_of c V_maildir); [|left; eexists; reflexivity]. right. split; [reflexivity|]. split; [now apply is_key_begins|exact NI].
    + left. repeat match goal with |- context [is_key p ?k] => lazymatch k with
        | bs "follow_mbox_symlinks" => fail | bs "nochecks" => fail | bs "sort=date+" => fail
        | _ => rewrite (proj1 (Bool.not_true_iff_false (is_key p k)) (fun H => NI (key_has p k eq_refl H))) end end.
      repeat match goal with |- context [if ?b then _ else _] => destruct b end; eexists; reflexivity.
Qed.
End File.
