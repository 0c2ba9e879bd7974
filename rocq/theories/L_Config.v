(* Expansion of ~ and variables. *)
From Verif Require Import Base M_Config S_Config L_TokTable.
Local Open Scope N_scope.

Definition all_good (good : N -> bool) (p : bytes) : Prop := Forall (fun c => good c = true) p.
Definition stops (good : N -> bool) (p : bytes) : Prop := forall c s, p = c :: s -> good c = false.
Lemma span_app good a q : all_good good a -> stops good q -> span good (a ++ q) = (a, q).
Proof.
  intros F S0. induction F as [|c a H F IH]; cbn [app span].
  - destruct q as [|c q]; [reflexivity|]. cbn [span]. now rewrite (S0 c q eq_refl).
  - now rewrite H, IH.
Qed.
Lemma span_ok good p : forall a q, span good p = (a, q) -> p = a ++ q /\ all_good good a /\ stops good q.
Proof.
  induction p as [|c p IH]; intros a q; cbn [span].
  - intros [= <- <-]. split; [reflexivity|]. split; [constructor|]. intros c s E. discriminate.
  - destruct (good c) eqn:G.
    + destruct (span good p) as [a' q'] eqn:E. intros [= <- <-]. destruct (IH a' q' eq_refl) as (-> & H1 & H2). split; [reflexivity|]. split; [now constructor|exact H2].
    + intros [= <- <-]. split; [reflexivity|]. split; [constructor|]. intros c' s E. injection E as <- _. exact G.
Qed.

Section Expand.
Variable env : bytes -> option bytes.
Variable pw_dir : bytes.
Variable alnum : N -> bool.
Notation home := (home_dir env pw_dir).
Notation ex := (expands env home alnum).

Lemma isenv_iff x : isenv alnum x = true <-> name_char alnum x.
Proof.
  unfold isenv, name_char. destruct (alnum x); [intuition|]. destruct (N.eqb_spec x (ch "_")); intuition discriminate.
Qed.
Lemma isenv_false x : isenv alnum x = false <-> ~ name_char alnum x.
Proof. rewrite <- isenv_iff. destruct (isenv alnum x); intuition congruence. Qed.
Lemma not_brace name : all_good (fun x => negb (x =? ch "}")) name <-> ~ In (ch "}") name.
Proof.
  unfold all_good. rewrite Forall_forall. split.
  - intros H I. specialize (H _ I). now rewrite N.eqb_refl in H.
  - intros H x I. destruct (N.eqb_spec x (ch "}")) as [->|]; [contradiction|reflexivity].
Qed.

Definition done (first : bool) (p t : bytes) : Prop := forall fuel, (length p < fuel)%nat ->
  (forall len, length_loop env pw_dir alnum fuel first p len = Ok (len + N.of_nat (length t))) /\
  (forall size out, N.of_nat (length out) + N.of_nat (length t) + 1 <= size -> expand_loop env pw_dir alnum fuel size first p out = Ok (out ++ t)).
Lemma append_str_ok size out t : N.of_nat (length out) + N.of_nat (length t) + 1 <= size -> append_str size out t = Ok (out ++ t).
Proof. intros H. unfold append_str. destruct (N.leb_spec (N.of_nat (length out) + N.of_nat (length t) + 1) size); [reflexivity|lia]. Qed.
Lemma append_env_ok size out name (t : bytes) : N.of_nat (length out) + N.of_nat (length (env_text env name)) + N.of_nat (length t) + 1 <= size -> append_env env size out name = Ok (out ++ env_text env name).
Proof. unfold append_env, env_text. destruct (env name) as [l|]; intros H; [apply append_str_ok; lia|now rewrite app_nil_r]. Qed.

Lemma expands_done first p t : ex first p t -> done first p t.
Proof.
  induction 1 as [first|p out H IH|first name p out NI H IH|first name NI|first name p out F ST NB H IH|first c p out NC NT H IH]; intros fuel LF; (destruct fuel as [|f]; [cbn in LF; lia|]).
  - split; intros; cbn [length_loop expand_loop length].
    + apply (f_equal Ok). lia.
    + rewrite app_nil_r in *. rewrite append_str_ok; [now rewrite app_nil_r|cbn in *; lia].
  - change (bs "~/" ++ p) with (ch "~" :: ch "/" :: p) in *. change (bs "/" ++ p) with (ch "/" :: p) in *.
    destruct (IH f ltac:(cbn in *; lia)) as [A B]. split; intros; cbn [length_loop expand_loop]; rewrite N.eqb_refl; cbn [starts_with andb]; rewrite N.eqb_refl; cbn [andb].
    + rewrite A, app_length. apply (f_equal Ok). lia.
    + match goal with H : _ <= _ |- _ => rewrite app_length in H end. rewrite append_str_ok by lia. cbn [bind]. rewrite B by (rewrite app_length; lia). now rewrite app_assoc.
  - change (bs "${" ++ name ++ bs "}" ++ p) with (ch "$" :: ch "{" :: name ++ ch "}" :: p) in *. change (value env name) with (env_text env name).
    assert (SP : span (fun x => negb (x =? ch "}")) (name ++ ch "}" :: p) = (name, ch "}" :: p)).
    { apply span_app; [now apply not_brace|]. intros c s [= <- _]. reflexivity. }
    assert (LF' : (length p < f)%nat) by (cbn [length] in LF; rewrite app_length in LF; cbn [length] in LF; lia).
    destruct (IH f LF') as [A B].
    assert (NF : first && (ch "$" =? ch "~") && starts_with (ch "/") (ch "{" :: name ++ ch "}" :: p) = false) by (destruct first; reflexivity).
    split; intros; cbn [length_loop expand_loop]; rewrite NF; rewrite N.eqb_refl; cbn [starts_with andb]; rewrite N.eqb_refl; cbn [tl]; rewrite SP; cbn [tl].
    + rewrite A, app_length. apply (f_equal Ok). lia.
    + match goal with H : _ <= _ |- _ => rewrite app_length in H end. rewrite (append_env_ok size out0 name out) by lia. cbn [bind]. rewrite B by (rewrite app_length; lia). now rewrite app_assoc.
  - change (bs "${" ++ name) with (ch "$" :: ch "{" :: name) in *. change (value env name) with (env_text env name).
    assert (SP : span (fun x => negb (x =? ch "}")) name = (name, [])).
    { rewrite <- (app_nil_r name) at 1. apply span_app; [now apply not_brace|]. intros c s E. discriminate. }
    assert (NF : first && (ch "$" =? ch "~") && starts_with (ch "/") (ch "{" :: name) = false) by (destruct first; reflexivity).
    destruct f as [|f]; [cbn [length] in LF; lia|].
    split; intros; cbn [length_loop expand_loop]; rewrite NF; rewrite N.eqb_refl; cbn [starts_with andb]; rewrite N.eqb_refl; cbn [tl]; rewrite SP; cbn [tl length_loop expand_loop].
    + reflexivity.
    + rewrite (append_env_ok size out name []) by (cbn [length]; lia). cbn [bind]. rewrite append_str_ok; [now rewrite app_nil_r|rewrite app_length; cbn [length]; lia].
  - change (bs "$" ++ name ++ p) with (ch "$" :: name ++ p) in *. change (value env name) with (env_text env name).
    assert (SP : span (isenv alnum) (name ++ p) = (name, p)).
    { apply span_app; [eapply Forall_impl; [|exact F]; intros x; apply isenv_iff|]. intros c s E. apply isenv_false. now apply (ST c s). }
    assert (LF' : (length p < f)%nat) by (cbn [length] in LF; rewrite app_length in LF; lia).
    destruct (IH f LF') as [A B].
    assert (NF : first && (ch "$" =? ch "~") && starts_with (ch "/") (name ++ p) = false) by (destruct first; reflexivity).
    assert (NF2 : (ch "$" =? ch "$") && starts_with (ch "{") (name ++ p) = false).
    { rewrite N.eqb_refl. cbn [andb]. destruct (name ++ p) as [|c s] eqn:EQ; [reflexivity|]. cbn [starts_with]. destruct (N.eqb_spec c (ch "{")) as [->|]; [|reflexivity]. exfalso. eapply NB. reflexivity. }
    split; intros; cbn [length_loop expand_loop]; rewrite NF, NF2, N.eqb_refl, SP.
    + rewrite A, app_length. apply (f_equal Ok). lia.
    + match goal with H : _ <= _ |- _ => rewrite app_length in H end. rewrite (append_env_ok size out0 name out) by lia. cbn [bind]. rewrite B by (rewrite app_length; lia). now rewrite app_assoc.
  - destruct (IH f ltac:(cbn [length] in LF; lia)) as [A B].
    assert (NF : first && (c =? ch "~") && starts_with (ch "/") p = false).
    { destruct first; [|reflexivity]. destruct (N.eqb_spec c (ch "~")) as [->|]; [|reflexivity]. destruct p as [|d p]; [reflexivity|]. cbn [starts_with andb]. destruct (N.eqb_spec d (ch "/")) as [->|]; [|reflexivity].
      exfalso. eapply NT; reflexivity. }
    assert (NE : (c =? ch "$") = false) by now apply N.eqb_neq.
    split; intros; cbn [length_loop expand_loop]; rewrite NF, NE; cbn [andb].
    + rewrite A. cbn [length]. apply (f_equal Ok). lia.
    + cbn [length] in *. unfold append_char. destruct (N.leb_spec (N.of_nat (length out0) + 1) size); [|lia]. cbn [bind]. rewrite B by (rewrite app_length; cbn [length]; lia). rewrite <- app_assoc. reflexivity.
Qed.
Lemma expands_some p : forall first, exists t, ex first p t.
Proof.
  assert (G : forall n p, (length p <= n)%nat -> forall first, exists t, ex first p t).
  { clear p. induction n as [|n IH]; intros p L first.
    - destruct p; [|cbn [length] in L; lia]. eexists. constructor.
    - destruct p as [|c p]; [eexists; constructor|]. cbn [length] in L.
      destruct (N.eq_dec c (ch "$")) as [->|NC].
      + assert (EB : (exists q, p = ch "{" :: q) \/ (forall s, p <> ch "{" :: s)).
        { destruct p as [|d p]; [right; discriminate|]. destruct (N.eq_dec d (ch "{")) as [->|N1]; [left; now exists p|right; congruence]. }
        destruct EB as [(q0 & ->)|NB].
        * cbn [length] in L. destruct (span (fun x => negb (x =? ch "}")) q0) as [name q] eqn:E. apply span_ok in E as (-> & F & ST). apply not_brace in F.
          destruct q as [|d q].
          -- rewrite app_nil_r. eexists. apply (Ex_open env home alnum first name F).
          -- assert (DE : d = ch "}").
             { specialize (ST d q eq_refl). destruct (N.eqb_spec d (ch "}")) as [|N1]; [assumption|]. cbv beta in ST. apply N.eqb_neq in N1. rewrite N1 in ST. discriminate. }
             subst d. rewrite app_length in L. cbn [length] in L. destruct (IH q ltac:(lia) false) as (t & H). eexists. apply (Ex_braces env home alnum first name q t F H).
        * destruct (span (isenv alnum) p) as [name q] eqn:E. apply span_ok in E as (-> & F & ST). rewrite app_length in L. destruct (IH q ltac:(lia) false) as (t & H).
          eexists. apply (Ex_name env home alnum first name q t); [eapply Forall_impl; [|exact F]; intros x; apply isenv_iff| | |exact H].
          -- intros c s E. apply isenv_false. now apply (ST c s).
          -- exact NB.
      + destruct (IH p ltac:(lia) false) as (t & H).
        assert (TL : (first = true /\ c = ch "~" /\ exists q, p = ch "/" :: q) \/ (first = true -> c = ch "~" -> forall s, p <> ch "/" :: s)).
        { destruct first; [|right; discriminate]. destruct (N.eq_dec c (ch "~")) as [->|]; [|right; congruence].
          destruct p as [|d p]; [right; discriminate|]. destruct (N.eq_dec d (ch "/")) as [->|N1]; [left; eauto|right; congruence]. }
        destruct TL as [(-> & -> & q & ->)|TL].
        * eexists. apply (Ex_home env home alnum q t H).
        * eexists. apply Ex_char; [exact NC|exact TL|exact H]. }
  intros first. now apply (G (length p)).
Qed.
Lemma expand_ok p t : expand_string env pw_dir alnum p = Ok t <-> ex true p t.
Proof.
  assert (D : forall t, ex true p t -> expand_string env pw_dir alnum p = Ok t).
  { intros u H. apply expands_done in H. destruct (H (S (length p)) ltac:(lia)) as [A B]. unfold expand_string, compute_length. rewrite A. cbn [bind]. rewrite B; [reflexivity|cbn; lia]. }
  split; [|apply D]. intros E. destruct (expands_some p true) as (u & H). rewrite (D u H) in E. now injection E as <-.
Qed.
Lemma expand_total p : exists t, expand_string env pw_dir alnum p = Ok t /\ compute_length env pw_dir alnum p = Ok (N.of_nat (length t)) /\ ex true p t.
Proof.
  destruct (expands_some p true) as (t & H). exists t. split; [now apply expand_ok|]. split; [|exact H]. apply expands_done in H. destruct (H (S (length p)) ltac:(lia)) as [A _]. unfold compute_length. rewrite A. reflexivity.
Qed.
End Expand.
