(* The rc file: any file; the environment; arguments. *)
From Verif Require Import Base M_Config S_Config L_TokTable L_Config L_Config2 L_Config3 L_Config4.
Local Open Scope N_scope.

Lemma fgets_first n x f raw r : fgets (S n) (x :: f) = (raw, r) -> exists a s, raw = a :: s.
Proof. cbn [fgets]. destruct (x =? 10); [intros [= <- _]; eauto|]. destruct (fgets n f) as [u w]. intros [= <- _]. eauto. Qed.
Section File.
Variable env : bytes -> option bytes.
Variable pw_dir : bytes.
Variables alnum space : N -> bool.

Lemma rc_line_any c f raw r : fgets 4095 f = (raw, r) -> f <> [] ->
  (exists c', rc_line env pw_dir alnum space c raw = Ok c') \/ exists e, rc_line env pw_dir alnum space c raw = Err e /\ bad f e.
Proof.
  intros FG NE. apply fgets_split in FG as (E & L & K). unfold rc_line, c_str.
  destruct (span (fun x => negb (x =? 0)) raw) as [line q] eqn:SP. apply span_ok in SP as (-> & _ & SQ). cbn [fst].
  assert (Q : q = [] \/ exists s, q = 0 :: s).
  { destruct q as [|x s]; [now left|]. right. exists s. specialize (SQ x s eq_refl). cbv beta in SQ. apply negb_false_iff, N.eqb_eq in SQ. now subst x. }
  destruct (N.ltb_spec 4092 (N.of_nat (length line))) as [|SH]; [right; exists (E_exit 2); split; [reflexivity|now left]|].
  destruct (rev line) as [|z rl] eqn:RV.
  - assert (line = []) by (rewrite <- (rev_involutive line), RV; reflexivity). subst line. right. exists E_oob. split; [reflexivity|]. right. left. split; [reflexivity|]. rewrite E.
    destruct Q as [->|(s & ->)]; [|now left]. cbn [app length] in *. destruct K as [K|[->|(b & K)]]; [lia|congruence|destruct b; discriminate].
  - assert (EL : line = rev rl ++ [z]) by (rewrite <- (rev_involutive line), RV; reflexivity).
    set (ln := if z =? 10 then removelast line else line).
    assert (TAIL : exists t, f = ln ++ t /\ (t = [] \/ exists x s, t = x :: s /\ (x = 0 \/ x = 10))).
    { unfold ln. destruct (N.eqb_spec z 10) as [->|NZ].
      - exists (10 :: q ++ r). rewrite E. split; [rewrite EL, removelast_last, <- !app_assoc; reflexivity|]. right. eauto.
      - exists (q ++ r). split; [now rewrite E, <- app_assoc|]. destruct Q as [->|(s & ->)]; [|right; exists 0, (s ++ r); auto]. rewrite app_nil_r in *. cbn [app].
        destruct K as [K|[->|(b & K)]]; [lia|now left|]. rewrite K in EL. apply app_inj_tail in EL as [_ EL]. congruence. }
    clearbody ln. destruct TAIL as (t & Ef & T).
    destruct (span (fun x => negb (comment_char x)) ln) as [cut cm] eqn:SC. apply span_ok in SC as (-> & _ & SCM).
    destruct (span space cut) as [bl p] eqn:SB. apply span_ok in SB as (-> & _ & _).
    destruct p as [|x s] eqn:EP; [left; eexists; reflexivity|]. rewrite <- EP in *. clear EP x s.
    destruct (option_line_any env pw_dir alnum c p) as [(c' & O)|(O & (k & b & -> & KF) & NI)]; [left; now exists c'|].
    right. exists E_ub. split; [exact O|]. right. right. split; [reflexivity|]. exists bl, k, b, (cm ++ t). split; [rewrite Ef; now rewrite <- !app_assoc|]. split; [exact KF|].
    split; [intros I; apply NI, in_app_iff; now right|]. destruct cm as [|x s].
    + destruct T as [->|(x & s & -> & X)]; [now left|]. right. exists x, s. split; [reflexivity|tauto].
    + right. exists x, (s ++ t). split; [reflexivity|]. specialize (SCM x s eq_refl). cbv beta in SCM. apply negb_false_iff, comment_char_iff in SCM. auto.
Qed.
Lemma rc_lines_any fuel : forall c f, (length f < fuel)%nat -> (exists c', rc_lines env pw_dir alnum space fuel c f = Ok c') \/ exists e, rc_lines env pw_dir alnum space fuel c f = Err e /\ bad f e.
Proof.
  induction fuel as [|fuel IH]; intros c f L; [lia|]. cbn [rc_lines]. destruct f as [|x f0] eqn:EF; [left; eexists; reflexivity|]. rewrite <- EF in *.
  destruct (fgets 4095 f) as [raw r] eqn:FG. destruct (rc_line_any c f raw r FG ltac:(rewrite EF; discriminate)) as [(c' & ->)|(e & -> & B)]; [|right; exists e; split; [reflexivity|exact B]].
  cbn [bind]. assert (HD : exists a s, raw = a :: s).
  { rewrite EF in FG. exact (fgets_first 4094 x f0 raw r FG). }
  apply fgets_split in FG as (E & _ & _). destruct HD as (a & s & ->).
  assert (L' : (length r < fuel)%nat) by (rewrite E in L; rewrite app_length in L; cbn [length] in L; lia).
  destruct (IH c' r L') as [H|(e & H & B)]; [left; exact H|]. right. exists e. split; [exact H|]. rewrite E. now apply bad_app.
Qed.
Lemma rc_file_any f : (exists c, parse_rc_file env pw_dir alnum space f = Ok c) \/ exists e, parse_rc_file env pw_dir alnum space f = Err e /\ bad f e.
Proof. apply rc_lines_any. lia. Qed.

(* ---- the environment ---- *)
Lemma set_text_same c v t : text_of (set_text c v t) v = t.
Proof. cbn [set_text text_of]. now rewrite var_eqb_refl. Qed.
Lemma set_text_other c v w t : v <> w -> text_of (set_text c v t) w = text_of c w.
Proof. intros N. cbn [set_text text_of]. destruct (var_eqb v w) eqn:E; [apply var_eqb_eq in E; contradiction|reflexivity]. Qed.
Lemma override_text c v test val w : text_of (override env c v test val) w = if var_eqb v w then match env test with Some _ => env val | None => text_of c w end else text_of c w.
Proof. unfold override. destruct (env test); [reflexivity|]. now destruct (var_eqb v w). Qed.
Lemma override_flags c v test val : symlinks (override env c v test val) = symlinks c /\ nochecks (override env c v test val) = nochecks c /\ by_date (override env c v test val) = by_date c /\ output (override env c v test val) = output c.
Proof. unfold override. destruct (env test); auto. Qed.
(* ---- arguments ---- *)
Variable scan_u : bytes -> option N.
Lemma option_named_ok o ns n : In (o, ns) names -> In n ns -> option_named n = Some o.
Proof.
  unfold names. cbn [In]. intros I J. repeat (destruct I as [I|I]; [injection I as <- <-; cbn [In] in J; repeat (destruct J as [<-|J]; [reflexivity|]); contradiction|]). contradiction.
Qed.
Lemma option_named_dash n o : option_named n = Some o -> exists s, n = bs "-" ++ s.
Proof.
  unfold option_named. intros H. repeat match type of H with (if ?b || ?c then _ else _) = _ => let E := fresh in destruct (b || c) eqn:E; [apply orb_true_iff in E as [E|E]; apply bytes_eqb_eq in E; subst n; eexists; reflexivity|]
    | (if ?b then _ else _) = _ => let E := fresh in destruct b eqn:E; [apply bytes_eqb_eq in E; subst n; eexists; reflexivity|] end. discriminate.
Qed.
Lemma parse_args_ok os ts : Forall2 (spelled scan_u) os ts -> forall words ws, words_written words ws -> parse_args scan_u (concat ts ++ ws) = Ok (os, words).
Proof.
  induction 1 as [|o t os ts SP F IH]; intros words ws W; cbn [concat app].
  - destruct W as [|ws|w ws NW]; [reflexivity|reflexivity|]. cbn [parse_args]. destruct (option_named w) as [o|] eqn:E; [apply option_named_dash in E as (s & ->); exfalso; eapply NW; reflexivity|].
    destruct (bytes_eqb w (bs "--")) eqn:E2; [apply bytes_eqb_eq in E2; subst w; exfalso; apply (NW (bs "-")); reflexivity|].
    destruct (starts_with (ch "-") w) eqn:E3; [|reflexivity]. destruct w as [|x w]; [discriminate|]. cbn [starts_with] in E3. apply N.eqb_eq in E3. subst x. exfalso. apply (NW w). reflexivity.
  - specialize (IH words ws W). inversion SP as [o' ns n I J T NV|o' ns n x I J T K]; subst.
    + cbn [app parse_args]. rewrite (option_named_ok o' ns n I J). rewrite IH. cbn [bind]. destruct o'; try discriminate; try reflexivity. contradiction.
    + cbn [app parse_args]. rewrite (option_named_ok o' ns n I J). rewrite IH. destruct o'; try discriminate; try reflexivity. destruct (scan_u x) eqn:SX; [reflexivity|]. exfalso. now apply K.
Qed.
End File.
