(* The rc file: whole files. *)
From Verif Require Import Base M_Config S_Config L_TokTable L_Config L_Config2.
Local Open Scope N_scope.

Lemma comment_char_iff x : comment_char x = true <-> starts_comment x.
Proof.
  unfold comment_char, starts_comment. rewrite !orb_true_iff, !N.eqb_eq. change (bs "#!;%") with [ch "#"; ch "!"; ch ";"; ch "%"]. cbn [In]. intuition.
Qed.
Lemma comment_char_false x : comment_char x = false <-> ~ starts_comment x.
Proof. rewrite <- comment_char_iff. destruct (comment_char x); intuition congruence. Qed.

Section File.
Variable env : bytes -> option bytes.
Variable pw_dir : bytes.
Variables alnum space : N -> bool.
Notation home := (home_dir env pw_dir).
Notation ex := (expands env home alnum true).
Notation rc1 := (rc_line env pw_dir alnum space).
Notation rcs := (rc_lines env pw_dir alnum space).

(* ---- one line ---- *)
Definition body (l : line) : bytes := blanks l ++ content_text (said l) ++ comment l.
Lemma text_body l : line_text l = body l ++ [10].
Proof. unfold line_text, body. now rewrite <- !app_assoc. Qed.
Definition inner (s : bytes) : Prop := Forall (fun x => x <> 0 /\ x <> 10) s.
Lemma no_comment_inner s : no_comment s -> inner s.
Proof. apply Forall_impl. tauto. Qed.
Lemma body_inner l : line_ok space l -> inner (body l).
Proof.
  intros [(_ & B) S0 _ _ C _]. unfold body, inner. apply Forall_app. split; [now apply no_comment_inner|]. apply Forall_app. split; [now apply no_comment_inner|].
  destruct C as [->|(c & s & -> & SC & F)]; [constructor|]. constructor; [|exact F]. unfold starts_comment in SC. cbn in SC. lia.
Qed.
Lemma c_str_ok s : inner s -> c_str s = s /\ c_str (s ++ [10]) = s ++ [10].
Proof.
  intros H. unfold c_str. assert (F : all_good (fun x => negb (x =? 0)) s).
  { eapply Forall_impl; [|exact H]. intros x [A _]. apply negb_true_iff. now apply N.eqb_neq. }
  split.
  - rewrite <- (app_nil_r s) at 1. rewrite span_app; [reflexivity|exact F|]. intros c t E. discriminate.
  - rewrite <- (app_nil_r (s ++ [10])) at 1. rewrite span_app; [reflexivity| |].
    + apply Forall_app. split; [exact F|]. repeat constructor.
    + intros c t E. discriminate.
Qed.
(* what a line does to the settings *)
Definition line_does (c : config) (l : line) (c' : config) : Prop :=
  match said l with
  | Option _ e _ v => exists t, ex v t /\ c' = with_effect c e t
  | _ => c' = c
  end.
Lemma cut_comment l : line_ok space l -> span (fun x => negb (comment_char x)) (body l) = (blanks l ++ content_text (said l), comment l).
Proof.
  intros [(_ & B) S0 _ _ C _]. unfold body. rewrite app_assoc. apply span_app.
  - apply Forall_app. split; (eapply Forall_impl; [|eassumption]); intros x (_ & _ & H); apply comment_char_false in H; now rewrite H.
  - intros c s E. destruct C as [C|(d & t & C & SC & _)]; rewrite C in E; [discriminate|]. injection E as <- _. apply comment_char_iff in SC. now rewrite SC.
Qed.
Lemma rest_of_line c l : line_ok space l -> exists c', line_does c l c' /\
  (let (line, _) := span (fun x => negb (comment_char x)) (body l) in
   let (_, p) := span space line in
   match p with [] => Ok c | _ => option_line env pw_dir alnum c p end) = Ok c'.
Proof.
  intros OK. rewrite (cut_comment l OK). destruct OK as [(B & _) S0 F0 K C _]. rewrite span_app; [|exact B|].
  - unfold line_does. destruct (said l) as [|k e k' v|p]; cbn [content_text] in *.
    + exists c. split; reflexivity.
    + destruct K as [I E]. destruct (expands_some env pw_dir alnum v true) as (t & X). exists (with_effect c e t). split; [now exists t|].
      destruct (k' ++ v) as [|x y] eqn:EQ.
      * apply app_eq_nil in EQ as [-> _]. cbn [map] in E. subst k. unfold keywords in I. cbn [In] in I. repeat (destruct I as [I|I]; [discriminate|]). contradiction.
      * rewrite <- EQ. now apply (option_line_ok env pw_dir alnum c k e k' v t).
    + destruct K as (NE & NB & NF & K). exists c. split; [reflexivity|]. destruct p as [|x y] eqn:EQ; [congruence|]. rewrite <- EQ in *. now apply unknown_line_ok.
  - intros x s E. now apply (F0 x s).
Qed.
Lemma last_not_newline s x r : inner s -> rev s = x :: r -> (x =? 10) = false.
Proof. intros H E. apply N.eqb_neq. assert (I : In x s) by (apply in_rev; rewrite E; now left). unfold inner in H. rewrite Forall_forall in H. now apply H. Qed.
Lemma rc_line_ok c l : line_ok space l -> exists c', line_does c l c' /\ rc1 c (line_text l) = Ok c' /\ (body l <> [] -> rc1 c (body l) = Ok c').
Proof.
  intros OK. destruct (rest_of_line c l OK) as (c' & D & R). exists c'. split; [exact D|]. pose proof (body_inner l OK) as BI. destruct (c_str_ok (body l) BI) as [C1 C2].
  pose proof (lo_short _ _ OK) as SH. rewrite text_body, app_length in SH. cbn [length] in SH. split.
  - rewrite text_body. unfold rc_line. rewrite C2. destruct (N.ltb_spec 4092 (N.of_nat (length (body l ++ [10])))) as [H|_]; [rewrite app_length in H; cbn [length] in H; lia|].
    rewrite rev_app_distr. cbn [rev app]. rewrite N.eqb_refl. rewrite removelast_last. exact R.
  - intros NE. unfold rc_line. rewrite C1. destruct (N.ltb_spec 4092 (N.of_nat (length (body l)))) as [H|_]; [lia|].
    destruct (rev (body l)) as [|x r] eqn:E.
    + exfalso. apply NE. rewrite <- (rev_involutive (body l)), E. reflexivity.
    + rewrite (last_not_newline (body l) x r BI E). exact R.
Qed.

(* ---- reading lines ---- *)
Lemma fgets_line s : forall n rest, inner s -> (length s < n)%nat -> fgets n (s ++ [10] ++ rest) = (s ++ [10], rest).
Proof.
  induction s as [|c s IH]; intros [|n] rest H L; try (cbn [length] in L; lia); cbn [app fgets].
  - reflexivity.
  - inversion H as [|? ? [_ H1] H2]; subst. apply N.eqb_neq in H1. rewrite H1. change (10 :: rest) with ([10] ++ rest). rewrite (IH n rest H2) by (cbn [length] in L; lia). reflexivity.
Qed.
Lemma fgets_end s : forall n, inner s -> (length s <= n)%nat -> fgets n s = (s, []).
Proof.
  induction s as [|c s IH]; intros [|n] H L; try (cbn [length] in L; lia); cbn [fgets]; [reflexivity..|].
  inversion H as [|? ? [_ H1] H2]; subst. apply N.eqb_neq in H1. rewrite H1. rewrite (IH n H2) by (cbn [length] in L; lia). reflexivity.
Qed.

Definition rc_text (ls : list line) : bytes := flat_map line_text ls.
Inductive does_all : config -> list line -> config -> Prop :=
| Da_nil c : does_all c [] c
| Da_cons c l c1 ls c2 : line_does c l c1 -> does_all c1 ls c2 -> does_all c (l :: ls) c2.
Definition without_end (t f : bytes) : Prop := f = t \/ f ++ [10] = t.
Lemma rc_lines_ok ls : Forall (line_ok space) ls -> forall c, exists c', does_all c ls c' /\ forall f fuel, without_end (rc_text ls) f -> (length f < fuel)%nat -> rcs fuel c f = Ok c'.
Proof.
  induction 1 as [|l ls OK F IH]; intros c.
  - exists c. split; [constructor|]. intros f fuel W L. destruct W as [->|W]; [|apply app_eq_nil in W as [_ W]; discriminate]. destruct fuel; [cbn [length] in L; lia|reflexivity].
  - destruct (rc_line_ok c l OK) as (c1 & D & R & RB). destruct (IH c1) as (c2 & DA & G). exists c2. split; [now apply (Da_cons c l c1)|].
    intros f fuel W L. pose proof (body_inner l OK) as BI. pose proof (lo_short _ _ OK) as SH. rewrite text_body, app_length in SH. cbn [length] in SH.
    change (rc_text (l :: ls)) with (line_text l ++ rc_text ls) in W. rewrite text_body in W.
    assert (CASES : (exists f', f = body l ++ [10] ++ f' /\ without_end (rc_text ls) f') \/ (ls = [] /\ f = body l)).
    { destruct W as [->|W].
      - left. exists (rc_text ls). split; [now rewrite <- app_assoc|now left].
      - destruct ls as [|l2 ls].
        + right. split; [reflexivity|]. cbn [rc_text flat_map] in W. rewrite app_nil_r in W. now apply app_inj_tail in W as [-> _].
        + left. assert (exists g, rc_text (l2 :: ls) = g ++ [10]) as (g & EG).
          { clear. revert l2. induction ls as [|l3 ls IH]; intros l2.
            - exists (body l2). cbn [rc_text flat_map]. now rewrite app_nil_r, text_body.
            - destruct (IH l3) as (g & EG). exists (line_text l2 ++ g). change (rc_text (l2 :: l3 :: ls)) with (line_text l2 ++ rc_text (l3 :: ls)). rewrite EG. now rewrite app_assoc. }
          exists g. split; [|right; now rewrite EG]. rewrite EG, <- !app_assoc, (app_assoc (body l)), (app_assoc (body l ++ [10])) in W. apply app_inj_tail in W as [-> _]. now rewrite <- app_assoc. }
    destruct CASES as [(f' & -> & W')|(-> & ->)].
    + destruct fuel as [|fuel]; [lia|]. cbn [rc_lines]. destruct (body l ++ [10] ++ f') as [|x y] eqn:E; [destruct (body l); discriminate|]. rewrite <- E in *.
      rewrite fgets_line by (try exact BI; lia). rewrite <- text_body, R. cbn [bind]. apply G; [exact W'|]. rewrite !app_length in L. cbn [length] in L. lia.
    + inversion DA; subst. destruct fuel as [|fuel]; [lia|]. cbn [rc_lines]. destruct (body l) as [|x y] eqn:E.
      * assert (c2 = c) as ->; [|reflexivity]. unfold line_does in D. unfold body in E. apply app_eq_nil in E as [_ E]. apply app_eq_nil in E as [E _].
        destruct OK as [_ _ _ K _ _]. destruct (said l) as [|k e k' v|p]; [exact D| |exact D]. cbn [content_text] in E. apply app_eq_nil in E as [-> _]. destruct K as [I <-].
        unfold keywords in I. cbn [In map] in I. repeat (destruct I as [I|I]; [discriminate|]). contradiction.
      * rewrite <- E in *. rewrite fgets_end by (try exact BI; lia). rewrite RB by (rewrite E; discriminate). cbn [bind]. destruct fuel; [rewrite E in L; cbn [length] in L; lia|reflexivity].
Qed.
End File.
