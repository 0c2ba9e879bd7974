From Verif Require Import Base M_Tokens S_Tokens L_Tokens.
Local Open Scope N_scope.

(* --- terms in angle brackets --- *)
Lemma strchr_some : forall c s r, strchr c s = Some r -> exists a r', r = c :: r' /\ s = a ++ r /\ ~ In c a.
Proof.
  intros c s r. induction s as [|x s IH]; cbn [strchr]; [discriminate|].
  destruct (N.eqb_spec x c) as [->|NE]; intros H.
  - injection H as <-. exists [], s. repeat split; auto.
  - destruct (IH H) as (a & r' & -> & -> & N). exists (x :: a), r'. repeat split; auto. intros [|]; auto.
Qed.
Lemma strchr_none : forall c s, strchr c s = None -> ~ In c s.
Proof.
  intros c s. induction s as [|x s IH]; cbn [strchr]; [auto|].
  destruct (N.eqb_spec x c) as [->|NE]; [discriminate|]. intros H [|]; auto. now apply IH.
Qed.
Lemma upto_app : forall c w b, ~ In c w -> upto c (w ++ c :: b) = w.
Proof.
  intros c w b. induction w as [|x w IH]; intros N; cbn [app upto]; [now rewrite N.eqb_refl|].
  destruct (N.eqb_spec x c) as [->|NE]; [destruct N; now left|]. rewrite IH; auto. intros I. apply N. now right.
Qed.
Lemma angled_loop_ok : forall f s, (length s < f)%nat -> exists ws, angled_loop f (strchr (ch "<") s) = Ok ws /\ angled s ws.
Proof.
  induction f as [|f IH]; intros s L; [lia|]. cbn [angled_loop].
  destruct (strchr (ch "<") s) as [l|] eqn:E.
  - apply strchr_some in E. destruct E as (a & l' & -> & -> & NA). cbn [strchr]. change (ch "<" =? ch ">") with false. cbv iota.
    destruct (strchr (ch ">") l') as [rt|] eqn:E.
    + apply strchr_some in E. destruct E as (w & b & -> & -> & NW). cbn [strchr]. change (ch ">" =? ch "<") with false. cbv iota.
      destruct (IH b) as (ws & -> & A); [rewrite app_length in L; cbn in L; rewrite app_length in L; cbn in L; lia|].
      cbn [bind tl]. rewrite upto_app by auto. eexists. split; [reflexivity|]. now constructor.
    + exists []. split; auto. constructor. intros (a1 & w & b & H). apply strchr_none in E.
      apply app_eq_app in H. destruct H as (k & [[H1 H2]|[H1 H2]]).
      * destruct k as [|x k].
        -- injection H2 as H2. apply E. rewrite <- H2. apply in_or_app. right. now left.
        -- injection H2 as <- _. apply NA. rewrite H1. apply in_or_app. right. now left.
      * destruct k as [|x k].
        -- injection H2 as H2. apply E. rewrite H2. apply in_or_app. right. now left.
        -- injection H2 as _ H2. apply E. rewrite H2. apply in_or_app. right. right. apply in_or_app. right. now left.
  - exists []. split; auto. constructor. intros (a & w & b & ->). apply strchr_none in E. apply E.
    apply in_or_app. right. now left.
Qed.
Lemma angled_exact : forall s, exists ws, angled_terms (Some s) = Ok ws /\ angled s ws.
Proof. intros. apply angled_loop_ok. lia. Qed.

Lemma split_unique : forall (c : N) a a' b b', ~ In c a -> ~ In c a' -> a ++ c :: b = a' ++ c :: b' -> a = a' /\ b = b'.
Proof.
  intros c a. induction a as [|x a IH]; intros [|y a'] b b' N N' E; cbn in E.
  - now injection E.
  - injection E as <- _. destruct N'. now left.
  - injection E as -> _. destruct N. now left.
  - injection E as <- E. destruct (IH a' b b') as [-> ->]; auto; intros I; [apply N|apply N']; now right.
Qed.
Lemma angled_det : forall s ws ws', angled s ws -> angled s ws' -> ws = ws'.
Proof.
  intros s ws ws' H. revert ws'. induction H as [s N|a w b ws NA NW H IH]; intros ws' H'.
  - inversion H'; subst; auto. destruct N. eauto.
  - inversion H' as [s N|a' w' b' ws2 NA' NW' H2]; subst; [destruct N; eauto|].
    apply split_unique in H0; auto. destruct H0 as [-> E]. apply split_unique in E; auto. destruct E as [-> ->].
    now rewrite (IH ws2).
Qed.

(* --- what a text shows before its first NUL --- *)
Lemma visible_cstr : forall s t, visible s t <-> t = cstr s.
Proof.
  intros s t. split.
  - revert t. induction s as [|c s IH]; intros t [N H]; cbn [cstr].
    + destruct H as [<-|[u H]]; auto. destruct t; discriminate.
    + destruct (N.eqb_spec c 0) as [->|NE].
      * destruct H as [<-|[u H]]; [destruct N; now left|]. destruct t as [|x t]; auto. injection H as <- _. destruct N. now left.
      * destruct t as [|x t].
        -- destruct H as [H|[u H]]; [discriminate|]. injection H as -> _. congruence.
        -- assert (c = x /\ visible s t) as [-> V].
           { unfold visible. destruct H as [H|[u H]]; injection H as -> ->; split; auto; (split; [intros I; apply N; now right|]); eauto. }
           f_equal. now apply IH.
  - intros ->. unfold visible. induction s as [|c s [N H]]; cbn [cstr]; [split; auto|].
    destruct (N.eqb_spec c 0) as [->|NE]; [split; auto; right; now exists s|].
    split; [intros [|]; auto|]. destruct H as [H|[u H]]; [left; now rewrite <- H|right; exists u; now rewrite H at 1].
Qed.

(* --- messages --- *)
Definition rfc822_nested (P : rfc822 -> Prop)
  (H : forall h atts, (forall fn m, In (fn, B_message (Some m)) atts -> P m) -> P (Rfc822 h atts)) : forall m, P m.
Proof.
  fix F 1. intros [h atts]. apply H. induction atts as [|[fn b] atts IH]; intros fn' m I; [destruct I|].
  destruct I as [E|I]; [|exact (IH fn' m I)]. destruct b as [| |o|]; try discriminate.
  destruct o as [m'|]; [|discriminate]. injection E as _ <-. apply F.
Defined.

Lemma in_order_ok : forall A (l : list (list A)), in_order (map Ok l) = Ok (concat l).
Proof. intros A l. induction l as [|a l IH]; [reflexivity|]. cbn [map in_order concat bind]. now rewrite IH. Qed.

Section Message.
Variable alnum : N -> bool.
Hypothesis lt_bad : alnum (ch "<") = false.
Hypothesis gt_bad : alnum (ch ">") = false.
Notation ws1 := (words (fun c => char_valid_p alnum c 1)).
Notation ws2 := (words (fun c => char_valid_p alnum c 2)).

Definition adr (d : dest) (h : option bytes) : list (dest * bytes) :=
  match h with None => [] | Some t => map (pair d) (ws1 t) ++ map (pair d) (ws2 t) end.
Definition sub (h : option bytes) : list (dest * bytes) :=
  match h with None => [] | Some t => map (pair D_subject) (ws1 t) end.
Definition ang (own : bool) (h : option bytes) : list (dest * bytes) :=
  match angled_terms h with Ok ws => map (pair (D_ids own)) ws | Err _ => [] end.
Definition name_ev (fn : option bytes) : list (dest * bytes) := match fn with None => [] | Some n => [(D_att, n)] end.
Fixpoint ev (m : rfc822) : list (dest * bytes) :=
  match m with
  | Rfc822 h atts =>
      concat ([adr D_to (h_to h); adr D_cc (h_cc h); adr D_from (h_from h); sub (h_subject h)]
      ++ map (fun a : option bytes * body => let (fn, b) := a in
           concat [match b with
                   | B_plain s => map (pair D_body) (ws1 (cstr s))
                   | B_html s => map (pair D_body) (ws1 (blank_tags false (cstr s)))
                   | B_message (Some m) => ev m
                   | B_message None => []
                   | B_other _ => []
                   end; name_ev fn]) atts
      ++ [ang true (h_message_id h); ang false (h_in_reply_to h); ang false (h_references h)])
  end.

Lemma adr_ok : forall d h, address_tokens alnum d h = Ok (adr d h).
Proof. intros d [t|]; [|reflexivity]. cbn [address_tokens]. rewrite !tokenise_words. unfold label. cbn [bind in_order adr]. now rewrite app_nil_r. Qed.
Lemma ang_ok : forall own h, label (D_ids own) (angled_terms h) = Ok (ang own h).
Proof.
  intros own [t|]; [|reflexivity]. unfold ang. destruct (angled_exact t) as (ws & -> & _). reflexivity.
Qed.
Lemma ev_ok : forall m, tokenise_message alnum m = Ok (ev m).
Proof.
  induction m as [h atts IH] using rfc822_nested. cbn [tokenise_message ev]. rewrite <- in_order_ok. f_equal.
  rewrite !map_app. f_equal; [|f_equal].
  - cbn [map]. rewrite !adr_ok. f_equal. f_equal. f_equal. f_equal. destruct (h_subject h); [|reflexivity]. cbn [label sub].
    rewrite tokenise_words. reflexivity.
  - rewrite map_map. apply map_ext_in. intros [fn b] I. rewrite <- in_order_ok. f_equal. cbn [map]. f_equal.
    + destruct b as [s|s|[m|]|s]; try reflexivity.
      * rewrite tokenise_words. reflexivity.
      * rewrite html_words by auto. reflexivity.
      * apply (IH fn m I).
    + destruct fn; reflexivity.
  - cbn [map]. now rewrite !ang_ok.
Qed.

Lemma in_pair : forall (d d' : dest) (w : bytes) ws, In (d, w) (map (pair d') ws) <-> d' = d /\ In w ws.
Proof.
  intros. rewrite in_map_iff. split.
  - intros (x & E & I). now injection E as -> ->.
  - intros [-> I]. now exists w.
Qed.
Lemma in_ws1 : forall t w, In w (ws1 t) <-> is_run (word_char alnum) t w.
Proof.
  intros t w. apply runs_in. eapply runs_ext; [|apply words_runs]. intros c. apply valid_word.
Qed.
Lemma in_ws2 : forall t w, In w (ws2 t) <-> is_run (address_char alnum) t w.
Proof.
  intros t w. apply runs_in. eapply runs_ext; [|apply words_runs]. intros c. apply valid_address.
Qed.
Lemma in_adr : forall d d' h w, In (d, w) (adr d' h) <-> d' = d /\ exists t, h = Some t
  /\ (is_run (word_char alnum) t w \/ is_run (address_char alnum) t w).
Proof.
  intros d d' [t|] w; cbn [adr].
  - rewrite in_app_iff, !in_pair, in_ws1, in_ws2. split.
    + intros [[? ?]|[? ?]]; split; eauto.
    + intros [? (t' & E & H)]. injection E as <-. intuition.
  - split; [intros []|intros [_ (t & E & _)]; discriminate].
Qed.
Lemma in_sub : forall d h w, In (d, w) (sub h) <-> D_subject = d /\ exists t, h = Some t /\ is_run (word_char alnum) t w.
Proof.
  intros d [t|] w; cbn [sub].
  - rewrite in_pair, in_ws1. split; intros [? H]; split; eauto. destruct H as (t' & E & H). now injection E as <-.
  - split; [intros []|intros [_ (t & E & _)]; discriminate].
Qed.
Lemma in_ang : forall d own h w, In (d, w) (ang own h) <-> D_ids own = d /\ exists t ws, h = Some t /\ angled t ws /\ In w ws.
Proof.
  intros d own [t|] w; unfold ang.
  - destruct (angled_exact t) as (ws & -> & A). rewrite in_pair. split; intros [? H]; split; eauto.
    destruct H as (t' & ws' & E & A' & I). injection E as <-. now rewrite (angled_det _ _ _ A A').
  - split; [intros []|intros [_ (t & ws & E & _)]; discriminate].
Qed.
Lemma in_name : forall d fn w, In (d, w) (name_ev fn) <-> D_att = d /\ fn = Some w.
Proof.
  intros d [n|] w; cbn [name_ev In].
  - split; [intros [E|[]]; now injection E as <- <-|intros [<- E]; injection E as <-; now left].
  - split; [intros []|intros [_ E]; discriminate].
Qed.

Definition says (m : rfc822) (d : dest) (w : bytes) : Prop :=
  (exists p, d = dest_of p /\ mentions alnum m p w) \/ (exists own, d = D_ids own /\ carries m own w).
Lemma ev_says : forall m d w, In (d, w) (ev m) <-> says m d w.
Proof.
  induction m as [h atts IH] using rfc822_nested. intros d w. cbn [ev]. rewrite !concat_app, !in_app_iff.
  cbn [concat]. rewrite !in_app_iff, !in_adr, in_sub, !in_ang. rewrite <- flat_map_concat_map, in_flat_map. split.
  - intros [[[<- (t & E & H)]|[[<- (t & E & H)]|[[<- (t & E & H)]|[[<- (t & E & H)]|[]]]]]|[([fn b] & I & J)|[[<- (t & ws & E & A & H)]|[[<- (t & ws & E & A & H)]|[[<- (t & ws & E & A & H)]|[]]]]]].
    + left. exists To. split; auto. apply Me_address with (t := t); auto. left. auto.
    + left. exists Cc. split; auto. apply Me_address with (t := t); auto. right. left. auto.
    + left. exists From_. split; auto. apply Me_address with (t := t); auto. right. right. auto.
    + left. exists Subject. split; auto. now apply Me_subject with (t := t).
    + cbn [concat] in J. rewrite !in_app_iff in J. destruct J as [J|[J|[]]].
      * destruct b as [s|s|[m|]|s]; try destruct J.
        -- apply in_pair in J. destruct J as [<- J]. apply in_ws1 in J. left. exists Body. split; auto.
           apply Me_text with (fn := fn) (s := s) (t := cstr s); auto. now apply visible_cstr.
        -- apply in_pair in J. destruct J as [<- J]. apply in_ws1 in J. left. exists Body. split; auto.
           apply Me_html with (fn := fn) (s := s) (t := cstr s); auto. now apply visible_cstr.
        -- apply (IH fn m I) in J. destruct J as [(p & -> & J)|(own & -> & J)].
           ++ left. exists p. split; auto. eapply Me_nested; eauto.
           ++ right. exists own. split; auto. eapply Ca_nested; eauto.
      * apply in_name in J. destruct J as [<- ->]. left. exists Attachment. split; auto. eapply Me_name; eauto.
    + right. exists true. split; auto. eapply Ca_own; eauto.
    + right. exists false. split; auto. eapply Ca_reply; eauto.
    + right. exists false. split; auto. eapply Ca_reply; eauto.
  - intros [(p & -> & H)|(own & -> & H)].
    + inversion H as [h' atts' p' t w' A R|h' atts' t w' A R|h' atts' fn s t w' I V R|h' atts' fn s t w' I V R|h' atts' fn b I|h' atts' fn m p' w' I M]; subst; cbn [dest_of].
      * left. destruct A as [[-> A]|[[-> A]|[-> A]]]; cbn [dest_of]; [left|right; left|right; right; left]; split; eauto.
      * left. right. right. right. left. eauto.
      * right. left. exists (fn, B_plain s). split; auto. cbn [concat]. apply in_app_iff. left. apply in_pair. split; auto.
        apply in_ws1. apply visible_cstr in V. now subst.
      * right. left. exists (fn, B_html s). split; auto. cbn [concat]. apply in_app_iff. left. apply in_pair. split; auto.
        apply in_ws1. apply visible_cstr in V. now subst.
      * right. left. exists (Some w, b). split; auto. cbn [concat]. apply in_app_iff. right. apply in_app_iff. left. now apply in_name.
      * right. left. exists (fn, B_message (Some m)). split; auto. cbn [concat]. apply in_app_iff. left. apply (IH fn m I). left. eauto.
    + inversion H as [h' atts' t ws w' A R|h' atts' t ws w' [A|A] R|h' atts' fn m o w' I M]; subst.
      * right. right. left. eauto 6.
      * right. right. right. left. eauto 6.
      * right. right. right. right. left. eauto 6.
      * right. left. exists (fn, B_message (Some m)). split; auto. cbn [concat]. apply in_app_iff. left. apply (IH fn m I). right. eauto.
Qed.

Lemma message_exact : forall m, exists evs, tokenise_message alnum m = Ok evs
  /\ (forall p w, In (dest_of p, w) evs <-> mentions alnum m p w)
  /\ (forall own w, In (D_ids own, w) evs <-> carries m own w).
Proof.
  intros m. exists (ev m). split; [apply ev_ok|]. split.
  - intros p w. rewrite ev_says. split; [|left; eauto]. intros [(q & E & H)|(own & E & _)].
    + assert (p = q) as -> by (destruct p, q; auto; discriminate). exact H.
    + destruct p; discriminate.
  - intros own w. rewrite ev_says. split; [|right; eauto]. intros [(q & E & _)|(o & E & H)]; [destruct q; discriminate|].
    now injection E as <-.
Qed.
End Message.
Lemma angled_unique : forall s, exists ws, angled_terms (Some s) = Ok ws /\ angled s ws /\ forall ws', angled s ws' -> ws' = ws.
Proof. intros s. destruct (angled_exact s) as (ws & E & A). exists ws. repeat split; auto. intros ws' A'. exact (angled_det _ _ _ A' A). Qed.
