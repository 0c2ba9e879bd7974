From Verif Require Import Base M_Imap S_Imap S_Server S_Deliver L_Mbox L_Imap L_Imap2 L_Imap3 L_Imap4 L_Imap5 L_Imap6.
From Verif Require L_Output.
Local Open Scope N_scope.

(* ---- the example server does as S_Deliver asks ---- *)
Lemma eqb_same f : bytes_eqb f f = true.
Proof. now apply bytes_eqb_iff. Qed.
Lemma find_name v f b : box_named v f = Some b -> b_name b = f.
Proof. unfold box_named. intros H. apply find_some in H. now apply bytes_eqb_iff. Qed.
Lemma upd_named f g v b : box_named v f = Some b -> box_named (upd f g v) f = Some {| b_name := f; b_validity := b_validity b; b_letters := g (b_letters b) |}.
Proof.
  intros H. pose proof (find_name _ _ _ H) as <-. unfold box_named, upd in *. cbn [p_boxes]. induction (p_boxes v) as [|c l IH]; [discriminate|]. cbn [map find] in *. destruct (bytes_eqb (b_name c) (b_name b)) eqn:E.
  - injection H as ->. cbn [with_letters b_name]. rewrite E. reflexivity.
  - rewrite E. auto.
Qed.
Lemma upd_none f g v : box_named v f = None -> upd f g v = v.
Proof.
  destruct v as [l o]. unfold box_named, upd. cbn [p_boxes p_open]. intros H. f_equal. induction l as [|c l IH]; [reflexivity|]. cbn [map find] in *. destruct (bytes_eqb (b_name c) f); [discriminate|]. f_equal. auto.
Qed.
Lemma upd_becomes f g v b : box_named v f = Some b -> becomes v (upd f g v) f (b_validity b) (g (b_letters b)).
Proof. intros H. split; [now apply upd_named|]. split; [intros h NE; now apply named_upd|reflexivity]. Qed.
Lemma order_becomes v v' f u ls : in_order v -> becomes v v' f u ls -> name_ok f -> number_ok u -> NoDup (map l_uid ls) -> Forall letter_ok ls -> in_order v'.
Proof.
  intros IO (B1 & B2 & _) NF NU ND AL g b H. destruct (list_eq_dec N.eq_dec g f) as [->|NE]; [rewrite B1 in H; injection H as <-; auto|]. rewrite (B2 g NE) in H. exact (IO g b H).
Qed.
Lemma max_above : forall (ls : list letter) m, m <= fold_left (fun m l => N.max m (number (l_uid l))) ls m /\ forall l, In l ls -> number (l_uid l) <= fold_left (fun m l => N.max m (number (l_uid l))) ls m.
Proof.
  induction ls as [|x ls IH]; intros m; cbn [fold_left]; [split; [lia|contradiction]|]. destruct (IH (N.max m (number (l_uid x)))) as [A B]. split; [lia|]. intros l [->|H]; [lia|auto].
Qed.
Lemma next_new ls : ~ In (next_uid ls) (map l_uid ls).
Proof.
  intros H. apply in_map_iff in H. destruct H as (l & E & IL). pose proof (proj2 (max_above ls 0) l IL) as L. rewrite E in L. unfold next_uid in L at 1. rewrite (proj1 (L_Output.show_int_ok _)) in L. lia.
Qed.
Lemma add_nodup fl t ls : NoDup (map l_uid ls) -> NoDup (map l_uid (add_letter fl t ls)).
Proof.
  intros H. unfold add_letter. rewrite map_app. cbn [map l_uid]. apply NoDup_rev in H. rewrite <- (rev_involutive (map l_uid ls ++ _)). apply NoDup_rev. rewrite rev_app_distr. cbn [rev app]. constructor; [|exact H]. intros I. apply in_rev in I. exact (next_new _ I).
Qed.
Lemma refused_ok : legible_from (On_line 0) refused.
Proof. cbn [legible_from refused next_place]. split; [word|]. split; [word|exact I]. Qed.
Lemma missing_ok : legible_from (On_line 0) [Atom (bs "NO"); Square [Atom (bs "TRYCREATE")]; Atom (bs "missing")].
Proof.
  cbn [legible_from next_place]. split; [word|]. split; [split; [reflexivity|]; cbv beta iota; split; [|exact I]|split; [word|exact I]]. split; [discriminate|]. repeat constructor; cbn; try (intuition discriminate); lia.
Qed.
Lemma model_carries : carries_out (fun v : post => v) model_serve.
Proof.
  intros v t tag q R SE IO. unfold model_serve. rewrite R, request_back. destruct (answer v q) as [says ends] eqn:AN.
  assert (PC : forall x : bytes, concat [firstn 7 x; skipn 7 x] = x) by (intros x; cbn [concat]; rewrite app_nil_r; apply firstn_skipn).
  assert (G : says = [] -> does v q ends (effect v q) -> in_order (effect v q) -> legible_from (On_line 0) ends ->
    exists s' pieces lines ends0 ts te, (effect v q, Some [firstn 7 (concat (map (fun l => line_text tag (Says l)) says) ++ line_text tag (Ends ends)); skipn 7 (concat (map (fun l => line_text tag (Says l)) says) ++ line_text tag (Ends ends))]) = (s', Some pieces) /\ does v q ends0 s' /\ in_order s' /\
      Forall2 (fun is0 x => line_spelt tag (Says is0) x) lines ts /\ line_spelt tag (Ends ends0) te /\ concat pieces = concat ts ++ te).
  { intros -> D O L. eexists _, _, [], ends, [], _. split; [reflexivity|]. split; [exact D|]. split; [exact O|]. split; [constructor|]. split; [apply line_ends; exact L|]. cbn [map concat app]. apply PC. }
  destruct q as [f w| |u| | |u f|f|f fl tx]; cbn [sensible answer] in *; try contradiction.
  - rewrite SE in AN. pose proof (f_equal fst AN) as A1. pose proof (f_equal snd AN) as A2. cbn [fst snd] in A1, A2. subst says ends. apply G; [reflexivity| | |apply refused_ok].
    + cbn [effect]. rewrite SE. apply do_not_open. exact SE.
    + intros g b H. exact (IO g b H).
  - destruct SE as (f & b & O & B). pose proof (f_equal fst AN) as A1. pose proof (f_equal snd AN) as A2. cbn [fst snd] in A1, A2. subst says ends. cbn [effect] in *. rewrite O in *. apply G; [reflexivity| | |apply fine_ok].
    + eapply do_delete; [exact O|exact B| |apply upd_becomes; exact B]. apply Forall_forall. intros l H. apply in_map_iff in H. destruct H as (l0 & <- & _). unfold deleted. cbn [l_flags existsb]. rewrite eqb_same. reflexivity.
    + destruct (IO f b B) as (NF & NV & ND & AL). eapply order_becomes; [exact IO|apply upd_becomes; exact B|exact NF|exact NV|rewrite map_map; exact ND|]. apply Forall_forall. intros l H. apply in_map_iff in H. destruct H as (l0 & <- & IL). rewrite Forall_forall in AL. destruct (AL l0 IL) as (L1 & L2 & L3).
      split; [exact L1|]. split; [|exact L3]. cbn [l_flags]. intros x [<-|H]; [|exact (L2 x H)]. split; [discriminate|]. assert (LE : legible In_paren (Atom (bs "\Deleted"))) by word. apply LE.
  - destruct SE as (f & b & O & B). pose proof (f_equal fst AN) as A1. pose proof (f_equal snd AN) as A2. cbn [fst snd] in A1, A2. subst says ends. cbn [effect] in *. rewrite O in *. apply G; [reflexivity| | |apply fine_ok].
    + eapply do_expunge; [exact O|exact B|]. apply (upd_becomes f (filter (fun l => negb (deleted l)))). exact B.
    + destruct (IO f b B) as (NF & NV & ND & AL). eapply order_becomes; [exact IO|apply upd_becomes; exact B|exact NF|exact NV| |].
      * clear -ND. induction (b_letters b) as [|l ls IH]; [constructor|]. cbn [map filter] in *. inversion ND as [|? ? N1 N2]; subst. destruct (negb (deleted l)); [|auto]. cbn [map]. constructor; [|auto]. intros H. apply N1. apply in_map_iff in H. destruct H as (y & <- & Y). apply filter_In in Y. apply in_map, Y.
      * apply Forall_forall. intros l H. apply filter_In in H. rewrite Forall_forall in AL. apply AL, H.
  - destruct SE as (NF & g & w & b & l & O & B & IL & E). cbn [effect] in *. rewrite O, B in *.
    assert (FD : exists l', find (fun l => bytes_eqb (l_uid l) u) (b_letters b) = Some l').
    { destruct (find _ _) eqn:F; [eauto|]. pose proof (find_none _ _ F l IL) as X. cbv beta in X. rewrite E, eqb_same in X. discriminate. }
    destruct FD as (l' & FD). rewrite FD in *. apply find_some in FD. destruct FD as [IL' E']. apply bytes_eqb_iff in E'. destruct (box_named v f) as [b'|] eqn:BF; pose proof (f_equal fst AN) as A1; pose proof (f_equal snd AN) as A2; cbn [fst snd] in A1, A2; subst says ends.
    + apply G; [reflexivity| | |apply fine_ok].
      * apply (do_copy v u f g w b l' b' {| l_uid := next_uid (b_letters b'); l_flags := l_flags l'; l_text := l_text l' |}); [exact O|exact B|exact IL'|exact E'|exact BF|split; reflexivity|]. apply (upd_becomes f (add_letter (l_flags l') (l_text l'))). exact BF.
      * destruct (IO f b' BF) as (_ & NV & ND & AL). eapply order_becomes; [exact IO|apply upd_becomes; exact BF|exact NF|exact NV|apply add_nodup; exact ND|]. unfold add_letter. apply Forall_app. split; [exact AL|]. apply Forall_cons; [|apply Forall_nil].
        destruct (IO g b B) as (_ & _ & _ & AG). rewrite Forall_forall in AG. destruct (AG l' IL') as (_ & L2 & L3). split; [apply shown_ok|]. split; [exact L2|exact L3].
    + rewrite (upd_none _ _ _ BF) in *. apply G; [reflexivity| |exact IO|apply missing_ok]. apply do_not_copy. exact BF.
  - destruct SE as (NF & BF). pose proof (f_equal fst AN) as A1. pose proof (f_equal snd AN) as A2. cbn [fst snd] in A1, A2. subst says ends. cbn [effect] in *. rewrite BF in *.
    assert (BC : becomes v {| p_boxes := p_boxes v ++ [{| b_name := f; b_validity := bs "1"; b_letters := [] |}]; p_open := p_open v |} f (bs "1") []).
    { split; [|split; [|reflexivity]].
      - clear -BF. unfold box_named in *. cbn [p_boxes]. induction (p_boxes v) as [|c l IH]; cbn [app find b_name] in *; [rewrite eqb_same; reflexivity|]. destruct (bytes_eqb (b_name c) f); [discriminate|auto].
      - intros g NE. unfold box_named. cbn [p_boxes]. clear -NE. induction (p_boxes v) as [|c l IH]; cbn [app find b_name]; [|destruct (bytes_eqb (b_name c) g); [reflexivity|exact IH]]. destruct (bytes_eqb f g) eqn:E; [apply bytes_eqb_iff in E; congruence|reflexivity]. }
    apply G; [reflexivity| | |apply fine_ok].
    + eapply do_create; [exact BF|exact BC].
    + eapply order_becomes; [exact IO|exact BC|exact NF| |constructor|constructor]. split; [discriminate|]. repeat constructor; cbn; unfold digit; lia.
  - destruct SE as (NF & BF & FL & LT). cbn [effect] in *. destruct (box_named v f) as [b|] eqn:B; [|contradiction]. pose proof (f_equal fst AN) as A1. pose proof (f_equal snd AN) as A2. cbn [fst snd] in A1, A2. subst says ends. apply G; [reflexivity| | |apply fine_ok].
    + eapply do_append; [exact B|]. apply (upd_becomes f (add_letter fl tx)). exact B.
    + destruct (IO f b B) as (_ & NV & ND & AL). eapply order_becomes; [exact IO|apply upd_becomes; exact B|exact NF|exact NV|apply add_nodup; exact ND|]. unfold add_letter. apply Forall_app. split; [exact AL|]. apply Forall_cons; [|apply Forall_nil]. split; [apply shown_ok|]. split; [exact FL|exact LT].
Qed.
