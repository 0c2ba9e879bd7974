(* Matching the index against the messages found. *)
From Coq Require Import Permutation Sorted.
From Verif Require Import Base M_Encoding M_TokTable S_TokTable M_DbFile S_DbFile M_Search S_Search M_Thread M_Purge M_Tokens S_Tokens M_Update S_Update L_Thread L_Update L_Update3.
From Verif Require M_Paths.
Local Open Scope N_scope.

Lemma found_eta (x y : found) : is_imap x = is_imap y -> fpath x = fpath y -> x = y.
Proof. destruct x, y. cbn. congruence. Qed.
Lemma agrees_fun W fast m x y : agrees W fast m x -> agrees W fast m y -> x = y.
Proof. unfold agrees. destruct (src m); try contradiction; intros A B; apply found_eta; intuition congruence. Qed.
Lemma sorted_nodup sp : StronglySorted before sp -> NoDup sp.
Proof.
  induction 1 as [|a l H IH F]; constructor; [|exact IH]. intros I. rewrite Forall_forall in F. exact (before_irrefl _ (F a I)).
Qed.

Lemma find_on_disc_ok W fast sp m : StronglySorted before sp -> exists o, find_on_disc W fast sp m = Ok o /\
  match o with Some k => exists x, nth_error sp k = Some x /\ agrees W fast m x | None => forall x, In x sp -> ~ agrees W fast m x end.
Proof.
  intros S. unfold find_on_disc, agrees. destruct (src m) as [|p mt sz|p|fi mi].
  - exists None. split; [reflexivity|]. auto.
  - destruct (lookup_exact sp {| is_imap := false; fpath := p |} S) as (o & E & P). rewrite E. cbn [bind]. destruct o as [k|].
    + destruct fast eqn:EF.
      * exists (Some k). split; [reflexivity|]. eexists. split; [exact P|]. cbn. auto.
      * rewrite P. cbn [fetch bind]. unfold do_stat. cbn [is_imap fpath].
        assert (NO : (forall s, w_stat W p <> Some (M_Paths.K_reg, mt, s)) -> exists o, Ok None = Ok o /\
           match o with Some k0 => exists x, nth_error sp k0 = Some x /\ is_imap x = false /\ fpath x = p /\ (false = true \/ exists s, w_stat W p = Some (M_Paths.K_reg, mt, s))
           | None => forall x, In x sp -> ~ (is_imap x = false /\ fpath x = p /\ (false = true \/ exists s, w_stat W p = Some (M_Paths.K_reg, mt, s))) end).
        { intros H. exists None. split; [reflexivity|]. intros x _ (_ & _ & [X|[s X]]); [discriminate|]. exact (H s X). }
        destruct (w_stat W p) as [[[[ | | ] mt'] s]|] eqn:EW; try (apply NO; intros; discriminate).
        destruct (mt' =? mt) eqn:EM.
        -- apply N.eqb_eq in EM. subst. exists (Some k). split; [reflexivity|]. eexists. split; [exact P|]. cbn. eauto.
        -- apply NO. intros s' X. injection X as -> ->. rewrite N.eqb_refl in EM. discriminate.
    + exists None. split; [reflexivity|]. intros x I (A & B & _). apply P. assert (x = {| is_imap := false; fpath := p |}) as <- by (apply found_eta; auto). exact I.
  - destruct (lookup_exact sp {| is_imap := true; fpath := p |} S) as (o & E & P). exists o. split; [exact E|]. destruct o as [k|].
    + eexists. split; [exact P|]. auto.
    + intros x I (A & B). apply P. assert (x = {| is_imap := true; fpath := p |}) as <- by (apply found_eta; auto). exact I.
  - exists None. split; [reflexivity|]. auto.
Qed.

Definition here W fast sp m : Prop := exists x, In x sp /\ agrees W fast m x.
Lemma mark_present_ok W fast sp : StronglySorted before sp -> forall ms in_db, length in_db = length sp ->
  exists in_db' in_new, mark_present W fast sp ms in_db = Ok (in_db', in_new) /\ length in_db' = length sp /\
    Forall2 (fun m b => b = true <-> here W fast sp m) ms in_new /\
    (forall k x, nth_error sp k = Some x -> nth_error in_db' k = Some true <-> nth_error in_db k = Some true \/ exists m, In m ms /\ agrees W fast m x).
Proof.
  intros S. induction ms as [|m ms IH]; intros in_db L; cbn [mark_present].
  - exists in_db, []. split; [reflexivity|]. split; [exact L|]. split; [constructor|]. intros k x _. split; [now left|]. intros [H|(m & [] & _)]. exact H.
  - destruct (find_on_disc_ok W fast sp m S) as (o & E & P). rewrite E. cbn [bind].
    set (db1 := match o with Some k => set_nth in_db k true | None => in_db end).
    assert (L1 : length db1 = length sp) by (unfold db1; destruct o; [rewrite length_set|]; exact L).
    destruct (IH db1 L1) as (d & n & E' & L' & F & K). rewrite E'. cbn [bind]. exists d, (match o with Some _ => true | None => false end :: n).
    split; [reflexivity|]. split; [exact L'|]. split.
    + constructor; [|exact F]. destruct o as [k|].
      * destruct P as (x & P1 & P2). split; [|reflexivity]. intros _. exists x. split; [eapply nth_error_In; eauto|exact P2].
      * split; [discriminate|]. intros (x & I & A). exfalso. exact (P x I A).
    + intros k x X. rewrite (K k x X). unfold db1. destruct o as [j|].
      * destruct P as (y & P1 & P2). destruct (Nat.eq_dec j k) as [->|NE].
        -- rewrite nth_set_same by (rewrite L; apply nth_error_Some; congruence). assert (y = x) as -> by congruence.
           split; [intros _; right; exists m; split; [now left|exact P2]|now left].
        -- rewrite nth_set_other by congruence. split.
           ++ intros [H|(m' & I & A)]; [now left|right; exists m'; split; [now right|exact A]].
           ++ intros [H|(m' & [<-|I] & A)]; [now left| |right; eauto]. exfalso. apply NE.
              assert (y = x) by (eapply agrees_fun; eauto). subst y. pose proof (sorted_nodup sp S) as ND. rewrite NoDup_nth_error in ND. apply ND; [apply nth_error_Some; congruence|congruence].
      * split.
        -- intros [H|(m' & I & A)]; [now left|right; exists m'; split; [now right|exact A]].
        -- intros [H|(m' & [<-|I] & A)]; [now left| |right; eauto]. exfalso. apply (P x); [eapply nth_error_In; eauto|exact A].
Qed.

(* Does this entry stay? *)
Definition kept (W : world) (fast : bool) (sp : list found) (boxes : list (mbox * scan)) (m : msg) : Prop :=
  match src m with
  | S_file _ _ _ | S_imap _ => here W fast sp m
  | S_mbox fi mi => exists mb s, nth_error boxes (N.to_nat fi) = Some (mb, s) /\ mb_path mb <> None /\ mi < old_valid s
  | S_dead => True
  end.
Definition weeded W fast sp boxes (m m' : msg) : Prop :=
  (kept W fast sp boxes m /\ m' = m) \/ (~ kept W fast sp boxes m /\ m' = with_src m S_dead).
Lemma stays_ok W fast sp boxes m b : (b = true <-> here W fast sp m) ->
  (forall fi mi, src m = S_mbox fi mi -> nth_error boxes (N.to_nat fi) <> None) ->
  exists st, stays boxes m b = Ok st /\ (st = true <-> kept W fast sp boxes m).
Proof.
  intros H B. unfold stays, kept. destruct (src m) as [|p mt sz|p|fi mi].
  - exists true. split; [reflexivity|]. tauto.
  - exists b. split; [reflexivity|]. exact H.
  - exists b. split; [reflexivity|]. exact H.
  - specialize (B fi mi eq_refl). destruct (nth_error boxes (N.to_nat fi)) as [[mb s]|]; [|congruence].
    exists (has_path mb && (mi <? old_valid s)). split; [reflexivity|]. rewrite Bool.andb_true_iff, N.ltb_lt. unfold has_path. split.
    + intros [A L]. exists mb, s. split; [reflexivity|]. split; [|exact L]. destruct (mb_path mb); [discriminate|discriminate A].
    + intros (mb' & s' & E & A & L). injection E as <- <-. split; [|exact L]. destruct (mb_path mb); [reflexivity|congruence].
Qed.
Lemma weed_ok W fast sp boxes ms in_new : Forall2 (fun m b => b = true <-> here W fast sp m) ms in_new ->
  (forall m fi mi, In m ms -> src m = S_mbox fi mi -> nth_error boxes (N.to_nat fi) <> None) ->
  exists ms' pr, weed boxes ms in_new = Ok (ms', pr) /\ Forall2 (weeded W fast sp boxes) ms ms' /\
    (pr = true <-> exists m, In m ms /\ ~ kept W fast sp boxes m).
Proof.
  induction 1 as [|m b ms in_new H F IH]; intros B; cbn [weed].
  - exists [], false. split; [reflexivity|]. split; [constructor|]. split; [discriminate|]. intros (m & [] & _).
  - destruct (stays_ok W fast sp boxes m b H) as (st & E & S); [intros fi mi E; apply (B m fi mi); [now left|exact E]|]. rewrite E. cbn [bind].
    destruct IH as (ms' & pr & E' & F' & P); [intros m' fi mi I; apply B; now right|]. rewrite E'. cbn [bind].
    eexists. eexists. split; [reflexivity|]. split.
    + constructor; [|exact F']. destruct st; [left; split; [now apply S|reflexivity]|right]. split; [|reflexivity]. intros K. apply S in K. discriminate.
    + rewrite Bool.orb_true_iff, P. split.
      * intros [X|(m' & I & K)]; [|exists m'; split; [now right|exact K]]. exists m. split; [now left|]. intros K. apply S in K. subst st. discriminate.
      * intros (m' & [<-|I] & K); [left|right; eauto]. destruct st; [|reflexivity]. exfalso. apply K. now apply S.
Qed.

Lemma new_entries_in W sp : forall in_db m, length in_db = length sp -> In m (new_entries W sp in_db) <->
  exists k x mt sz, nth_error sp k = Some x /\ nth_error in_db k = Some false /\ do_stat W x = St_file mt sz /\ m = new_entry x mt sz.
Proof.
  induction sp as [|x sp IH]; intros [|b in_db] m L; try discriminate; cbn [new_entries].
  - split; [contradiction|]. intros (k & x & _ & _ & H & _). destruct k; discriminate.
  - injection L as L. rewrite in_app_iff, (IH in_db m L). split.
    + intros [H|(k & y & mt & sz & H)]; [|exists (S k), y, mt, sz; exact H]. destruct b; [contradiction|]. destruct (do_stat W x) as [|mt sz|] eqn:E; try contradiction.
      destruct H as [<-|[]]. exists O, x, mt, sz. auto.
    + intros ([|k] & y & mt & sz & H1 & H2 & H3 & H4); [left|right; exists k, y, mt, sz; auto].
      cbn in H1, H2. injection H1 as <-. injection H2 as ->. rewrite H3. now left.
Qed.
Lemma new_entries_found W sp in_db : length in_db = length sp -> Forall is_found (new_entries W sp in_db).
Proof.
  intros L. apply Forall_forall. intros m I. apply new_entries_in in I as (k & x & mt & sz & _ & _ & _ & ->); [|exact L].
  unfold is_found, new_entry. cbn. now destruct (is_imap x).
Qed.
Lemma new_entries_le W sp : forall in_db, (length (new_entries W sp in_db) <= length sp)%nat.
Proof.
  induction sp as [|x sp IH]; intros [|b in_db]; cbn [new_entries length]; try lia. rewrite app_length. specialize (IH in_db).
  destruct b; [cbn; lia|]. destruct (do_stat W x); cbn; lia.
Qed.
