(* The mailboxes after a run, and the invariants. *)
From Coq Require Import Permutation Sorted.
From Verif Require Import Base M_Encoding M_TokTable S_TokTable M_DbFile S_DbFile M_Search S_Search M_Thread S_Thread M_Purge S_Purge M_Tokens S_Tokens M_Mbox S_Mbox M_Update S_Update
  L_Thread L_DbFile5 L_Purge L_Thread2 L_Update L_Update2 L_Update3 L_Update4 L_Update5 L_Update6 L_Update7.
From Verif Require M_Paths.
Local Open Scope N_scope.

Lemma intact_current csum mb e va : find_number_intact csum (with_current mb e) va = find_number_intact csum mb va.
Proof.
  unfold find_number_intact. change (mb_n (with_current mb e)) with (mb_n mb).
  change (message_is_intact csum (with_current mb e)) with (message_is_intact csum mb).
  assert (C : forall f l h, chop csum f (with_current mb e) va l h = chop csum f mb va l h).
  { induction f as [|f IH]; intros l h; [reflexivity|]. cbn [chop]. change (message_is_intact csum (with_current mb e)) with (message_is_intact csum mb).
    destruct (l <? h); [|reflexivity]. destruct ((h + l) / 2 =? l); [reflexivity|]. destruct (message_is_intact csum mb ((h + l) / 2) va) as [[]|]; cbn [bind]; auto. }
  now rewrite C.
Qed.

Inductive looked (W : world) (p : bytes) (mb : mbox) (mt sz : N) (mb2 : mbox) (s : scan) : Prop :=
| Lk_same : f_mtime mb = mt -> f_size mb = sz -> mb_n mb2 = mb_n mb -> starts mb2 = starts mb -> lens mb2 = lens mb -> checks mb2 = checks mb ->
    old_valid s = mb_n mb -> new_msgs s = [] -> looked W p mb mt sz mb2 s
| Lk_empty : ~ (f_mtime mb = mt /\ f_size mb = sz) -> w_map W p = Map_empty -> mb_n mb2 = 0 -> old_valid s = 0 -> new_msgs s = [] -> looked W p mb mt sz mb2 s
| Lk_scan va : ~ (f_mtime mb = mt /\ f_size mb = sz) -> w_map W p = Mapped va -> mb_n mb2 = mb_n mb -> starts mb2 = starts mb -> lens mb2 = lens mb -> checks mb2 = checks mb ->
    find_number_intact (w_csum W) mb va = Ok (old_valid s) -> build_new_message_list (w_from_ok W) (last_kept mb (old_valid s)) va = Ok (new_msgs s) -> looked W p mb mt sz mb2 s.
Definition seen_as (W : world) (p : bytes) (mb mb2 : mbox) (s : scan) : Prop :=
  exists link, w_lstat W p = Some (link, c_mtime mb2, c_size mb2) /\ looked W p mb (c_mtime mb2) (c_size mb2) mb2 s.
(* What has become of a mailbox of the index. *)
Record aged (W : world) (mb mb2 : mbox) (s : scan) : Prop := {
  ag_scan : scan_ok W mb2 s;
  ag_none : mb_path mb2 = None -> old_valid s = 0;
  ag_path : forall p, mb_path mb2 = Some p -> mb_path mb = Some p;
  ag_word : word (c_mtime mb2) /\ word (c_size mb2);
  ag_le : old_valid s <= mb_n mb;
  ag_same : 0 < old_valid s -> starts mb2 = starts mb /\ lens mb2 = lens mb /\ checks mb2 = checks mb;
  ag_gap : new_msgs s = [] -> old_valid s < mb_n mb2 -> shrunk W mb;
  ag_now : forall p, mb_path mb2 = Some p -> seen_as W p mb mb2 s }.
Record born (W : world) (paths : list bytes) (mb2 : mbox) (s : scan) : Prop := {
  bo_scan : scan_ok W mb2 s;
  bo_path : forall p, mb_path mb2 = Some p -> In p paths;
  bo_word : word (c_mtime mb2) /\ word (c_size mb2);
  bo_zero : old_valid s = 0 /\ mb_n mb2 = 0;
  bo_now : forall p, mb_path mb2 = Some p -> seen_as W p (blank p) mb2 s }.

Lemma aged_ok W ex mb mb1 mb2 s : (forall e, In e ex -> word (e_mtime e) /\ word (e_size e)) -> (forall e, In e ex -> exists link, w_lstat W (e_path e) = Some (link, e_mtime e, e_size e)) -> mbox_storable mb ->
  married ex mb mb1 -> refreshed W mb1 mb2 s -> scan_ok W mb2 s -> (mb_path mb2 = None -> old_valid s = 0) -> aged W mb mb2 s.
Proof.
  intros HE HL (P1 & P2 & P3 & _) HM HR SO NO. destruct HM as [(e & I & EP & ->)|(NI & ->)].
  - constructor; auto.
    + intros p. inversion HR; subst; cbn; auto. discriminate.
    + destruct (HE e I). inversion HR; subst; cbn; auto.
    + inversion HR; subst; cbn in *; try lia. exact (so_le _ _ _ SO).
    + inversion HR; subst; cbn; auto; lia.
    + inversion HR as [| |p va k ms Q1 Q2 Q3 Q4 Q5| |]; subst; cbn [old_valid new_msgs with_n with_current deaden_mbox mb_n]; intros G1 G2; try lia; [cbn in *; congruence|]. subst ms. exists p, va, k. rewrite intact_current in Q4. auto.
    + intros p EP2. destruct (HL e I) as (link & EL).
      assert (EPP : p = e_path e) by (inversion HR; subst; cbn in *; congruence). subst p. exists link.
      assert (CC : c_mtime mb2 = e_mtime e /\ c_size mb2 = e_size e) by (inversion HR; subst; cbn; auto). destruct CC as [-> ->]. split; [exact EL|].
      inversion HR as [|p Q0 Q1 Q2|p va k ms Q1 Q2 Q3 Q4 Q5|p Q1 Q2 Q3|]; subst; cbn in *; try congruence.
      * apply Lk_same; auto.
      * assert (p = e_path e) by congruence. subst p. rewrite intact_current in Q4. apply (Lk_scan W _ _ _ _ _ _ va); auto. intros [X Y]. apply Q2. auto.
      * assert (p = e_path e) by congruence. subst p. apply Lk_empty; auto. intros [X Y]. apply Q2. auto.
  - inversion HR; subst; try discriminate. constructor; auto; cbn in *; try lia; try discriminate.
Qed.
Lemma born_ok W ex paths e mb2 s : In e ex -> (forall e, In e ex -> word (e_mtime e) /\ word (e_size e) /\ In (e_path e) paths) ->
  (forall e, In e ex -> exists link, w_lstat W (e_path e) = Some (link, e_mtime e, e_size e)) -> refreshed W (new_mbox e) mb2 s -> scan_ok W mb2 s -> born W paths mb2 s.
Proof.
  intros I HE HL HR SO. destruct (HE e I) as (A & B & C). constructor; auto.
  - intros p. inversion HR; subst; cbn; try discriminate; intros X; injection X as <-; exact C.
  - inversion HR; subst; cbn; auto.
  - inversion HR as [| |p va k ms Q1 Q2 Q3 Q4 Q5| |]; subst; cbn; auto. cbn in Q4. injection Q4 as <-. auto.
  - intros p EP2. destruct (HL e I) as (link & EL).
    assert (EPP : p = e_path e) by (inversion HR; subst; cbn in *; congruence). subst p. exists link.
    assert (CC : c_mtime mb2 = e_mtime e /\ c_size mb2 = e_size e) by (inversion HR; subst; cbn; auto). destruct CC as [-> ->]. split; [exact EL|].
    inversion HR as [|p Q0 Q1 Q2|p va k ms Q1 Q2 Q3 Q4 Q5|p Q1 Q2 Q3|]; subst; cbn in *; try congruence.
    + apply Lk_same; auto.
    + assert (p = e_path e) by congruence. subst p. apply (Lk_scan W _ _ _ _ _ _ va); auto. intros [X Y]. apply Q2. auto.
    + assert (p = e_path e) by congruence. subst p. apply Lk_empty; auto. intros [X Y]. apply Q2. auto.
Qed.

Lemma run_of_none b ms : (forall m fi mi, In m ms -> src m = S_mbox fi mi -> fi <> b) -> run_of b ms = [].
Proof.
  unfold run_of. induction ms as [|m ms IH]; intros H; [reflexivity|]. cbn [flat_map]. rewrite IH by (intros; eapply H; [right|]; eauto).
  destruct (src m) as [| | |fi mi] eqn:E; try reflexivity. destruct (N.eqb_spec fi b); [|reflexivity]. exfalso. eapply (H m fi mi); [now left|exact E|assumption].
Qed.
Lemma run_of_part W n fi mb s mb' part : box_post W n fi mb s mb' part -> run_of fi part = map N.of_nat (seq (N.to_nat (old_valid s)) (length part)).
Proof.
  intros B. assert (H : forall k m, nth_error part k = Some m -> src m = S_mbox fi (old_valid s + N.of_nat k)).
  { intros k m E. destruct (bp_part _ _ _ _ _ _ _ B k m E) as (p & va & _ & _ & st & ln & _ & _ & ->). apply entry_src. }
  clear B. revert H. generalize (old_valid s). induction part as [|m part IH]; intros v H; [reflexivity|].
  cbn [length seq map]. unfold run_of. cbn [flat_map]. rewrite (H O m eq_refl), N.eqb_refl. cbn [app]. f_equal; [lia|].
  fold (run_of fi part). rewrite (IH (v + 1)).
  - f_equal. f_equal. lia.
  - intros k m' E. rewrite (H (S k) m' E). f_equal. lia.
Qed.
Lemma part_other W n fi mb s mb' part b : box_post W n fi mb s mb' part -> b <> fi -> run_of b part = [].
Proof.
  intros B NE. apply run_of_none. intros m f mi I E. apply In_nth_error in I as (k & K). destruct (bp_part _ _ _ _ _ _ _ B k m K) as (p & va & _ & _ & st & ln & _ & _ & EM).
  rewrite EM, entry_src in E. injection E as <- _. congruence.
Qed.
Lemma adds_nth W n0 fi boxes mbs more : adds W n0 fi boxes mbs more -> length mbs = length boxes /\
  (forall b, b < fi \/ fi + N.of_nat (length boxes) <= b -> run_of b more = []) /\
  forall t mb s, nth_error boxes t = Some (mb, s) -> exists mb' part n1, nth_error mbs t = Some mb' /\ box_post W n1 (fi + N.of_nat t) mb s mb' part /\
    run_of (fi + N.of_nat t) more = map N.of_nat (seq (N.to_nat (old_valid s)) (length part)).
Proof.
  induction 1 as [|n0 fi mb s bs mb' mbs part more B A (IH1 & IH2 & IH3)].
  - split; [reflexivity|]. split; [reflexivity|]. intros [|t] mb s H; discriminate.
  - cbn [length]. split; [congruence|]. split.
    + intros b H. rewrite run_of_app. rewrite (part_other _ _ _ _ _ _ _ b B) by lia. rewrite IH2 by lia. reflexivity.
    + intros [|t] mb0 s0 H; cbn in H.
      * injection H as <- <-. exists mb', part, n0. replace (fi + N.of_nat 0) with fi by lia. split; [reflexivity|]. split; [exact B|].
        rewrite run_of_app, (run_of_part _ _ _ _ _ _ _ B), IH2 by lia. apply app_nil_r.
      * destruct (IH3 t mb0 s0 H) as (mb1 & part1 & n1 & E & B1 & R). exists mb1, part1, n1. replace (fi + N.of_nat (S t)) with (fi + 1 + N.of_nat t) by lia.
        split; [exact E|]. split; [exact B1|]. rewrite run_of_app, (part_other _ _ _ _ _ _ _ (fi + 1 + N.of_nat t) B) by lia. exact R.
Qed.
Lemma adds_entry W n0 fi boxes mbs more : adds W n0 fi boxes mbs more -> forall m, In m more -> exists n1 t mb s mb' part mi st ln p va,
  nth_error boxes t = Some (mb, s) /\ nth_error mbs t = Some mb' /\ box_post W n1 (fi + N.of_nat t) mb s mb' part /\ In m part /\ src m = S_mbox (fi + N.of_nat t) mi /\
  old_valid s <= mi < mb_n mb' /\ at_place mb' mi st ln /\ mb_path mb' = Some p /\ w_map W p = Mapped va /\ st + ln <= N.of_nat (length va) /\
  exists n2, m = entry_of W n2 (fi + N.of_nat t) mi (fst (w_parse W (text_at va st ln))).
Proof.
  induction 1 as [|n0 fi mb s bs mb' mbs part more B A IH]; intros m I; [contradiction|]. apply in_app_iff in I as [I|I].
  - assert (I' := I). apply In_nth_error in I as (k & K). destruct (bp_part _ _ _ _ _ _ _ B k m K) as (p & va & Q1 & Q2 & st & ln & Q3 & Q4 & Q5).
    exists n0, O, mb, s, mb', part, (old_valid s + N.of_nat k), st, ln, p, va. replace (fi + N.of_nat 0) with fi by lia.
    split; [reflexivity|]. split; [reflexivity|]. split; [exact B|]. split; [exact I'|]. split; [rewrite Q5; apply entry_src|]. split.
    { assert (k < length part)%nat by (apply nth_error_Some; congruence). rewrite (bp_n _ _ _ _ _ _ _ B). destruct (new_msgs s) eqn:EN; [|lia].
      destruct (bp_same _ _ _ _ _ _ _ B EN) as [_ ->]. destruct k; discriminate. }
    split; [exact Q3|]. split; [exact Q1|]. split; [exact Q2|]. split; [exact Q4|]. eexists. exact Q5.
  - destruct (IH m I) as (n1 & t & mb1 & s1 & mb2 & part1 & mi & st & ln & p & va & Q1 & Q2 & Q3 & Q4 & Q5 & Q6 & Q7 & Q8 & Q9 & Q10 & n2 & Q11).
    exists n1, (S t), mb1, s1, mb2, part1, mi, st, ln, p, va. replace (fi + N.of_nat (S t)) with (fi + 1 + N.of_nat t) by lia.
    split; [exact Q1|]. split; [exact Q2|]. split; [exact Q3|]. split; [exact Q4|]. split; [exact Q5|]. split; [exact Q6|]. split; [exact Q7|]. split; [exact Q8|]. split; [exact Q9|]. split; [exact Q10|]. eauto.
Qed.

Lemma filter_seq k v : filter (fun x => x <? v) (map N.of_nat (seq 0 k)) = map N.of_nat (seq 0 (Nat.min k (N.to_nat v))).
Proof.
  induction k as [|k IH]; [reflexivity|]. rewrite seq_S, map_app, filter_app, IH. cbn [plus map filter]. destruct (N.ltb_spec (N.of_nat k) v).
  - replace (Nat.min (S k) (N.to_nat v)) with (S k) by lia. replace (Nat.min k (N.to_nat v)) with k by lia. rewrite seq_S, map_app. reflexivity.
  - rewrite app_nil_r. f_equal. f_equal. lia.
Qed.
Lemma run_of_weeded W fast sp boxes b mb s ms old : Forall2 (weeded W fast sp boxes) ms old -> nth_error boxes (N.to_nat b) = Some (mb, s) -> (mb_path mb = None -> old_valid s = 0) ->
  run_of b old = filter (fun x => x <? old_valid s) (run_of b ms).
Proof.
  intros F E NO. induction F as [|m m' ms old H F IH]; [reflexivity|]. unfold run_of in *. cbn [flat_map]. rewrite filter_app, <- IH. f_equal. clear IH F.
  destruct H as [[K ->]|[K ->]].
  - unfold kept in K. destruct (src m) as [| | |fi mi]; try reflexivity. destruct (N.eqb_spec fi b) as [->|]; [|reflexivity]. destruct K as (mb1 & s1 & E1 & _ & L). rewrite E in E1. injection E1 as <- <-.
    cbn [filter]. destruct (N.ltb_spec mi (old_valid s)); [reflexivity|lia].
  - cbn [with_src src]. unfold kept in K. destruct (src m) as [| | |fi mi]; try reflexivity. destruct (N.eqb_spec fi b) as [->|]; [|reflexivity]. cbn [filter].
    destruct (N.ltb_spec mi (old_valid s)); [|reflexivity]. exfalso. apply K. exists mb, s. split; [exact E|]. split; [|assumption]. intros X. rewrite (NO X) in *. lia.
Qed.
