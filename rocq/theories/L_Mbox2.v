From Verif Require Import Base M_DbFile M_Mbox S_Mbox L_Mbox.
Local Open Scope N_scope.

Lemma from_S : forall va p x r, from va p = x :: r -> from va (p + 1) = r.
Proof.
  intros va p x r E. unfold from in *. replace (N.to_nat (p + 1)) with (N.to_nat p + 1)%nat by lia. now rewrite <- skipn_skipn', E.
Qed.
Lemma from_len : forall va p, N.of_nat (length (from va p)) = N.of_nat (length va) - p.
Proof. intros va p. unfold from. rewrite skipn_length. lia. Qed.
Lemma from_at : forall va p k, nth_error (from va p) k = nth_error va (N.to_nat p + k).
Proof. intros. apply nth_error_skipn'. Qed.

Section Split.
Variable from_ok : bytes -> bool.
Variable va : bytes.
Variable b : N.
Notation LEN := (N.of_nat (length va)).
Notation sep := (separator from_ok va b).
Notation nl := (next_line_at va).
Notation msg := (is_message from_ok va b).

Lemma next_line_ok : forall rest p, rest <> [] -> from va p = rest ->
  (exists q, next_line p rest = Ok (Some q) /\ nl p q) \/ (next_line p rest = Ok None /\ forall q, ~ nl p q).
Proof.
  induction rest as [|c rest IH]; intros p NE E; [congruence|]. cbn [next_line]. destruct rest as [|d rest].
  - right. split; auto. intros q (l & r & E' & NI & NR & _). rewrite E in E'. apply (f_equal (@length N)) in E'.
    rewrite app_length in E'. cbn [length] in E'. destruct r; [congruence|cbn in E'; lia].
  - destruct (N.eqb_spec c 10) as [->|NC].
    + left. eexists. split; [reflexivity|]. exists [], (d :: rest). repeat split; auto; try discriminate. cbn. lia.
    + destruct (IH (p + 1)) as [(q & E1 & l & r & E2 & NI & NR & EQ)|(E1 & NO)]; [discriminate|now apply from_S with (x := c)|left|right].
      * exists q. split; auto. exists (c :: l), r. split; [|split; [|split]]; auto.
        -- rewrite E. cbn [app]. f_equal. rewrite <- E2. symmetry. now apply from_S with (x := c).
        -- intros [|]; auto.
        -- cbn [length]. lia.
      * split; auto. intros q (l & r & E' & NI & NR & EQ). destruct l as [|x l].
        -- rewrite E in E'. injection E' as -> _. congruence.
        -- apply (NO q). exists l, r. split; [|split; [|split]]; auto.
           ++ rewrite E in E'. injection E' as <- E'. rewrite <- E'. now apply from_S with (x := c).
           ++ intros I. apply NI. now right.
           ++ cbn [length] in EQ. lia.
Qed.

Lemma sep_ge : forall p, sep p -> b <= p.
Proof. intros p [[->|[L _]] _]; lia. Qed.
Lemma sep_lt : forall p, sep p -> p < LEN.
Proof.
  intros p [_ (r & E & _)]. apply (f_equal (@length N)) in E. apply (f_equal N.of_nat) in E. rewrite from_len in E.
  rewrite app_length in E. change (length (bs "From ")) with 5%nat in E. lia.
Qed.
Lemma nl_det : forall p q q', nl p q -> nl p q' -> q = q'.
Proof.
  intros p q q' (l & r & E & NI & NR & ->) (l' & r' & E' & NI' & NR' & ->). rewrite E in E'.
  assert (length l = length l'); [|lia]. clear - E' NI NI'. revert l' E' NI'. induction l as [|x l IH]; intros [|y l'] E NI'; cbn in *.
  - reflexivity.
  - injection E as <- _. destruct NI'. now left.
  - injection E as -> _. destruct NI. now left.
  - injection E as <- E. f_equal. apply IH; auto.
Qed.
Lemma nl_gt : forall p q, nl p q -> p < q /\ q < LEN.
Proof.
  intros p q (l & r & E & NI & NR & ->). split; [lia|]. apply (f_equal (@length N)) in E. apply (f_equal N.of_nat) in E.
  rewrite from_len in E. rewrite app_length in E. cbn [length] in E. destruct r; [congruence|]. cbn [length] in E. lia.
Qed.
Lemma nl_inside : forall p q k, nl p q -> p <= k -> k + 1 < q -> nth_error va (N.to_nat k) <> Some 10.
Proof.
  intros p q k (l & r & E & NI & NR & ->) L1 L2 H. apply NI.
  assert (X : nth_error (from va p) (N.to_nat (k - p)) = Some 10) by (rewrite from_at, <- H; f_equal; lia).
  rewrite E, nth_error_app1 in X by lia. eapply nth_error_In; eauto.
Qed.
Lemma first_newline : forall (s : bytes) n, nth_error s n = Some 10 -> (n + 1 < length s)%nat ->
  exists l r, s = l ++ 10 :: r /\ ~ In 10 l /\ r <> [].
Proof.
  induction s as [|c s IH]; intros n X L; [destruct n; discriminate|].
  destruct (N.eq_dec c 10) as [->|NC].
  - exists [], s. repeat split; auto. intros ->. cbn in L. lia.
  - destruct n as [|n]; [cbn in X; congruence|]. cbn [nth_error length] in *. destruct (IH n X ltac:(lia)) as (l & r & -> & NI & NR).
    exists (c :: l), r. repeat split; auto. intros [|]; auto.
Qed.
Lemma nl_exists : forall p k, p <= k -> k + 1 < LEN -> nth_error va (N.to_nat k) = Some 10 -> exists q, nl p q.
Proof.
  intros p k L1 L2 H.
  assert (X : nth_error (from va p) (N.to_nat (k - p)) = Some 10) by (rewrite from_at, <- H; f_equal; lia).
  assert (Q := from_len va p). destruct (first_newline _ _ X) as (l & r & E & NI & NR); [lia|].
  eexists. exists l, r. repeat split; eauto.
Qed.
Lemma sep_after : forall p q p', sep p' -> p < p' -> sep p -> nl p q -> q <= p'.
Proof.
  intros p q p' S' L S N. assert (B := sep_ge p S). destruct S' as [[->|[L' E]] _]; [lia|].
  destruct (N.le_gt_cases q p') as [|G]; auto. exfalso. apply (nl_inside p q (p' - 1) N); auto; lia.
Qed.
Lemma sep_after_none : forall p p', sep p -> (forall q, ~ nl p q) -> sep p' -> p' <= p.
Proof.
  intros p p' S NO S'. destruct (N.le_gt_cases p' p) as [|G]; auto. exfalso. assert (B := sep_ge p S).
  assert (L := sep_lt p' S'). destruct S' as [[->|[L' E]] _]; [lia|].
  destruct (nl_exists p (p' - 1)) as (q & N); auto; try lia. now apply (NO q).
Qed.
Lemma nl_start : forall p q, b <= p -> nl p q -> line_start va b q.
Proof.
  intros p q B (l & r & E & NI & NR & ->). right. split; [lia|].
  replace (N.to_nat (p + N.of_nat (length l) + 1 - 1)) with (N.to_nat p + length l)%nat by lia.
  rewrite <- from_at, E. rewrite nth_error_app2, Nat.sub_diag by lia. reflexivity.
Qed.
Lemma rebase : forall q x, b <= q -> line_start va b q -> (separator from_ok va q x <-> sep x /\ q <= x).
Proof.
  intros q x B LS. split.
  - intros [[->|[L E]] R]; split; try lia; split; auto. right. split; auto. lia.
  - intros [[[->|[L E]] R] G]; split; auto.
    + left. lia.
    + destruct (N.eq_dec x q) as [->|]; [now left|]. right. split; auto. lia.
Qed.
Lemma message_det : forall m m', msg m -> msg m' -> fst m = fst m' -> m = m'.
Proof.
  intros [s l] [s' l'] (_ & A & E) (_ & A' & E') Q. cbn [fst snd] in *. subst s'. f_equal.
  destruct E as [E|E], E' as [E'|E'].
  - assert (A1 := A _ E' ltac:(lia)). assert (A2 := A' _ E ltac:(lia)). lia.
  - assert (A2 := A' _ E ltac:(lia)). apply sep_lt in E. lia.
  - assert (A2 := A _ E' ltac:(lia)). apply sep_lt in E'. lia.
  - lia.
Qed.

Definition covered (ms : list (N * N)) (x : N) : Prop := in_message ms x \/ on_separator from_ok va b x.

Lemma msg_loop_ok : forall f p, sep p -> (N.to_nat (LEN - p) < f)%nat ->
  exists ms, msg_loop f 0 start_of_next_line (find_next_from from_ok) va (Some p) = Ok ms
  /\ (forall m, In m ms <-> msg m /\ p < fst m)
  /\ in_file_order ms
  /\ (forall m, In m ms -> fst m + snd m <= LEN)
  /\ (forall x, p <= x < LEN -> covered ms x).
Proof.
  induction f as [|f IH]; intros p S F; [lia|]. cbn [msg_loop]. assert (B := sep_ge p S). assert (PL := sep_lt p S).
  unfold start_of_next_line at 1. fold (from va p).
  destruct (next_line_ok (from va p) p) as [(q & -> & N)|(-> & NO)]; auto.
  { destruct S as [_ (r & -> & _)]. discriminate. }
  - cbn [bind]. assert (NG := nl_gt p q N). assert (LS := nl_start p q B N).
    assert (Mq : forall l, (forall x, sep x -> q <= x -> q + l <= x) -> (sep (q + l) \/ q + l = LEN) -> msg (q, l)).
    { intros l H1 H2. split; [exists p; auto|]. auto. }
    assert (Old : forall m, msg m -> p < fst m -> fst m = q \/ exists p', sep p' /\ q <= p' /\ p' < fst m).
    { intros m ((p0 & S0 & N0) & _) G. assert (G0 := nl_gt _ _ N0). destruct (N.lt_trichotomy p0 p) as [C|[->|C]].
      - assert (X := sep_after p0 (fst m) p S C S0 N0). lia.
      - left. eapply nl_det; eauto.
      - right. exists p0. split; [exact S0|]. split; [now apply (sep_after p q p0)|lia]. }
    assert (Cov : forall ms x, p <= x < q -> covered ms x).
    { intros ms x Hx. right. exists p. split; [exact S|]. split; [lia|]. intros k Hk. apply (nl_inside p q k N); lia. }
    destruct (find_next_ok from_ok va q) as [(e & -> & SE & M)|(-> & NO)]; cbn [bind].
    + apply rebase in SE; auto; [|lia]. destruct SE as [SE GE].
      assert (M' : forall x, sep x -> q <= x -> e <= x) by (intros x Sx Gx; apply M; apply rebase; auto; lia).
      rewrite N.add_0_r. destruct (IH e SE) as (ms & -> & IN & ORD & LE & CV); [lia|]. cbn [bind].
      exists ((q, e - q) :: ms). split; [reflexivity|]. split; [intros m; split|split; [|split]].
      * intros [<-|H].
        -- split; [|cbn [fst]; lia].
           apply Mq; [intros x Sx Gx; specialize (M' x Sx Gx); lia|]. left. now replace (q + (e - q)) with e by lia.
        -- apply IN in H. destruct H. split; [auto|lia].
      * intros [Hm G]. destruct (Old m Hm G) as [E|(p' & S' & G1 & G2)].
        -- left. apply message_det; auto. apply Mq; [intros x Sx Gx; specialize (M' x Sx Gx); lia|].
           left. now replace (q + (e - q)) with e by lia.
        -- right. apply IN. split; auto. specialize (M' p' S' G1). lia.
      * intros i j m m' Hij H1 H2. destruct j as [|j]; [lia|]. cbn [nth_error] in H2. destruct i as [|i]; cbn [nth_error] in H1.
        -- injection H1 as <-. cbn [fst snd]. apply nth_error_In in H2. apply IN in H2. lia.
        -- apply (ORD i j); auto. lia.
      * intros m [<-|H]; [cbn [fst snd]; apply sep_lt in SE; lia|now apply LE].
      * intros x Hx. destruct (N.lt_ge_cases x q); [apply Cov; lia|]. destruct (N.lt_ge_cases x e).
        -- left. exists (q, e - q). split; [now left|]. cbn [fst snd]. lia.
        -- destruct (CV x ltac:(lia)) as [(m & I & H')|H']; [left; exists m; split; auto; now right|now right].
    + change (0 =? 0) with true. cbv iota. assert (NQ : forall x, sep x -> q <= x -> False).
      { intros x Sx Gx. apply (NO x). apply rebase; auto. lia. }
      destruct f as [|f]; [lia|]. cbn [msg_loop bind]. exists [(q, LEN - q)]. split; [reflexivity|]. split; [intros m; split|split; [|split]].
      * intros [<-|[]]. split; [|cbn [fst]; lia]. apply Mq; [intros x Sx Gx; destruct (NQ x Sx Gx)|]. right. lia.
      * intros [Hm G]. destruct (Old m Hm G) as [E|(p' & S' & G1 & G2)]; [|destruct (NQ p' S' G1)].
        left. apply message_det; auto. apply Mq; [intros x Sx Gx; destruct (NQ x Sx Gx)|]. right. lia.
      * intros i j m m' Hij H1 H2. destruct j as [|j]; [lia|]. cbn [nth_error] in H2. destruct j; discriminate.
      * intros m [<-|[]]. cbn [fst snd]. lia.
      * intros x Hx. destruct (N.lt_ge_cases x q); [apply Cov; lia|].
        left. exists (q, LEN - q). split; [now left|]. cbn [fst snd]. lia.
  - cbn [bind]. exists []. split; [reflexivity|]. split; [intros m; split|split; [|split]].
    + intros [].
    + intros [((p0 & S0 & N0) & _) G]. assert (G0 := nl_gt _ _ N0). assert (X := sep_after_none p p0 S NO S0).
      destruct (N.eq_dec p0 p) as [->|D]; [now destruct (NO _ N0)|].
      assert (Y := sep_after p0 (fst m) p S ltac:(lia) S0 N0). lia.
    + intros i j m m' Hij H1. destruct i; discriminate.
    + intros m [].
    + intros x Hx. right. exists p. split; [exact S|]. split; [lia|]. intros k Hk E10.
      destruct (nl_exists p k) as (q & N); auto; try lia. now apply (NO q).
Qed.

End Split.

Lemma split_mbox : forall from_ok va after, is_mmdf va = false ->
  exists ms, build_new_message_list from_ok after va = Ok ms
  /\ (forall m, In m ms <-> is_message from_ok va (scan_start after) m)
  /\ in_file_order ms
  /\ (forall m, In m ms -> fst m + snd m <= N.of_nat (length va))
  /\ (forall p x, separator from_ok va (scan_start after) p -> p <= x < N.of_nat (length va) ->
        in_message ms x \/ on_separator from_ok va (scan_start after) x).
Proof.
  intros from_ok va after MM. unfold build_new_message_list. rewrite MM.
  assert ((match after with None => 0 | Some (s, l) => s + l + 0 end) = scan_start after) as ->.
  { destruct after as [[s l]|]; cbn [scan_start]; lia. }
  set (b := scan_start after).
  destruct (find_next_ok from_ok va b) as [(p & -> & SP & M)|(-> & NO)]; cbn [bind].
  - destruct (msg_loop_ok from_ok va b (S (S (length va))) p SP) as (ms & E & IN & ORD & LE & CV); [lia|].
    exists ms. split; auto. split; [|split; [|split]]; auto.
    + intros m. rewrite IN. split; [tauto|]. intros H. split; auto. destruct H as ((p0 & S0 & N0) & _).
      specialize (M p0 S0). apply (nl_gt from_ok) in N0. lia.
    + intros p' x S' Hx. apply CV. specialize (M p' S'). lia.
  - exists []. cbn [msg_loop]. split; auto. split; [intros m; split|split; [|split]].
    + intros [].
    + intros ((p0 & S0 & _) & _). destruct (NO p0 S0).
    + intros i j m m' Hij H1. destruct i; discriminate.
    + intros m [].
    + intros p x SP. destruct (NO p SP).
Qed.
