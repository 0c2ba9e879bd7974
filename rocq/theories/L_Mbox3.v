From Verif Require Import Base M_DbFile M_Mbox S_Mbox L_Mbox L_Mbox2.
Local Open Scope N_scope.

(* --- the MMDF automaton --- *)
Definition ones (j : nat) : bytes := 10 :: repeat 1 j.
Definition st_ok (u : bytes) (st : N) : Prop :=
  st <= 5 /\ forall j, (j <= 4)%nat -> (st = N.of_nat j + 1 <-> ends u (ones j)).

Lemma ends_1 : forall u j, ends (u ++ [1]) (ones (S j)) <-> ends u (ones j).
Proof.
  intros u j. assert (E : ones (S j) = ones j ++ [1]).
  { unfold ones. cbn [app]. f_equal. now rewrite <- repeat_cons. }
  rewrite E, ends_snoc. tauto.
Qed.
Lemma ends_10 : forall u c, ends (u ++ [c]) (ones 0) <-> c = 10.
Proof.
  intros u c. change (ones 0) with ([] ++ [10]). rewrite ends_snoc. split; [tauto|]. intros ->. split; auto.
  exists u. now rewrite app_nil_r.
Qed.
Lemma ends_other : forall u c j, c <> 1 -> ~ ends (u ++ [c]) (ones (S j)).
Proof.
  intros u c j N. assert (E : ones (S j) = ones j ++ [1]).
  { unfold ones. cbn [app]. f_equal. now rewrite <- repeat_cons. }
  rewrite E, ends_snoc. tauto.
Qed.
Definition st_next (c st : N) : N := N.land (N.shiftr (mmdftab c) (st * 4)) 15.
Lemma st_next_ok : forall c st, st <= 5 ->
  st_next c st = if c =? 10 then (if st =? 5 then 15 else 1) else if c =? 1 then (if (st =? 0) || (st =? 5) then 0 else st + 1) else 0.
Proof.
  intros c st H. assert (D : st = 0 \/ st = 1 \/ st = 2 \/ st = 3 \/ st = 4 \/ st = 5) by lia.
  unfold st_next, mmdftab. destruct (c =? 10), (c =? 1); repeat destruct D as [->|D]; try subst st; reflexivity.
Qed.
Lemma step_st : forall u st c, st_ok u st -> st_next c st <> 15 -> st_ok (u ++ [c]) (st_next c st).
Proof.
  intros u st c [B T]. rewrite st_next_ok by auto. destruct (N.eqb_spec c 10) as [->|N10].
  - destruct (st =? 5); [congruence|]. intros _. split; [lia|]. intros [|j] Hj.
    + rewrite ends_10. split; auto.
    + split; [lia|]. intros X. now apply ends_other in X.
  - intros _. destruct (N.eqb_spec c 1) as [->|N1].
    + destruct (N.eqb_spec st 0) as [->|Z]; [|destruct (N.eqb_spec st 5) as [->|F]]; cbn [orb].
      * split; [lia|]. intros [|j] Hj; [rewrite ends_10; split; [lia|discriminate]|].
        split; [lia|]. rewrite ends_1. intros X. apply (proj2 (T j ltac:(lia))) in X. lia.
      * split; [lia|]. intros [|j] Hj; [rewrite ends_10; split; [lia|discriminate]|].
        split; [lia|]. rewrite ends_1. intros X. apply (proj2 (T j ltac:(lia))) in X. lia.
      * split; [lia|]. intros [|j] Hj; [rewrite ends_10; split; [lia|discriminate]|].
        rewrite ends_1, <- (T j) by lia. lia.
    + split; [lia|]. intros [|j] Hj; [rewrite ends_10; split; [lia|congruence]|].
      split; [lia|]. intros X. now apply ends_other in X.
Qed.

Definition nlsep : bytes := 10 :: mmdf_sep.
Lemma mmdf_loop_ok : forall rest u n st b T,
  T = u ++ rest -> u <> [] -> n = b + N.of_nat (length u) - 1 -> st_ok u st ->
  (forall v w, T = v ++ nlsep ++ w -> (length u < length v + 6)%nat) ->
  (exists v w, mmdf_loop n rest st = Some (b + N.of_nat (length v)) /\ T = v ++ nlsep ++ w
     /\ forall v' w', T = v' ++ nlsep ++ w' -> (length v <= length v')%nat)
  \/ (mmdf_loop n rest st = None /\ forall v w, T <> v ++ nlsep ++ w).
Proof.
  induction rest as [|c rest IH]; intros u n st b T HT NE Hn ST OLD; cbn [mmdf_loop].
  - right. split; auto. intros v w E. assert (L := OLD v w E). rewrite HT, app_nil_r in E. apply (f_equal (@length N)) in E.
    rewrite !app_length in E. change (length nlsep) with 6%nat in E. lia.
  - fold (st_next c st). destruct (N.eqb_spec (st_next c st) 15) as [E15|N15].
    + rewrite st_next_ok in E15 by apply ST. destruct (N.eqb_spec c 10) as [->|]; [|destruct (c =? 1); [destruct ((st =? 0) || (st =? 5)); destruct ST; lia|discriminate]].
      destruct (N.eqb_spec st 5) as [->|]; [|discriminate].
      destruct ST as [_ T4]. destruct (proj1 (T4 4%nat ltac:(lia)) eq_refl) as (v & ->).
      left. exists v, rest. repeat split.
      * rewrite app_length in Hn. cbn [length ones repeat] in Hn. f_equal. lia.
      * rewrite HT. rewrite <- app_assoc. reflexivity.
      * intros v' w' E. specialize (OLD v' w' E). rewrite app_length in OLD. cbn [length ones repeat] in OLD. lia.
    + apply (IH (u ++ [c])); auto.
      * now rewrite <- app_assoc.
      * destruct u; discriminate.
      * rewrite app_length. cbn [length]. destruct u; [congruence|]. cbn [length] in *. lia.
      * now apply step_st.
      * intros v w E. assert (L := OLD v w E). rewrite app_length. cbn [length]. destruct (Nat.eq_dec (length u + 1) (length v + 6)); [|lia].
        exfalso. assert (E' : (u ++ [c]) ++ rest = (v ++ nlsep) ++ w) by (rewrite <- !app_assoc; cbn [app]; congruence).
        apply app_len_inj in E'; [|rewrite !app_length; change (length nlsep) with 6%nat; cbn [length]; lia]. clear E. destruct E' as [E _].
        change nlsep with (ones 4 ++ [10]) in E. rewrite app_assoc in E. apply app_inj_tail in E. destruct E as [-> ->].
        apply N15. destruct ST as [B T4]. assert (st = 5) as -> by (apply (T4 4%nat); [lia|now exists v]). reflexivity.
Qed.

Lemma ends_line_10 : forall a, ends_line a <-> exists v, 10 :: a = v ++ [10] /\ length v = length a.
Proof.
  intros a. split.
  - intros [->|(a' & ->)]; [exists []; auto|]. exists (10 :: a'). split; auto. rewrite app_length. cbn. lia.
  - intros (v & E & L). destruct v as [|x v]; [injection E as ->; now left|]. injection E as <- ->. right. now exists v.
Qed.
Lemma sep_tail : forall s, (forall v w, 10 :: s = v ++ nlsep ++ w <-> exists a, s = a ++ mmdf_sep ++ w /\ ends_line a /\ 10 :: a = v ++ [10]).
Proof.
  intros s v w. split.
  - intros E. destruct v as [|x v].
    + cbn [app nlsep] in E. injection E as ->. exists []. repeat split. now left.
    + cbn [app] in E. injection E as <- ->. exists (v ++ [10]). repeat split.
      * unfold nlsep. now rewrite <- app_assoc.
      * right. now exists v.
  - intros (a & -> & _ & E). change (10 :: a ++ mmdf_sep ++ w) with ((10 :: a) ++ mmdf_sep ++ w). rewrite E. now rewrite <- app_assoc.
Qed.
Lemma find_mmdf_ok : forall va n,
  (exists a c, find_next_mmdfsep n va = Ok (Some (n + N.of_nat (length a))) /\ first_sep (from va n) a c)
  \/ (find_next_mmdfsep n va = Ok None /\ no_sep (from va n)).
Proof.
  intros va n. unfold find_next_mmdfsep. fold (from va n). change (N.land (mmdftab 10) 15) with 1.
  destruct (mmdf_loop_ok (from va n) [10] n 1 n (10 :: from va n)) as [(v & w & E & ET & M)|(E & NO)]; auto.
  - discriminate.
  - cbn. lia.
  - split; [lia|]. intros [|j] Hj; [split; auto; intros _; now exists []|]. split; [lia|].
    intros (v & X). apply (f_equal (@length N)) in X. rewrite app_length in X. cbn in X. lia.
  - intros v w _. cbn. lia.
  - left. apply sep_tail in ET. destruct ET as (a & Es & EL & Ea).
    assert (L : length v = length a) by (apply (f_equal (@length N)) in Ea; rewrite app_length in Ea; cbn in Ea; lia).
    exists a, w. rewrite E, L. split; auto. split; [exact Es|]. split; [exact EL|].
    intros a' c' EL' E'. apply ends_line_10 in EL' as H. destruct H as (v' & Ev & L').
    rewrite <- L, <- L'. apply (M v' c'). apply sep_tail. exists a'. auto.
  - right. rewrite E. split; auto. intros a c EL E'. apply ends_line_10 in EL as H. destruct H as (v & Ev & _).
    apply (NO v c). apply sep_tail. exists a. auto.
Qed.
Lemma skip_ok : forall va n, (exists s, skip_mmdfsep n va = Ok (Some (n + 5)) /\ from va n = mmdf_sep ++ s /\ from va (n + 5) = s)
  \/ (skip_mmdfsep n va = Ok None /\ forall r, from va n <> mmdf_sep ++ r).
Proof.
  intros va n. unfold skip_mmdfsep. fold (from va n). destruct (bytes_eqb (firstn 5 (from va n)) mmdf_sep) eqn:E.
  - left. apply bytes_eqb_iff in E. exists (skipn 5 (from va n)). split; auto. split.
    + rewrite <- E. now rewrite firstn_skipn.
    + unfold from. rewrite skipn_skipn'. f_equal. lia.
  - right. split; auto. intros r X. rewrite X in E. cbn in E. discriminate.
Qed.

Lemma from_app : forall va n x r, from va n = x ++ r -> from va (n + N.of_nat (length x)) = r.
Proof.
  intros va n x r E. unfold from in *. replace (N.to_nat (n + N.of_nat (length x))) with (N.to_nat n + length x)%nat by lia.
  rewrite <- skipn_skipn', E, skipn_app, skipn_all2 by lia. now rewrite Nat.sub_diag.
Qed.

Lemma mmdf_msg_loop : forall va, is_mmdf va = true -> forall f o, (N.to_nat (N.of_nat (length va) - o) + 1 < f)%nat ->
  exists ms, msg_loop f 5 skip_mmdfsep find_next_mmdfsep va (Some o) = Ok ms /\ mmdf_messages o (from va o) ms.
Proof.
  intros va MM. induction f as [|f IH]; intros o F; [lia|]. cbn [msg_loop].
  destruct (skip_ok va o) as [(s & -> & E1 & E2)|(-> & NO)]; cbn [bind].
  - assert (FL := from_len va o). rewrite E1, app_length in FL. change (length mmdf_sep) with 5%nat in FL.
    rewrite E1. destruct (find_mmdf_ok va (o + 5)) as [(a & c & -> & FS)|(-> & NS)]; cbn [bind].
    + rewrite E2 in FS. destruct FS as (Es & FS1 & FS2).
      destruct (IH (o + 5 + N.of_nat (length a) + 5)) as (ms & -> & MS).
      { lia. }
      cbn [bind]. eexists. split; [reflexivity|].
      replace (o + 5 + N.of_nat (length a) - (o + 5)) with (N.of_nat (length a)) by lia.
      apply Mm_more with (s' := c); [split; auto|].
      replace (o + N.of_nat (length a) + 10) with (o + 5 + N.of_nat (length a) + 5) by lia.
      replace c with (from va (o + 5 + N.of_nat (length a) + 5)); auto.
      rewrite Es in E2. apply from_app in E2. apply from_app in E2. exact E2.
    + change (5 =? 0) with false. cbv iota. change (5 - 1) with 4. rewrite E2 in NS.
      destruct f as [|f]; [lia|]. cbn [msg_loop]. destruct (skip_ok va 4) as [(s' & _ & X & _)|(-> & _)].
      * exfalso. unfold is_mmdf in MM. apply andb_prop in MM. destruct MM as [_ MM]. apply bytes_eqb_iff in MM.
        assert (Y : nth_error (firstn 5 va) 4 = Some 10) by (rewrite MM; reflexivity).
        assert (Z : nth_error va 4 = Some 1).
        { replace 4%nat with (N.to_nat 4 + 0)%nat by reflexivity. rewrite <- nth_error_skipn'. fold (from va 4). rewrite X. reflexivity. }
        destruct va as [|x0 [|x1 [|x2 [|x3 [|x4 va]]]]]; cbn in Y, Z; congruence.
      * cbn [bind]. eexists. split; [reflexivity|].
        replace (N.of_nat (length va) - (o + 5)) with (N.of_nat (length s)) by lia. now apply Mm_last.
  - exists []. split; auto. now apply Mm_end.
Qed.
Lemma mmdf_layout : forall o s ms, mmdf_messages o s ms ->
  in_file_order ms /\ (forall m, In m ms -> o + 5 <= fst m /\ fst m + snd m <= o + N.of_nat (length s)).
Proof.
  induction 1 as [o s H|o body H|o s body s' ms H M [IH1 IH2]].
  - split; [|intros m []]. intros i j m m' Hij H1. destruct i; discriminate.
  - split.
    + intros i j m m' Hij H1 H2. destruct j as [|j]; [lia|]. destruct j; discriminate.
    + intros m [<-|[]]. cbn [fst snd]. rewrite app_length. change (length mmdf_sep) with 5%nat. lia.
  - destruct H as (-> & _ & _). split.
    + intros i j m m' Hij H1 H2. destruct j as [|j]; [lia|]. cbn [nth_error] in H2. destruct i as [|i]; cbn [nth_error] in H1.
      * injection H1 as <-. apply nth_error_In in H2. apply IH2 in H2. cbn [fst snd]. lia.
      * apply (IH1 i j); auto. lia.
    + intros m I. rewrite !app_length. change (length mmdf_sep) with 5%nat. destruct I as [<-|I]; [cbn [fst snd]; lia|]. apply IH2 in I. lia.
Qed.
Lemma split_mmdf : forall from_ok va after, is_mmdf va = true ->
  exists ms, build_new_message_list from_ok after va = Ok ms
  /\ (let b := match after with None => 0 | Some _ => scan_start after + 5 end in
      (no_sep (from va b) /\ ms = []) \/
      exists a c, first_sep (from va b) a c /\ mmdf_messages (b + N.of_nat (length a)) (mmdf_sep ++ c) ms)
  /\ in_file_order ms
  /\ (forall m, In m ms -> fst m + snd m <= N.of_nat (length va)).
Proof.
  intros from_ok va after MM. unfold build_new_message_list. rewrite MM.
  assert ((match after with None => 0 | Some (s, l) => s + l + 5 end) = match after with None => 0 | Some _ => scan_start after + 5 end) as ->.
  { destruct after as [[s l]|]; reflexivity. }
  set (b := match after with None => 0 | Some _ => scan_start after + 5 end). cbv zeta.
  destruct (find_mmdf_ok va b) as [(a & c & -> & FS)|(-> & NO)]; cbn [bind].
  - destruct (mmdf_msg_loop va MM (S (S (length va))) (b + N.of_nat (length a))) as (ms & E & M); [lia|].
    exists ms. split; auto. assert (X : from va (b + N.of_nat (length a)) = mmdf_sep ++ c).
    { destruct FS as (E1 & _). now apply from_app in E1. }
    rewrite X in M. split; [right; eauto|]. destruct (mmdf_layout _ _ _ M) as [L1 L2]. split; auto.
    intros m I. apply L2 in I. rewrite <- X in I. rewrite from_len in I.
    destruct (N.le_gt_cases (b + N.of_nat (length a)) (N.of_nat (length va))) as [Q|Q]; [lia|].
    exfalso. assert (Y := from_len va (b + N.of_nat (length a))). rewrite X, app_length in Y. change (length mmdf_sep) with 5%nat in Y. lia.
  - exists []. cbn [msg_loop]. split; auto. split; [left; auto|]. split; [|intros m []].
    intros i j m m' Hij H1. destruct i; discriminate.
Qed.
